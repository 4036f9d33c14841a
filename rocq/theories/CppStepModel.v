(** Model of the species loop with C++ movers, [advance_charged_particles_in_E_field] in /repo/Particle_Module.py lines 1391-1413 with
    [use_cpp_integrators], and of the charged particles in a time loop with either kind of movers. *)
From stdpp Require Import strings list_numbers.
From Verif Require Export SapCpp CppTrackModel MeshFieldModel CppFieldModel OldMoverModel.

Section Steps.
Context (fl : R -> R) (maxc : Z) (dt : R) (sns : list string) (solved ext : string -> option bool) (qom : string -> R).

(** ** The species loop with C++ movers *)

Section Cpp.
Context (mv : cmover) (ncells : Z) (cm : cmesh) (cbcs : string -> Z -> option (cbcfun (K:=option traj))) (E1 Eext1 : vec).

(** Lines 1401-1407.  A species without particles is left out.  [neg_E_field.function] of None is an AttributeError.  The external
    field is passed on as the Field_C object that it is, for which the parameter of type [dolfin::Function*] (particle_solib.cpp
    lines 88, 94, 98) has no conversion: pybind11 raises TypeError.  ([accel_only] is False: the C++ movers do not look at it, see
    CppTrackModel.v.  The arrays [E1_comps] and [Eext1_comps] are described in CppFieldModel.v: in this loop only their first
    components are written, each time before they are used.) *)
Fixpoint cpp_advance_charged_particles (negE Eext : option (vspace * list R)) (step : Z) (time : R) (names : list string) (saps : string -> sap particle)
    (c : scratch * option traj) (f : cfields) : res ((string -> sap particle) * (scratch * option traj) * cfields) :=
  match names with
  | [] => Ok (saps, c, f)
  | sn :: r =>
    if (c_get_number_of_items (saps sn) =? 0)%Z then cpp_advance_charged_particles negE Eext step time r saps c f else
    match negE with
    | None => Raise AttributeError
    | Some _ =>
      match Eext with
      | Some _ => Raise TypeError
      | None =>
        let! (s1, c1, f1) := cpp_charged_bmover fl mv ncells negE None (solved sn) (ext sn) sn step time dt (qom sn) maxc cm (cbcs sn) E1 Eext1 (saps sn) c f in
        cpp_advance_charged_particles negE Eext step time r (fun s => if String.eqb s sn then s1 else saps s) c1 f1
      end
    end
  end.
End Cpp.

(** ** A time loop *)

(** What a reader of a container gets: its elements in order. *)
Definition contents (num : sap particle -> Z) (item : sap particle -> Z -> res (option particle)) (s : sap particle)
  : list (res (option particle)) := map (item s) (seqZ 0 (num s)).

(** The time loop of /repo/examples/sphere1D/sphere1D.py, lines 1275-1367, for a program with charged species and without external
    field, sources, snapshots and histories.  [between] stands for the steps that only read the particles: the points of the
    trajectories (lines 1287-1290), the densities and the field solve (1304-1353).  It gets the field that the particles were moved in and the
    particles of every species in the order of the container.  (That the densities depend on nothing else of the containers is theorem C31.) *)
Context (between : Z -> R -> option (vspace * list R) -> list (list (res (option particle))) -> option traj -> res (option traj * option (vspace * list R))).

(** With the Python movers. *)
Section PyLoop.
Context (z : nat -> R) (dE gdim : nat) (m : mesh) (bcs : string -> Z -> option (bcfun (K:=option traj))).
Fixpoint py_time_loop (n : nat) (step : Z) (time : R) (saps : string -> sap particle) (v : vec) (T : option traj) (f : segfields)
    (negE : option (vspace * list R)) : res ((string -> sap particle) * vec * option traj * segfields * option (vspace * list R)) :=
  match n with
  | O => Ok (saps, v, T, f, negE)
  | S n' =>
    let! (saps1, c1, f1) := advance_charged_particles_in_E_field fl z dE gdim negE None (step + 1) (fl (time + dt)) dt maxc m false
                              solved ext qom bcs sns saps (TCtx v T) f in
    let! (T2, negE2) := between (step + 1)%Z (fl (time + dt)) negE (map (fun sn => contents get_number_of_items get_item (saps1 sn)) sns) (usr c1) in
    py_time_loop n' (step + 1) (fl (time + dt)) saps1 (scr c1) T2 f1 negE2
  end.
End PyLoop.

(** With the C++ movers. *)
Section CppLoop.
Context (mv : cmover) (ncells : Z) (cm : cmesh) (cbcs : string -> Z -> option (cbcfun (K:=option traj))) (E1 Eext1 : vec).
Fixpoint cpp_time_loop (n : nat) (step : Z) (time : R) (saps : string -> sap particle) (v : scratch) (T : option traj) (f : cfields)
    (negE : option (vspace * list R)) : res ((string -> sap particle) * scratch * option traj * cfields * option (vspace * list R)) :=
  match n with
  | O => Ok (saps, v, T, f, negE)
  | S n' =>
    let! (saps1, c1, f1) := cpp_advance_charged_particles mv ncells cm cbcs E1 Eext1 negE None (step + 1) (fl (time + dt)) sns saps (v, T) f in
    let! (T2, negE2) := between (step + 1)%Z (fl (time + dt)) negE (map (fun sn => contents c_get_number_of_items c_get_item (saps1 sn)) sns) (snd c1) in
    cpp_time_loop n' (step + 1) (fl (time + dt)) saps1 (fst c1) T2 f1 negE2
  end.
End CppLoop.
End Steps.
