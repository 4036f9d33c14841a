(** Model of the charged species moved one after the other with the fields of a mesh: [advance_charged_particles_in_E_field] and the
    older [move_particles_in_electrostatic_field] in /repo/Particle_Module.py.  (The second is what examples/random-accel/random-accel.py
    line 250 and examples/sphere1D/ion-test.py line 1164 call.) *)
From stdpp Require Import strings.
From Verif Require Export Vec SapModel MoverModel TrackModel TrajModel DensityModel MeshFieldModel.

Section Species.
Context (fl : R -> R) (z : nat -> R) (dE gdim : nat).
Context (negE Eext : option (vspace * list R)) (step : Z) (time dt : R) (maxc : Z) (m : mesh) (accel_only : bool).

(** Recording of a crossing in the older mover, line 1305: it passes [neg_E_field] and [external_E_field], which
    [record_trajectory_datum] (line 2430) has no parameters for.  The call is a TypeError whether or not there are trajectories. *)
Definition rec_crossing_old (c : tctx (K:=option traj)) (fi : Z) (p : particle) (t : R) : res (tctx (K:=option traj)) := Raise TypeError.

(** What the older mover does with the particle at position [ipIn] of the segment: lines 1151-1367.  The text is that of
    [advance_charged_species_in_E_field] except for the recording of a crossing (lines 1295-1305 instead of 1704-1768): the fields
    of the particle are not looked up for it. *)
Definition old_hooks_at (sn : string) (qom : R) (bcs : Z -> option (bcfun (K:=option traj))) (f : segfields) (ipIn : Z)
  : hooks particle (tctx (K:=option traj)) :=
  Hooks
    (fun c fi p =>
       let! Es := match sf_Eseg f with None => Ok None | Some l => let! e := row l ipIn in Ok (Some e) end in
       advance_charged fl bcs rec_crossing_old accel_only m maxc fi time dt (fl (qom * dt)) Es p c)
    is_deleted
    (keep_particle sn)
    (drop_particle fl sn step time dt (replicate dE 0)).

(** The body of [for sn in self.charged_species] in [move_particles_in_electrostatic_field]: lines 1059-1382. *)
Definition old_bmover (solved ext : option bool) (sn : string) (qom : R) (bcs : Z -> option (bcfun (K:=option traj)))
    (s : sap particle) (c : tctx (K:=option traj)) (f : segfields) : res (sap particle * tctx (K:=option traj) * segfields) :=
  if (get_number_of_items s =? 0)%Z then Ok (s, c, f)
  else bmover (py_ops particle) (prep_fields fl z dE gdim negE Eext solved ext) (old_hooks_at sn qom bcs) s c f.

(** The loops over the species.  The arrays [self.negE] and [self.Eext], the random numbers, the trajectories and the scratch
    vector are passed on.  [one] is what is done for a species; the local variables [Eseg] and [Eext_seg] are not bound when it
    starts.  (In the older mover, which is a single function, [Eext_seg] stays bound; but it is read only in the branch that binds
    it, lines 1112-1121.)  The flags and the other dictionaries are functions of the name (KeyError not modelled). *)
Definition fields_at_start (f : segfields) : segfields := SegFields (sf_negE f) (sf_Eext f) (sf_rng f) None None.
Fixpoint over_species (one : string -> sap particle -> tctx (K:=option traj) -> segfields -> res (sap particle * tctx (K:=option traj) * segfields))
    (sns : list string) (saps : string -> sap particle) (c : tctx (K:=option traj)) (f : segfields)
  : res ((string -> sap particle) * tctx (K:=option traj) * segfields) :=
  match sns with
  | [] => Ok (saps, c, f)
  | sn :: r =>
    let! (s1, c1, f1) := one sn (saps sn) c (fields_at_start f) in
    over_species one r (fun s => if String.eqb s sn then s1 else saps s) c1 f1
  end.

Context (solved ext : string -> option bool) (qom : string -> R) (bcs : string -> Z -> option (bcfun (K:=option traj))).

(** [move_particles_in_electrostatic_field(ctrl, neg_E_field, external_E_field, accel_only)]: lines 1016-1388. *)
Definition move_particles_in_electrostatic_field :=
  over_species (fun sn => old_bmover (solved sn) (ext sn) sn (qom sn) (bcs sn)).

(** [advance_charged_particles_in_E_field(ctrl, neg_E_field, external_E_field, accel_only)]: lines 1391-1413, with the Python mover
    for every species. *)
Definition advance_charged_particles_in_E_field :=
  over_species (fun sn => charged_guarded_bmover fl z dE gdim negE Eext (solved sn) (ext sn) sn step time dt (qom sn) maxc m (bcs sn) accel_only).
End Species.

(** The part of the time loop of examples/random-accel/random-accel.py that changes particles, lines 243-250: the counters are advanced and the
    older mover is called with [accel_only=True].  (The recordings of lines 254 and 256 read the particles; they are modelled in
    TrajModel.v and DiagModel.v and are left out here.  The set-up of that file calls [sap_dict[...].put], which the container class no
    longer has.) *)
Fixpoint accel_steps (fl : R -> R) (z : nat -> R) (dE gdim : nat) (Eext : option (vspace * list R)) (dt : R) (maxc : Z) (m : mesh)
    (solved ext : string -> option bool) (qom : string -> R) (bcs : string -> Z -> option (bcfun (K:=option traj))) (sns : list string)
    (n : nat) (step : Z) (time : R) (saps : string -> sap particle) (c : tctx (K:=option traj)) (f : segfields)
  : res ((string -> sap particle) * tctx (K:=option traj) * segfields) :=
  match n with
  | O => Ok (saps, c, f)
  | S n' =>
    let! (saps1, c1, f1) := move_particles_in_electrostatic_field fl z dE gdim None Eext (step + 1) (fl (time + dt)) dt maxc m true
                              solved ext qom bcs sns saps c f in
    accel_steps fl z dE gdim Eext dt maxc m solved ext qom bcs sns n' (step + 1) (fl (time + dt)) saps1 c1 f1
  end.
