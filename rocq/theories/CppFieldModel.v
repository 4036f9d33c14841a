(** Model of the fields in the C++ movers for charged particles: [interpolate_field_to_points] in /repo/cpp/dolfin_functions.cpp and
    the segment loop of /repo/cpp/advance_charged_species_in_E_field_{cartesian_x,cartesian_xy,spherical_r}.cpp, which have the same
    text up to the number of coordinates.  Line numbers without a file are those of cartesian_x. *)
From stdpp Require Import strings.
From Verif Require Export SapCpp CppTrackModel MeshFieldModel.

Section Interpolate.
(** The space of the field; the number of cells of its mesh; [field_at_points.shape(1)]. *)
Context (V : vspace) (ncells : Z) (n : nat).

(** Both versions of [interpolate_field_to_points]: dolfin_functions.cpp lines 496-542 (numpy array of points) and 566-605 (C array).
    [out] is the data of the array [field_at_points], row after row.  The values of the degrees of freedom of the particle's cell
    are copied to the address of element (ip, 0).  [cell_dofs] of a cell that does not exist reads outside of the table, and
    [get_local] writes as many numbers as the cell has degrees of freedom, also outside of the array. *)
Fixpoint cpp_interpolate_from (a : list R) (pts : list particle) (ip : nat) (out : list R) : res (list R) :=
  match pts with
  | [] => Ok out
  | p :: r =>
    if (pcell p <? 0)%Z || (ncells <=? pcell p)%Z then Raise UndefinedBehaviour else
    let! vals := gather a (vs_dofs V (pcell p)) in
    let! out1 := CppTrackModel.store out (ip * n) vals in
    cpp_interpolate_from a r (S ip) out1
  end.
Definition cpp_interpolate (a : list R) (pts : list particle) (out : list R) : res (list R) := cpp_interpolate_from a pts 0 out.
End Interpolate.

(** The arrays [negE], [Eext] and [zeroE] of the particle object (lines 68-70; Particle_Module.py lines 538-541: SEGMENT_LENGTH rows),
    row after row, and the pointer [EsegPtr] (None: nullptr; Some true: &negE; Some false: &zeroE). *)
Record cfields := CFields {
  cf_negE : list R;
  cf_Eext : list R;
  cf_zeroE : list R;
  cf_ptr : option bool
}.

Section Charged.
Context (fl : R -> R) (mv : cmover) (ncells : Z).
(** [neg_E_field] and [external_E_field], None for nullptr.  [solved] and [ext]: None when the attribute of the control object is
    None, else the entry of the species ([std::map::operator[]] gives false for a species without an entry). *)
Context (negE Eext : option (vspace * list R)) (solved ext : option bool).

(** The flag, or the entry of the species: lines 98-128, 190, 219. *)
Definition c_applies (o : option bool) : bool := match o with Some false => false | _ => true end.
(** The number of columns of the arrays.  It is taken to be the number of coordinates of the mover, which reads and writes that many
    (lines 276-278, 407-416; cartesian_xy lines 240-242): [force_components] has as many names. *)
Definition c_comps : nat := m_dim mv.

(** [EsegProxy(i,j) *= -1.0] for the first rows, [k] numbers: lines 198-208. *)
Definition c_flip (k : nat) (x : list R) : res (list R) :=
  if (length x <? k)%nat then Raise UndefinedBehaviour else Ok (map (fun v => fl (v * -1)) (take k x) ++ drop k x).
(** [EsegProxy(i,j) += EextProxy(i,j)]: lines 224-235. *)
Definition c_add (k : nat) (x y : list R) : res (list R) :=
  if (length x <? k)%nat || (length y <? k)%nat then Raise UndefinedBehaviour
  else Ok (zip_with (fun v w => fl (v + w)) (take k x) (take k y) ++ drop k x).

(** The solved field at the particles [ps] of a segment: lines 187-215 (cartesian_xy 157-184, spherical_r 192-220). *)
Definition cpp_prep_solved (f : cfields) (ps : list particle) : res cfields :=
  match negE with
  | Some (V, a) =>
    if c_applies solved then
      let! x := cpp_interpolate V ncells c_comps a ps (cf_negE f) in
      let! y := c_flip (length ps * c_comps) x in
      Ok (CFields y (cf_Eext f) (cf_zeroE f) (Some true))
    else Ok f
  | None => Ok (CFields (cf_negE f) (cf_Eext f) (cf_zeroE f) (Some false))
  end.
(** With the external field: lines 217-237 (cartesian_xy 186-206, spherical_r 222-242).  The call that would compute it is commented
    out (line 223). *)
Definition cpp_prep (f : cfields) (ps : list particle) : res cfields :=
  let! f1 := cpp_prep_solved f ps in
  match Eext with
  | None => Ok f1
  | Some _ =>
    if c_applies ext then
      match cf_ptr f1 with
      | None => Raise UndefinedBehaviour
      | Some true => let! y := c_add (length ps * c_comps) (cf_negE f1) (cf_Eext f1) in Ok (CFields y (cf_Eext f1) (cf_zeroE f1) (Some true))
      | Some false => let! y := c_add (length ps * c_comps) (cf_zeroE f1) (cf_Eext f1) in Ok (CFields (cf_negE f1) (cf_Eext f1) y (Some false))
      end
    else Ok f1
  end.

(** Row [ip] of the array that [EsegPtr] points to: lines 273-279, 405-407. *)
Definition cpp_row (f : cfields) (ip : Z) : res (option vec) :=
  match cf_ptr f with
  | None => Ok None
  | Some b => let! e := doubles (if b then cf_negE f else cf_zeroE f) (Z.to_nat ip * c_comps) c_comps in Ok (Some e)
  end.

Context (sn : string) (step : Z) (time dt qom : R) (maxc : Z) (cm : cmesh) (cbcs : Z -> option (cbcfun (K:=option traj))).
(** What the arrays [E1_comps] and [Eext1_comps] (lines 72-73) hold at the start of the pass: memory that was not set
    (Particle_Module.py lines 555, 562), or the field at the last new trajectory particle (lines 3051-3072). *)
Context (E1 Eext1 : vec).

(** Recording of a boundary crossing: lines 398-419 (cartesian_xy 358-379, spherical_r 403-424).  [EsegPtr->] with a null pointer is
    undefined.  Only the first component of the field is copied, in all three movers.  The Python function that is called is that of
    TrajModel.v. *)
Definition cpp_record (Es : option vec) (x : vec) (T : option traj) (fi : Z) (p : particle) (t : R) : res (option traj) :=
  match Es with
  | None => Raise UndefinedBehaviour
  | Some e => record_datum T sn p fi step t (take 1 e ++ drop 1 E1) (take 1 x ++ drop 1 Eext1) true
  end.

(** Bookkeeping after tracking: lines 475-510. *)
Definition cpp_is_dropped (q : particle) : bool := negb (Z.land (pbits q) DELETE_FLAG =? 0)%Z.
Definition cpp_keep (c : scratch * option traj) (ch : bool) (fi fo : Z) (q : particle) : res (scratch * option traj) :=
  match snd c with
  | Some T => if is_traj q then if ch then let! T1 := update_particleId T sn fi fo in Ok (fst c, Some T1) else Ok c else Ok c
  | None => Ok c
  end.
Definition cpp_drop (c : scratch * option traj) (fi : Z) (p q : particle) : res (scratch * option traj) :=
  match snd c with
  | Some T => if is_traj p then let! T1 := remove_particleId fl T sn q fi step time dt (replicate c_comps 0) in Ok (fst c, Some T1) else Ok c
  | None => Ok c
  end.

(** What is done with a particle, given its field and the row of [Eext]: lines 240-522. *)
Definition cpp_hooks (Es : particle -> res (option vec * vec)) : hooks particle (scratch * option traj) :=
  Hooks
    (fun c fi p =>
       let! (E, x) := Es p in
       let! (q, s1, T1) := cpp_advance_charged fl cbcs (cpp_record E x) mv false cm maxc fi time dt (fl (qom * dt)) E p (fst c) (snd c) in
       Ok (q, (s1, T1)))
    cpp_is_dropped cpp_keep cpp_drop.
(** For the particle at position [ipIn] of the segment.  (The row of [Eext] is read only when a crossing is recorded; it is read here
    for every particle.) *)
Definition cpp_hooks_at (f : cfields) (ipIn : Z) : hooks particle (scratch * option traj) :=
  cpp_hooks (fun _ =>
    let! E := cpp_row f ipIn in
    let! x := doubles (cf_Eext f) (Z.to_nat ipIn * c_comps) c_comps in
    Ok (E, x)).

(** The whole mover, after the test in Python that the species has particles (Particle_Module.py lines 1401-1410).  [EsegPtr] is set
    to nullptr before the first segment (line 179). *)
Definition cpp_charged_bmover (s : sap particle) (c : scratch * option traj) (f : cfields)
  : res (sap particle * (scratch * option traj) * cfields) :=
  if (get_number_of_items s =? 0)%Z then Ok (s, c, f) else
  bmover (cpp_ops particle) cpp_prep cpp_hooks_at s c (CFields (cf_negE f) (cf_Eext f) (cf_zeroE f) None).
End Charged.
