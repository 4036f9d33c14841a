(** Model of the fields on a mesh, [Field_C] in /repo/Dolfin_Module.py, as far as it sets, combines and interpolates values, and
    of the way in which [advance_charged_species_in_E_field] (/repo/Particle_Module.py) uses them: the field is interpolated for
    a whole segment of particles before the particles of the segment are moved. *)
From stdpp Require Import strings.
From Verif Require Export Vec SapModel MoverModel TrackModel TrajModel DensityModel.

(** What DOLFIN supplies for the function space of a [Field_C] (lines 917-927): the numbers of the degrees of freedom of a cell
    ([dofmap().cell_dofs], lines 988, 1036, 1072), the cell that it finds for a point (None: the point is outside of the mesh) and
    the vector values of the basis functions of a cell at a point (a scalar field has vectors of length one). *)
Record vspace := VSpace {
  vs_dofs : Z -> list nat;
  vs_locate : vec -> option Z;
  vs_basis : Z -> vec -> list vec
}.

Section Values.
Context (fl : R -> R) (V : vspace).
(** [np_m.random.normal]: the [k]-th standard normal number of the stream. *)
Context (z : nat -> R).

(** [np_m.random.normal(0.0, sd, n)], at position [k] of the stream: lines 1017, 1061, 1066.  A negative deviation is a
    ValueError.  (The sum with the mean 0.0 is exact.) *)
Definition normals_at (sd : R) (n k : nat) : res (list R * nat) :=
  if Rltb sd 0 then Raise ValueError else Ok (map (fun i => fl (sd * z (k + i))) (seq 0 n), (k + n)%nat).

(** [a[idx] *= m] for an array of indices: line 1037. *)
Definition scale_at (a : list R) (m : R) (idx : list nat) : res (list R) :=
  let! old := gather a idx in Ok (scatter a idx (map (fun x => fl (x * m)) old)).
(** [a[idx] = v] for one number: lines 991, 1073. *)
Definition put_at (a : list R) (v : R) (idx : list nat) : res (list R) :=
  let! old := gather a idx in Ok (scatter a idx (map (fun _ => v) old)).

(** The loops over the cells of a subdomain ([subdomain.cell_index], CellSet_C, lines 1822-1832): lines 984-991, 1024-1037
    and, with one number per cell, 1070-1073. *)
Fixpoint put_cells (value : R) (cells : list Z) (a : list R) : res (list R) :=
  match cells with
  | [] => Ok a
  | c :: r => let! a1 := put_at a value (vs_dofs V c) in put_cells value r a1
  end.
Fixpoint scale_cells (m : R) (cells : list Z) (a : list R) : res (list R) :=
  match cells with
  | [] => Ok a
  | c :: r => let! a1 := scale_at a m (vs_dofs V c) in scale_cells m r a1
  end.
Fixpoint put_each (cells : list Z) (vals : list R) (a : list R) : res (list R) :=
  match cells, vals with
  | c :: r, v :: vs => let! a1 := put_at a v (vs_dofs V c) in put_each r vs a1
  | _, _ => Ok a
  end.

(** [set_values(value, subdomain)]: lines 963-994.  [a] is [function_values]. *)
Definition set_values (value : R) (sub : option (list Z)) (a : list R) : res (list R) :=
  match sub with
  | None => Ok (map (fun _ => value) a)
  | Some cells => put_cells value cells (map (fun _ => 0) a)
  end.

(** [multiply_values(multiplier, gaussian, subdomain)]: lines 997-1041.  With a subdomain, [gaussian] is not looked at. *)
Definition multiply_values (m : R) (gaussian : bool) (sub : option (list Z)) (a : list R) (k : nat) : res (list R * nat) :=
  match sub with
  | None =>
    if gaussian then let! (rv, k1) := normals_at m (length a) k in Ok (zip_with (fun x y => fl (x * y)) a rv, k1)
    else Ok (map (fun x => fl (x * m)) a, k)
  | Some cells => let! a1 := scale_cells m cells a in Ok (a1, k)
  end.

(** [set_gaussian_values(standard_deviation, subdomain)]: lines 1044-1077.  [randomVals] is [scratch_array], which has
    [function_len] elements (line 931): the assignment of line 1066 is a ValueError if the subdomain has more cells. *)
Definition set_gaussian_values (sd : R) (sub : option (list Z)) (a : list R) (k : nat) : res (list R * nat) :=
  match sub with
  | None => normals_at sd (length a) k
  | Some cells =>
    let! (rv, k1) := normals_at sd (length cells) k in
    if (length a <? length cells)%nat then Raise ValueError else
    let! a1 := put_each cells rv (map (fun _ => 0) a) in Ok (a1, k1)
  end.

(** [self.function(p)]: lines 1141, 1190.  The sum of the values of the degrees of freedom of the cell times the basis functions.
    Outside of the mesh DOLFIN raises RuntimeError (extrapolation is not allowed by default and the code does not change it). *)
Definition combine (n : nat) (vals : list R) (bs : list vec) : vec :=
  fold_left (fun s vb => vadd fl s (vscale fl (fst vb) (snd vb))) (zip vals bs) (replicate n 0).
Definition fe_eval (n : nat) (a : list R) (x : vec) : res vec :=
  match vs_locate V x with
  | None => Raise RuntimeError
  | Some c => let! vals := gather a (vs_dofs V c) in Ok (combine n vals (vs_basis V c x))
  end.

(** [field_at_points[ip] = v]: lines 1147-1148 and 1196 (line 1196 assigns the array as a whole, which some versions of numpy
    refuse for a structured array; taken as the copy of the components). *)
Definition put_row (out : list vec) (ip : nat) (v : vec) : res (list vec) :=
  if (ip <? length out)%nat then Ok (<[ip := v]> out) else Raise IndexError.

(** [interpolate_field_to_points(points, field_at_points)]: lines 1104-1154; [n] is the number of field components, [gdim] the
    number of coordinates of the mesh; [ip] counts the points. *)
Context (n gdim : nat).
Fixpoint interpolate_from (a : list R) (pts : list particle) (ip : nat) (out : list vec) : res (list vec) :=
  match pts with
  | [] => Ok out
  | p :: r =>
    let! v := fe_eval n a (take gdim (px p)) in
    let! out1 := put_row out ip v in
    interpolate_from a r (S ip) out1
  end.
Definition interpolate (a : list R) (pts : list particle) (out : list vec) : res (list vec) := interpolate_from a pts 0 out.

(** [np_m.linalg.norm(fieldValue)]: line 1193. *)
Definition norm (v : vec) : R := fl (R_sqrt.sqrt (vdot fl v v)).

(** [interpolate_random_field_to_points(points, field_at_points)]: lines 1157-1202.  A number is drawn only for a field that is
    not zero; [randomVals[0]] needs a field with at least one value. *)
Fixpoint interpolate_random_from (a : list R) (pts : list particle) (ip : nat) (out : list vec) (k : nat)
  : res (list vec * nat) :=
  match pts with
  | [] => Ok (out, k)
  | p :: r =>
    let! v := fe_eval n a (take gdim (px p)) in
    if Reqb (norm v) 0 then
      let! out1 := put_row out ip v in interpolate_random_from a r (S ip) out1 k
    else
      if (length a =? 0)%nat then Raise IndexError else
      let! out1 := put_row out ip (map (fun x => fl (x * fl (1 * z k))) v) in
      interpolate_random_from a r (S ip) out1 (S k)
  end.
Definition interpolate_random (a : list R) (pts : list particle) (out : list vec) (k : nat) : res (list vec * nat) :=
  interpolate_random_from a pts 0 out k.
End Values.

(** ** The mover with a field for each segment *)

(** Reading a slice [psegIn]: memory that was never written has no particle. *)
Fixpoint read_all {A} (v : list (option A)) : res (list A) :=
  match v with
  | [] => Ok []
  | Some p :: r => let! ps := read_all r in Ok (p :: ps)
  | None :: _ => Raise Uninitialised
  end.

Section Batch.
Context {A C F : Type} (ops : sap_ops A).
(** What is computed for a segment before its particles are moved, and what is then done with the particle at position [ipIn] of
    the segment. *)
Context (prep : F -> list A -> res F) (hk_at : F -> Z -> hooks A C).

(** [for ipIn in range(npSeg)]: Particle_Module.py lines 1569-1832. *)
Fixpoint bsegment (f : F) (iarr : bool) (iseg : Z) (m : mstate A C) (ipIn : Z) (k : nat) : res (mstate A C) :=
  match k with
  | O => Ok m
  | S k' => let! m1 := mover_particle ops (hk_at f ipIn) iarr iseg m ipIn in
            bsegment f iarr iseg m1 (ipIn + 1)%Z k'
  end.

(** [while isinstance(psegIn, np_m.ndarray)]: lines 1484-1837. *)
Fixpoint bsegments (fuel : nat) (f : F) (m : mstate A C) (iarr : bool) (iseg npSeg : Z) : res (mstate A C * F) :=
  match fuel with
  | O => Raise OutOfFuel
  | S fuel' =>
    let! v := slice (arr (ms_sap m) iarr) iseg npSeg in
    let! ps := read_all v in
    let! f1 := prep f ps in
    let! m1 := bsegment f1 iarr iseg m 0 (Z.to_nat npSeg) in
    let! (s2, np2) := op_next_in ops (ms_sap m1) in
    let m2 := MState s2 (ms_oarr m1) (ms_oseg m1) (ms_ipOut m1) (ms_count m1) (ms_change m1) (ms_ctx m1) in
    if (np2 =? 0)%Z then Ok (m2, f1)
    else bsegments fuel' f1 m2 iarr (cur (arr s2 iarr)) np2
  end.

(** The whole pass: lines 1475-1847. *)
Definition bmover (s : sap A) (c : C) (f : F) : res (sap A * C * F) :=
  let! (s1, (np, go)) := op_init_inout ops s in
  let m0 := MState s1 (out_sa s1) 0 0 0 false c in
  let! (m, f1) :=
    (if go then bsegments (Z.to_nat (nseg (arr s1 (in_sa s1)) + 1)) f m0 (in_sa s1) 0 np
     else Ok (m0, f)) in
  let n := if negb (ms_ipOut m =? slen s)%Z then (ms_count m + ms_ipOut m)%Z else ms_count m in
  Ok (op_set_out_count ops (ms_sap m) n, ms_ctx m, f1).
End Batch.

(** The fields of a call of [advance_charged_species_in_E_field]: [self.negE] and [self.Eext] (arrays with SEGMENT_LENGTH
    elements, lines 538-547), the position in the random numbers, and the local variables [Eseg] (None: Python's None) and
    [Eext_seg] (None: not bound). *)
Record segfields := SegFields {
  sf_negE : list vec;
  sf_Eext : list vec;
  sf_rng : nat;
  sf_Eseg : option (list vec);
  sf_Eext_seg : option (list vec)
}.

Section Charged.
Context (fl : R -> R) (z : nat -> R) (dE gdim : nat).
(** [neg_E_field] and [external_E_field]: the space and the values, None when the argument is None. *)
Context (negE Eext : option (vspace * list R)) (solved ext : option bool).

(** Lines 1492-1508, for the particles [ps] of the segment: the new contents of [self.negE], and [Eseg].  [Eseg] is a reference to
    the beginning of [self.negE], so the array changes with it. *)
Definition prep_solved (f : segfields) (ps : list particle) : res (list vec * option (list vec)) :=
  match negE with
  | Some (V, a) =>
    match solved with
    | Some false => Ok (sf_negE f, None)
    | _ =>
      let! arr1 := interpolate fl V dE gdim a ps (sf_negE f) in
      let E := map (map (fun x => fl (x * -1))) (take (length ps) arr1) in
      Ok (E ++ drop (length ps) arr1, Some E)
    end
  | None =>
    let E := map (fun _ => replicate dE 0) (take (length ps) (sf_negE f)) in
    Ok (E ++ drop (length ps) (sf_negE f), Some E)
  end.
(** Lines 1492-1521.  [Eseg.dtype] of None is an AttributeError. *)
Definition prep_fields (f : segfields) (ps : list particle) : res segfields :=
  let np := length ps in
  let! (negArr, Eseg) := prep_solved f ps in
  match Eext, ext with
  | Some _, Some false => Ok (SegFields negArr (sf_Eext f) (sf_rng f) Eseg (sf_Eext_seg f))
  | Some (V, a), _ =>
    let! (arr2, k1) := interpolate_random fl V z dE gdim a ps (sf_Eext f) (sf_rng f) in
    let X := take np arr2 in
    match Eseg with
    | None => Raise AttributeError
    | Some E =>
      let E1 := zip_with (vadd fl) E X in
      Ok (SegFields (E1 ++ drop np negArr) arr2 k1 (Some E1) (Some X))
    end
  | None, _ => Ok (SegFields negArr (sf_Eext f) (sf_rng f) Eseg (sf_Eext_seg f))
  end.

(** [Eseg[ipIn]] and [Eext_seg[ipIn]]: lines 1581-1590, 1735, 1754. *)
Definition row (l : list vec) (ip : Z) : res vec := py_get l ip.

Context (sn : string) (step : Z) (time dt qom : R) (maxc : Z) (m : mesh) (bcs : Z -> option (bcfun (K:=option traj)))
  (accel_only : bool).

(** What is done with the particle at position [ipIn] of the segment, as [charged_hooks] of TrajModel.v but with the fields of
    the segment's arrays. *)
Definition charged_hooks_at (f : segfields) (ipIn : Z) : hooks particle (tctx (K:=option traj)) :=
  Hooks
    (fun c fi p =>
       let! Es := match sf_Eseg f with None => Ok None | Some l => let! e := row l ipIn in Ok (Some e) end in
       let! X := match Eext, ext with
                 | None, _ => Ok None
                 | Some _, Some false => Ok (Some (fun _ => []))
                 | Some _, _ => match sf_Eext_seg f with
                                | None => Raise NameError
                                | Some l => let! x := row l ipIn in Ok (Some (fun _ : particle => x))
                                end
                 end in
       advance_charged fl bcs (rec_crossing_charged sn step dE Es X ext p)
         accel_only m maxc fi time dt (fl (qom * dt)) Es p c)
    is_deleted
    (keep_particle sn)
    (drop_particle fl sn step time dt (replicate dE 0)).

(** [advance_charged_species_in_E_field(sn, ctrl, neg_E_field, external_E_field, accel_only)]: lines 1416-1853. *)
Definition charged_bmover (s : sap particle) (c : tctx (K:=option traj)) (f : segfields)
  : res (sap particle * tctx (K:=option traj) * segfields) :=
  bmover (py_ops particle) prep_fields charged_hooks_at s c f.
(** [if self.get_species_particle_count(sn) == 0: continue], then the mover: [advance_charged_particles_in_E_field], lines
    1401-1410. *)
Definition charged_guarded_bmover (s : sap particle) (c : tctx (K:=option traj)) (f : segfields)
  : res (sap particle * tctx (K:=option traj) * segfields) :=
  if (get_number_of_items s =? 0)%Z then Ok (s, c, f) else charged_bmover s c f.
End Charged.
