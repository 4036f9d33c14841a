(** Model of the cell sets of /repo/Dolfin_Module.py: [CellSet_C], [RectangularRegion_C] and [SphericalRegion_C]. *)
From Verif Require Export SourceModel LineMeshModel.

(** What the constructors ask of a DOLFIN cell: [index()], [midpoint()] (a Point, three coordinates), [circumradius()]
    and [contains()]; Dolfin_Module.py lines 1807-1839, 1862. *)
Record dcell := DCell { d_index : Z; d_mid : vec; d_circ : R; d_contains : vec -> bool }.
(** The parts of [Mesh_C] that are used: [gdim], the cells in mesh order and [cell_volume_dict]. *)
Record dmesh := DMesh { dm_gdim : nat; dm_cells : list dcell; dm_volume : Z -> option R }.

(** A corner of a rectangular region: "a scalar for 1D, and a tuple for 2D, 3D", lines 1883-1884. *)
Inductive corner := Scalar (x : R) | Tuple (l : vec).

(** Python's [a and b] on boolean results. *)
Definition py_and (a b : res bool) : res bool := match a with Ok true => b | r => r end.

Section Region.
Context (fl : R -> R).

(** [tol], lines 1915 and 1988. *)
Definition region_tol : R := / 10 ^ 10.
(** [p[i]] for a corner: a number has no elements. *)
Definition corner_get (p : corner) (i : nat) : res R :=
  match p with Scalar _ => Raise TypeError | Tuple l => match l !! i with Some a => Ok a | None => Raise IndexError end end.
(** [p] used as a number: a tuple minus a number is a TypeError. *)
Definition corner_num (p : corner) : res R := match p with Scalar x => Ok x | Tuple _ => Raise TypeError end.
(** [x[i] >= lo - tol] and [x[i] <= hi + tol]; the midpoint is a Point, so that [x[i]] exists for [i < 3]. *)
Definition ge_lo (x : vec) (i : nat) (lo : res R) : res bool :=
  let! a := lo in match x !! i with None => Raise IndexError | Some xi => Ok (negb (Rltb xi (fl (a - region_tol)))) end.
Definition le_hi (x : vec) (i : nat) (hi : res R) : res bool :=
  let! b := hi in match x !! i with None => Raise IndexError | Some xi => Ok (negb (Rltb (fl (b + region_tol)) xi)) end.
Definition in_range (x : vec) (i : nat) (lo hi : res R) : res bool := py_and (ge_lo x i lo) (le_hi x i hi).

(** [RectangularRegion_C.inside(x)]: lines 1904-1926. *)
Definition rect_inside (gdim : nat) (pmin pmax : corner) (x : vec) : res bool :=
  match gdim with
  | 3%nat => py_and (in_range x 0 (corner_get pmin 0) (corner_get pmax 0))
              (py_and (in_range x 1 (corner_get pmin 1) (corner_get pmax 1)) (in_range x 2 (corner_get pmin 2) (corner_get pmax 2)))
  | 2%nat => py_and (in_range x 0 (corner_get pmin 0) (corner_get pmax 0)) (in_range x 1 (corner_get pmin 1) (corner_get pmax 1))
  | _ => in_range x 0 (corner_num pmin) (corner_num pmax)
  end.

(** [SphericalRegion_C.inside(x)]: lines 1977-1991.  [radius] is a list when it is the array of the base class (line 1825): then
    [center - radius - tol] is an array, [x[0] >= ...] is an array of booleans, and [and] asks for its truth value, which is a ValueError
    unless the array has one element. *)
Definition sphere_inside (center : R) (radius : R + list R) (x : vec) : res bool :=
  match radius with
  | inl r => py_and (match x !! 0%nat with None => Raise IndexError | Some a => Ok (negb (Rltb a (fl (fl (center - r) - region_tol)))) end)
                    (match x !! 0%nat with None => Raise IndexError | Some a => Ok (negb (Rltb (fl (fl (center + r) + region_tol)) a)) end)
  | inr [r] => py_and (match x !! 0%nat with None => Raise IndexError | Some a => Ok (negb (Rltb a (fl (fl (center - r) - region_tol)))) end)
                      (match x !! 0%nat with None => Raise IndexError | Some a => Ok (negb (Rltb (fl (fl (center + r) + region_tol)) a)) end)
  | inr _ => Raise ValueError
  end.

(** The three kinds of cell set: the whole mesh (no [inside]), a rectangle and a sphere. *)
Inductive shape := Whole | Rect (pmin pmax : corner) | Ball (center radius : R).
(** [self.inside(p)] while the base class constructor chooses the cells: the radius of a sphere is still the number given. *)
Definition shape_inside (gdim : nat) (s : shape) (x : vec) : res bool :=
  match s with Whole => Ok true | Rect a b => rect_inside gdim a b x | Ball c r => sphere_inside c (inl r) x end.

(** The choice of the cells: lines 1805-1812. *)
Fixpoint choose_cells (gdim : nat) (s : shape) (cs : list dcell) : res (list dcell) :=
  match cs with
  | [] => Ok []
  | c :: r =>
    let! b := shape_inside gdim s (d_mid c) in
    let! l := choose_cells gdim s r in
    Ok (if b then c :: l else l)
  end.
(** The arrays: lines 1829-1839; [self.midpoint[icell][i] = midp[i]] for [i < gdim]. *)
Fixpoint fill_cells (m : dmesh) (cs : list dcell) : res (list srccell) :=
  match cs with
  | [] => Ok []
  | c :: r =>
    match dm_volume m (d_index c) with
    | None => Raise KeyError
    | Some v =>
      let! l := fill_cells m r in
      Ok (SrcCell (int32 (d_index c)) v (take (dm_gdim m) (d_mid c)) (d_circ c) (d_contains c) :: l)
    end
  end.
(** [CellSet_C.__init__]: lines 1784-1841, for each kind of set. *)
Definition cell_set (m : dmesh) (s : shape) : res region :=
  let! l := choose_cells (dm_gdim m) s (dm_cells m) in
  if (length l =? 0)%nat then Raise RuntimeError else
  let! cs := fill_cells m l in
  Ok (Region (dm_gdim m) cs).

End Region.

(** An interval mesh as DOLFIN presents it (midpoint, circumradius = half the length, closed interval), with the volumes of
    '1D-spherical-radial' (Dolfin_Module.py lines 516-525). *)
Definition interval_dcell (vs : list R) (i : nat) (x0 x1 : R) : dcell :=
  DCell (Z.of_nat i) [(x0 + x1) / 2; 0; 0] ((x1 - x0) / 2) (fun x => interval_inside vs (Z.of_nat i) (take 1 x)).
Definition interval_dmesh (vs : list R) : dmesh :=
  DMesh 1 (zip_with (fun i xy => interval_dcell vs i (fst xy) (snd xy)) (seq 0 (pred (length vs))) (zip vs (tail vs)))
        (fun c => if (c <? 0)%Z then None else cell_volumes vs !! Z.to_nat c).
