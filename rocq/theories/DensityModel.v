(** Model of the densities: [accumulate_number_density] and [accumulate_charge_density_from_particles] of [Particle_C]
    (/repo/Particle_Module.py), and the functions of [Field_C] (/repo/Dolfin_Module.py) that they call. *)
From stdpp Require Import strings.
From Verif Require Export Vec SapModel TrackModel DiagModel.

(** What DOLFIN supplies for the function space of a [Field_C]: the numbers of the degrees of freedom of a cell
    ([dofmap().cell_dofs], Dolfin_Module.py lines 1334, 1377, 1400) and the values of its basis functions at a point
    ([evaluate_basis_all], line 1325). *)
Record fspace := FSpace { fs_dofs : Z -> list nat; fs_basis : Z -> vec -> list R }.

(** [a[idx]] for an array of indices: Dolfin_Module.py lines 1342, 1378, 1401. *)
Fixpoint gather (a : list R) (idx : list nat) : res (list R) :=
  match idx with
  | [] => Ok []
  | i :: r => match a !! i with Some x => let! xs := gather a r in Ok (x :: xs) | None => Raise IndexError end
  end.
(** [a[idx] = v]: the elements are written one after the other, so that a repeated index keeps the last value. *)
Fixpoint scatter (a : list R) (idx : list nat) (v : list R) : list R :=
  match idx, v with
  | i :: r, x :: v' => scatter (<[i := x]> a) r v'
  | _, _ => a
  end.

Section Density.
Context (fl : R -> R).
(** The mesh: number of cells, number of coordinates, and [cell_volume_dict]. *)
Context (ncell : nat) (gdim : nat) (vol : Z -> option R).

(** A cell number that is not one of the mesh: DOLFIN does not define what happens; modelled as an error. *)
Definition has_cell (c : Z) : bool := ((0 <=? c) && (c <? Z.of_nat ncell))%Z.

(** [interpolate_delta_function_to_dofs(p)]: Dolfin_Module.py lines 1252-1353.  The point is made of the first [gdim]
    coordinates of the particle. *)
Definition interpolate_delta (fs : fspace) (a : list R) (p : particle) : res (list R) :=
  if negb (has_cell (pcell p)) then Raise UndefinedBehaviour else
  let b := fs_basis fs (pcell p) (take gdim (px p)) in
  let idx := fs_dofs fs (pcell p) in
  if negb (length b =? length idx)%nat then Raise ValueError else
  let! old := gather a idx in
  Ok (scatter a idx (zip_with (fun o x => fl (o + fl (pw p * x))) old b)).

(** [add_weight_to_cell(p)]: lines 1357-1381. *)
Definition add_weight (fs : fspace) (a : list R) (p : particle) : res (list R) :=
  if negb (has_cell (pcell p)) then Raise UndefinedBehaviour else
  let idx := fs_dofs fs (pcell p) in
  let! old := gather a idx in
  Ok (scatter a idx (map (fun o => fl (o + pw p)) old)).

(** [divide_by_cell_volumes()]: lines 1384-1403.  A missing volume is a KeyError.  Division by a volume of zero is not
    an exception in numpy; the result is not represented here. *)
Fixpoint divide_cells (fs : fspace) (cells : list nat) (a : list R) : res (list R) :=
  match cells with
  | [] => Ok a
  | c :: r =>
    match vol (Z.of_nat c) with
    | None => Raise KeyError
    | Some v =>
      let idx := fs_dofs fs (Z.of_nat c) in
      let! old := gather a idx in
      divide_cells fs r (scatter a idx (map (fun o => fl (o / v)) old))
    end
  end.
Definition divide_by_cell_volumes (fs : fspace) (a : list R) : res (list R) := divide_cells fs (seq 0 ncell) a.

Context (junk : particle).

(** One particle of the inner loop of [accumulate_number_density]: Particle_Module.py lines 921-929.  The fields that are
    None are left alone. *)
Definition deposit (fD fC : fspace) (st : option (list R) * option (list R)) (p : particle)
  : res (option (list R) * option (list R)) :=
  let! d := (match fst st with Some a => let! a1 := interpolate_delta fD a p in Ok (Some a1) | None => Ok None end) in
  let! c := (match snd st with Some a => let! a1 := add_weight fC a p in Ok (Some a1) | None => Ok None end) in
  Ok (d, c).
(** [for p in pseg[0:npSeg]], line 920. *)
Fixpoint deposit_all (fD fC : fspace) (st : option (list R) * option (list R)) (ps : list particle)
  : res (option (list R) * option (list R)) :=
  match ps with
  | [] => Ok st
  | p :: r => let! st1 := deposit fD fC st p in deposit_all fD fC st1 r
  end.

(** [accumulate_number_density(species_name, dof_number_density_F, cell_number_density_F)]: lines 892-934. *)
Definition accumulate (fD fC : fspace) (s : sap particle) (d c : option (list R))
  : res (sap particle * (option (list R) * option (list R))) :=
  let! (s1, (d1, c1)) := for_out (fun st n v => deposit_all fD fC st (map (seen junk) (take (Z.to_nat n) v))) s (d, c) in
  match c1 with
  | None => Ok (s1, (d1, None))
  | Some a => let! a1 := divide_by_cell_volumes fC a in Ok (s1, (d1, Some a1))
  end.

(** [accumulate_number_density_CPP(species_name, dof_number_density_F, cell_number_density_F)]: lines 937-992.
    [dnt_cpp] is not defined in the module: NameError as soon as one of its functions is needed ([hasD], [hasC]: the
    arguments that are not None). *)
Definition accumulate_CPP (s : sap particle) (hasD hasC : bool) : res (sap particle) :=
  let! (s1, _) := for_out (fun (_ : unit) _ _ => if hasD || hasC then Raise NameError else Ok tt) s tt in
  if hasC then Raise NameError else Ok s1.
End Density.

(** [multiply_add(field_to_add, multiplier)]: Dolfin_Module.py lines 1080-1101.  numpy extends an array of length one;
    other different lengths are a ValueError. *)
Definition multiply_add (fl : R -> R) (a b : list R) (q : R) : res (list R) :=
  if (length a =? length b)%nat then Ok (zip_with (fun x y => fl (x + fl (q * y))) a b)
  else match b with
  | [y] => Ok (map (fun x => fl (x + fl (q * y))) a)
  | _ => Raise ValueError
  end.

(** [accumulate_charge_density_from_particles(dof_number_density_dict_F, charge_density_F)]: Particle_Module.py lines
    2869-2891, with a particle mesh present; [dens] is the dictionary of number densities (a missing species is a KeyError). *)
Fixpoint charge_density (fl : R -> R) (names : list string) (charge : string -> R) (dens : string -> option (list R))
    (rho : list R) : res (list R) :=
  match names with
  | [] => Ok rho
  | sn :: r =>
    match dens sn with
    | None => Raise KeyError
    | Some n => let! rho1 := multiply_add fl rho n (charge sn) in charge_density fl r charge dens rho1
    end
  end.

(** The density update of a time step, examples/sphere1D/sphere1D.py lines 1301-1320: the fields are set to zero, then
    for every species the densities are accumulated and its charge is added. *)
Section Update.
Context (fl : R -> R) (ncell gdim : nat) (vol : Z -> option R) (junk : particle) (fD fC : fspace) (charge : string -> R).
Fixpoint density_species (names : list string) (saps : string -> sap particle) (rho : list R)
    (dofs cells : string -> list R) : res ((string -> sap particle) * list R * (string -> list R) * (string -> list R)) :=
  match names with
  | [] => Ok (saps, rho, dofs, cells)
  | sn :: r =>
    let! (s1, (d1, c1)) := accumulate fl ncell gdim vol junk fD fC (saps sn) (Some (dofs sn)) (Some (cells sn)) in
    let d := default [] d1 in
    let! rho1 := multiply_add fl rho d (charge sn) in
    density_species r (set_key saps sn s1) rho1 (set_key dofs sn d) (set_key cells sn (default [] c1))
  end.
Definition density_update (names : list string) (ndof : nat) (saps : string -> sap particle)
  : res ((string -> sap particle) * list R * (string -> list R) * (string -> list R)) :=
  density_species names saps (replicate ndof 0) (fun _ => replicate ndof 0) (fun _ => replicate ncell 0).
End Update.
