(** Model of [integrate_delta_function] of [Field_C], /repo/Dolfin_Module.py lines 1205-1248, the function that deposits a particle
    in the cell that DOLFIN finds for it instead of the cell that its record names. *)
From Verif Require Export Vec TrackModel DensityModel MeshFieldModel.

Section Delta.
Context (fl : R -> R) (locate : vec -> option Z) (gdim : nat) (fs : fspace).

(** The scalar function space of a [Field_C] as [interpolate_field_to_points] sees it (lines 1104-1154): the basis functions have one
    component. *)
Definition scalar_space : vspace := VSpace (fs_dofs fs) locate (fun c x => map (fun b => [b]) (fs_basis fs c x)).

(** [integrate_delta_function(p)]: lines 1230-1241.  DOLFIN's [PointSource(V, point, magnitude).apply(vector)] searches for the cell
    of the point (RuntimeError if there is none) and adds the magnitude times the basis functions of that cell to the vector at
    the degrees of freedom of the cell. *)
Definition integrate_delta (a : list R) (p : particle) : res (list R) :=
  match locate (take gdim (px p)) with
  | None => Raise RuntimeError
  | Some c =>
    let idx := fs_dofs fs c in
    let! old := gather a idx in
    Ok (scatter a idx (zip_with (fun o x => fl (o + fl (pw p * x))) old (fs_basis fs c (take gdim (px p)))))
  end.

(** [for p in particles: F.integrate_delta_function(p)], as in /repo/tests/unit/test_ChargeDensity.py lines 145-146. *)
Fixpoint integrate_all (a : list R) (ps : list particle) : res (list R) :=
  match ps with
  | [] => Ok a
  | p :: r => let! a1 := integrate_delta a p in integrate_all a1 r
  end.
End Delta.
