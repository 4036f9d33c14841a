(** Model of the one-dimensional meshes: [UserMesh1DS_C.create_mesh] in /repo/UserMesh_y_Fields_Spherical1D_Module.py, the 1D part of
    [UserMesh_C.create_mesh] in /repo/UserMesh_y_Fields_FE_XYZ_Module.py, and the tables that [Mesh_C] makes of them. *)
From Verif Require Export MeshModel TrackModel.

(** DOLFIN's [UnitIntervalMesh(n)] and [IntervalMesh(n, a, b)] (not in the repository): the vertices are numbered from left to right;
    Spherical1D line 239, FE_XYZ line 216. *)
Definition unit_interval (n : nat) : list R := map (fun i => INR i / INR n) (seq 0 (S n)).
Definition interval_vertices (n : nat) (a b : R) : list R := map (fun i => a + INR i * (b - a) / INR n) (seq 0 (S n)).

(** [x**stretch] for [x >= 0]: Spherical1D line 323; 0**stretch for a negative stretch (infinity) is not modelled. *)
Definition np_power (x s : R) : R := if Reqb x 0 then (if Reqb s 0 then 1 else 0) else Rpower x s.
(** [map_coordinate(x)]: Spherical1D lines 320-323, in exact arithmetic. *)
Definition map_coordinate (rmin rmax stretch x : R) : R := rmin + (rmax - rmin) * np_power x stretch.
(** The coordinates of the radial mesh: lines 239, 314, 325, 330. *)
Definition radial_vertices (n : nat) (rmin rmax stretch : R) : list R := map (map_coordinate rmin rmax stretch) (unit_interval n).

(** The connectivity of an interval mesh (DOLFIN): cell [c] has the vertices [c] and [c+1], and the facets of a 1D mesh are its vertices. *)
Definition line_topo (n : nat) : topo :=
  Topo n (fun c => [c; S c]) (fun f => (if (1 <=? f)%nat && (f <=? n)%nat then [pred f] else []) ++ (if (f <? n)%nat then [f] else [])).

(** DOLFIN's [cell.normal(i)] for an interval: the unit vector from the other vertex to vertex [i]
    (used in Dolfin_Module.py lines 417-422). *)
Definition interval_normals (x0 x1 : R) : list vec := [[(x0 - x1) / Rabs (x0 - x1)]; [- ((x0 - x1) / Rabs (x0 - x1))]].

(** What [Mesh_C] stores for cell [c]: the vertices, [compute_cell_facet_normals_dict] (Dolfin_Module.py lines 388-427),
    [compute_cell_entity_indices_dict('facet')] (lines 210-251) and the row of [compute_cell_neighbors_dict] (lines 281-364). *)
Definition interval_cell (vs : list R) (rows : list (list (option Z))) (c : Z) : option cellrec :=
  if (c <? 0)%Z then None else
  x0 ← vs !! Z.to_nat c;
  x1 ← vs !! S (Z.to_nat c);
  row ← rows !! Z.to_nat c;
  nb ← mapM (fun e => e) row;
  Some (CellRec [[x0]; [x1]] (interval_normals x0 x1)
          (map Z.of_nat (t_facets (line_topo (pred (length vs))) (Z.to_nat c))) nb).

(** DOLFIN's [cell.contains] for an interval: membership of the closed interval (used in Dolfin_Module.py lines 560-594). *)
Definition interval_inside (vs : list R) (c : Z) (x : vec) : bool :=
  if (c <? 0)%Z then false else
  match x, vs !! Z.to_nat c, vs !! S (Z.to_nat c) with
  | [a], Some x0, Some x1 => negb (Rltb a x0) && negb (Rltb x1 a)
  | _, _, _ => false
  end.

(** The mesh of the movers for an interval mesh with the vertex coordinates [vs]. *)
Definition interval_mesh (vs : list R) (mk : Z -> Z) : res mesh :=
  let! rows := compute_cell_neighbors_dict (line_topo (pred (length vs))) 1 in
  Ok (Mesh 1 (interval_cell vs rows) (interval_inside vs) mk).

(** [XBoundary.inside] (Spherical1D lines 128-131) and DOLFIN's [SubDomain.mark], which gives the facets that are inside the number
    [idx]; a facet is on the boundary if one cell is attached to it. *)
Definition x_mark (vs : list R) (xb : R) (idx : Z) (mk : Z -> Z) (f : Z) : Z :=
  match vs !! Z.to_nat f with
  | Some a =>
    if (0 <=? f)%Z && (length (t_cells (line_topo (pred (length vs))) (Z.to_nat f)) =? 1)%nat && Rltb (Rabs (a - xb)) (/ 10 ^ 10)
    then idx else mk f
  | None => mk f
  end.
(** The particle boundary markers of [UserMesh1DS_C.create_mesh]: Spherical1D lines 292-306, made on the unit interval. *)
Definition radial_marker (n : nat) (rmin_indx rmax_indx : Z) : Z -> Z :=
  x_mark (unit_interval n) 1 rmax_indx (x_mark (unit_interval n) 0 rmin_indx (fun _ => 0%Z)).
Definition radial_mesh (n : nat) (rmin rmax stretch : R) (rmin_indx rmax_indx : Z) : res mesh :=
  interval_mesh (radial_vertices n rmin rmax stretch) (radial_marker n rmin_indx rmax_indx).
(** The 1D mesh of [UserMesh_C.create_mesh]: FE_XYZ lines 213-275.  The particle boundary marker is set to 0 (line 272) and no facet is
    marked after that. *)
Definition xyz_line_mesh (n : nat) (xmin xmax : R) : res mesh := interval_mesh (interval_vertices n xmin xmax) (fun _ => 0%Z).

(** [compute_cell_volume_dict()] for '1D-spherical-radial': Dolfin_Module.py lines 516-525 ([np_m.pi] is taken to be π). *)
Definition shell_volume (x0 x1 : R) : R := 4 / 3 * PI * (x1 * x1 * x1 - x0 * x0 * x0).
Definition cell_volumes (vs : list R) : list R := zip_with shell_volume vs (tail vs).
