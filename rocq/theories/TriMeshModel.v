(** Model of the two-dimensional meshes: the 2D part of [UserMesh_C.create_mesh] in /repo/UserMesh_y_Fields_FE_XYZ_Module.py,
    [UserMesh2DCirc_C.create_mesh] in /repo/UserMesh_y_Fields_FE2D_Module.py, and the tables that [Mesh_C] (/repo/Dolfin_Module.py)
    makes of them.  Arithmetic is exact. *)
From Verif Require Export MeshModel TrackModel InsideModel LineMeshModel.

(** A triangle: the numbers of its vertices in ascending order (DOLFIN keeps the entities of a cell so); [mesh.coordinates()] is the
    list of the vertex positions. *)
Notation tri := (nat * nat * nat)%type.
(** DOLFIN's facets of a triangle: facet [i] is the edge opposite vertex [i]; used in Dolfin_Module.py lines 210-251, 346, 417. *)
Definition tri_edges (t : tri) : list (nat * nat) := let '(a, b, d) := t in [(b, d); (a, d); (a, b)].

(** The connectivity of a triangle mesh (DOLFIN): [num] is the number that DOLFIN gives to an edge (its numbering is not modelled: any
    function will do). *)
Definition tri_facets (num : nat * nat -> nat) (ts : list tri) (c : nat) : list nat :=
  match ts !! c with Some t => map num (tri_edges t) | None => [] end.
Definition tri_topo (num : nat * nat -> nat) (ts : list tri) : topo :=
  Topo (length ts) (tri_facets num ts) (fun f => filter (fun c => f ∈ tri_facets num ts c) (seq 0 (length ts))).

(** DOLFIN's [cell.normal(i)] for a triangle in the plane, used in Dolfin_Module.py lines 417-422: [o] is the vertex opposite the facet,
    [u] and [v] are the ends of the facet; the part of v - o along the facet is taken off and the rest is normalised. *)
Definition norm2 (a : vec) : R := R_sqrt.sqrt (vdot exact a a).
Definition tri_normal (o u v : vec) : vec :=
  let t := vscale exact (/ norm2 (vsub exact v u)) (vsub exact v u) in
  let w := vsub exact v o in
  let n := vsub exact w (vscale exact (vdot exact t w) t) in
  vscale exact (/ norm2 n) n.
Definition tri_normals (p0 p1 p2 : vec) : list vec := [tri_normal p0 p1 p2; tri_normal p1 p0 p2; tri_normal p2 p0 p1].

(** What [Mesh_C] stores for cell [c]: the vertices, [compute_cell_facet_normals_dict] (Dolfin_Module.py lines 388-427),
    [compute_cell_entity_indices_dict('facet')] (lines 210-251) and the row of [compute_cell_neighbors_dict] (lines 281-364). *)
Definition tri_cell (num : nat * nat -> nat) (xs : list vec) (ts : list tri) (rows : list (list (option Z))) (c : Z) : option cellrec :=
  if (c <? 0)%Z then None else
  t ← ts !! Z.to_nat c;
  let '(a, b, d) := t in
  p0 ← xs !! a;
  p1 ← xs !! b;
  p2 ← xs !! d;
  row ← rows !! Z.to_nat c;
  nb ← mapM (fun e => e) row;
  Some (CellRec [p0; p1; p2] (tri_normals p0 p1 p2) (map Z.of_nat (tri_facets num ts (Z.to_nat c))) nb).
(** DOLFIN's [cell.contains] for a triangle, used in Dolfin_Module.py lines 560-594; the repository's copy of it is
    cpp/dolfin_functions.cpp lines 632-673, see InsideModel.v. *)
Definition tri_inside (xs : list vec) (ts : list tri) (c : Z) (x : vec) : bool :=
  if (c <? 0)%Z then false else
  match ts !! Z.to_nat c with
  | Some (a, b, d) =>
    match xs !! a, xs !! b, xs !! d with Some p0, Some p1, Some p2 => inside_2d p0 p1 p2 x | _, _, _ => false end
  | None => false
  end.
(** The mesh of the movers for a triangle mesh. *)
Definition tri_mesh (num : nat * nat -> nat) (xs : list vec) (ts : list tri) (mk : Z -> Z) : res mesh :=
  let! rows := compute_cell_neighbors_dict (tri_topo num ts) 2 in
  Ok (Mesh 2 (tri_cell num xs ts rows) (tri_inside xs ts) mk).

(** [XBoundary.inside] and [YBoundary.inside] ([k] = 0, 1): FE2D lines 114-116, 128-132, FE_XYZ lines 96-98, 113-117. *)
Definition near_line (k : nat) (b : R) (x : vec) : bool := Rltb (Rabs (co x k - b)) (/ 10 ^ 10).
(** DOLFIN's [SubDomain.mark]: a facet gets the number [idx] if it is on the boundary (one cell is attached to it) and its vertices and
    its midpoint are inside. *)
Definition tri_mark (num : nat * nat -> nat) (xs : list vec) (ts : list tri) (k : nat) (b : R) (idx : Z) (mk : Z -> Z) (f : Z) : Z :=
  match filter (fun e => Z.of_nat (num e) = f) (concat (map tri_edges ts)) with
  | (u, v) :: _ =>
    match xs !! u, xs !! v with
    | Some p, Some q =>
      if (length (t_cells (tri_topo num ts) (num (u, v))) =? 1)%nat && near_line k b p && near_line k b q &&
         near_line k b (vscale exact (/ 2) (vadd exact p q))
      then idx else mk f
    | _, _ => mk f
    end
  | [] => mk f
  end.

(** The options for the diagonals: FE2D line 213, FE_XYZ line 203. *)
Inductive diagonal := RightDiag | LeftDiag | RightLeft | LeftRight | Crossed_.

(** DOLFIN's [RectangleMesh(p, q, nx, ny, diagonal)] (not in the repository; FE2D lines 229-234, FE_XYZ lines 308-316).  The vertices are
    the corners of nx * ny equal rectangles, numbered row by row, and for 'crossed' the midpoints of the rectangles, numbered after them. *)
Inductive gvertex := Corner (i j : nat) | Middle (i j : nat).
Definition gnum (nx ny : nat) (v : gvertex) : nat :=
  match v with
  | Corner i j => j * S nx + i
  | Middle i j => S nx * S ny + (j * nx + i)
  end.
Definition gpos (nx ny : nat) (x0 x1 y0 y1 : R) (v : gvertex) : vec :=
  match v with
  | Corner i j => [x0 + INR i * (x1 - x0) / INR nx; y0 + INR j * (y1 - y0) / INR ny]
  | Middle i j => [x0 + (INR i + / 2) * (x1 - x0) / INR nx; y0 + (INR j + / 2) * (y1 - y0) / INR ny]
  end.
Definition rect_gvertices (nx ny : nat) (dg : diagonal) : list gvertex :=
  map (fun k => Corner (k mod S nx) (k / S nx)) (seq 0 (S nx * S ny)) ++
  match dg with Crossed_ => map (fun k => Middle (k mod nx) (k / nx)) (seq 0 (nx * ny)) | _ => [] end.
Definition rect_vertices (nx ny : nat) (x0 x1 y0 y1 : R) (dg : diagonal) : list vec :=
  map (gpos nx ny x0 x1 y0 y1) (rect_gvertices nx ny dg).

(** Which diagonal rectangle (i, j) has; the two alternating patterns change from one rectangle to the next in both directions. *)
Definition is_right (dg : diagonal) (i j : nat) : bool :=
  match dg with
  | RightDiag => true
  | LeftDiag => false
  | RightLeft => Nat.odd (i + j)
  | LeftRight => Nat.even (i + j)
  | Crossed_ => false
  end.
(** The triangles of rectangle (i, j). *)
Notation gtri := (gvertex * gvertex * gvertex)%type.
Definition square_tris (dg : diagonal) (i j : nat) : list gtri :=
  let v0 := Corner i j in let v1 := Corner (S i) j in
  let v2 := Corner i (S j) in let v3 := Corner (S i) (S j) in
  let m := Middle i j in
  match dg with
  | Crossed_ => [(v0, v1, m); (v0, v2, m); (v1, v3, m); (v2, v3, m)]
  | _ => if is_right dg i j then [(v0, v1, v3); (v0, v2, v3)] else [(v0, v1, v2); (v1, v2, v3)]
  end.
Definition rect_gtris (nx ny : nat) (dg : diagonal) : list gtri :=
  concat (map (fun k => square_tris dg (k mod nx) (k / nx)) (seq 0 (nx * ny))).
Definition gtri_num (nx ny : nat) (t : gtri) : tri := let '(a, b, d) := t in (gnum nx ny a, gnum nx ny b, gnum nx ny d).
Definition rect_tris (nx ny : nat) (dg : diagonal) : list tri := map (gtri_num nx ny) (rect_gtris nx ny dg).

(** The four particle boundaries, marked on the rectangle: FE_XYZ lines 326-351 and FE2D lines 285-310 (thmin and thmax are the lower
    and the upper side there). *)
Definition rect_marker (num : nat * nat -> nat) (nx ny : nat) (x0 x1 y0 y1 : R) (dg : diagonal) (ix0 ix1 iy0 iy1 : Z) : Z -> Z :=
  let xs := rect_vertices nx ny x0 x1 y0 y1 dg in
  let ts := rect_tris nx ny dg in
  tri_mark num xs ts 1 y1 iy1 (tri_mark num xs ts 1 y0 iy0 (tri_mark num xs ts 0 x1 ix1 (tri_mark num xs ts 0 x0 ix0 (fun _ => 0%Z)))).
(** The 2D mesh of [UserMesh_C.create_mesh] with a particle_boundary_dict: FE_XYZ lines 302-362; diagonal None is 'right' (DOLFIN's
    default).  The field boundaries, for which this case stops the program (lines 322-324), are not given. *)
Definition xyz_rect_mesh (num : nat * nat -> nat) (nx ny : nat) (x0 x1 y0 y1 : R) (dg : option diagonal) (ix0 ix1 iy0 iy1 : Z) : res mesh :=
  let dg := default RightDiag dg in
  tri_mesh num (rect_vertices nx ny x0 x1 y0 y1 dg) (rect_tris nx ny dg) (rect_marker num nx ny x0 x1 y0 y1 dg ix0 ix1 iy0 iy1).

(** [denser] and [cylinder]: FE2D lines 320-321 and 338-339. *)
Definition denser (rmin rmax stretch : R) (x : vec) : vec :=
  [rmin + (rmax - rmin) * np_power ((co x 0 - rmin) / (rmax - rmin)) stretch; co x 1].
Definition cylinder (tmax : R) (x : vec) : vec := [co x 0 * cos (tmax * co x 1); co x 0 * sin (tmax * co x 1)].
(** [UserMesh2DCirc_C.create_mesh] with a particle_boundary_dict: FE2D lines 195-358.  The markers are made on the rectangle and the
    vertices are moved afterwards. *)
Definition circ_vertices (nr nt : nat) (rmin rmax stretch tmax : R) (dg : diagonal) : list vec :=
  map (fun x => cylinder tmax (denser rmin rmax stretch x)) (rect_vertices nr nt rmin rmax 0 1 dg).
Definition circ_mesh (num : nat * nat -> nat) (nr nt : nat) (rmin rmax stretch tmax : R) (dg : diagonal) (irmin irmax ithmin ithmax : Z) : res mesh :=
  tri_mesh num (circ_vertices nr nt rmin rmax stretch tmax dg) (rect_tris nr nt dg)
    (rect_marker num nr nt rmin rmax 0 1 dg irmin irmax ithmin ithmax).
