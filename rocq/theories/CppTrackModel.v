(** Model of the tracking of one particle by the C++ movers: [dnt::find_facet] in /repo/cpp/dolfin_functions.cpp and the
    facet-crossing loops of /repo/cpp/advance_charged_species_in_E_field_{cartesian_x,cartesian_xy,spherical_r}.cpp and
    /repo/cpp/advance_neutral_species_{cartesian_xy,cartesian_xyz}.cpp. *)
From Verif Require Export TrackModel InsideModel.

(** [g] doubles read through the pointer [&a[o]]; reading outside the array is undefined. *)
Definition doubles (a : list R) (o g : nat) : res vec :=
  if (length a <? o + g)%nat then Raise UndefinedBehaviour else Ok (take g (drop o a)).
(** [a[o] = l0; a[o+1] = l1; ...]. *)
Definition store (a : list R) (o : nat) (l : vec) : res (list R) :=
  if (length a <? o + length l)%nat then Raise UndefinedBehaviour else Ok (take o a ++ l ++ drop (o + length l) a).
(** [a[i]] for an array of integers. *)
Definition c_get {A} (a : list A) (i : Z) : res A :=
  if (i <? 0)%Z then Raise UndefinedBehaviour
  else match a !! Z.to_nat i with Some x => Ok x | None => Raise UndefinedBehaviour end.

(** What the C++ code sees of one cell: its vertex numbers ([pcellPtr->entities(0)]), the facet normals of
    [MeshEntityArrays::get_cell_facet_normals], 3 doubles per facet whatever the dimension (MeshEntityArrays.h lines 61-66),
    the mesh indices of its facets ([entities(tDim-1)]) and [get_cell_neighbors]. *)
Record ccell := CCell { c_verts : list nat; c_normals : list R; c_fids : list Z; c_nbrs : list Z }.
(** The particle mesh: dimensions, [mesh.coordinates()] (flat), the cells, and [particleBoundaryMarker]. *)
Record cmesh := CMesh {
  c_tdim : nat;
  c_gdim : nat;
  c_coords : list R;
  c_cells : Z -> option ccell;
  c_marker : Z -> Z
}.
(** [new dolfin::Cell(mesh, i)]: DOLFIN throws std::runtime_error for an index that is out of range. *)
Definition c_cell (cm : cmesh) (i : Z) : res ccell :=
  match c_cells cm i with Some c => Ok c | None => Raise RuntimeError end.

(** [cell.get_vertex_coordinates(vertex_coords)]: dolfin_functions.cpp lines 119-128. *)
Fixpoint get_vertex_coordinates (coords : list R) (g : nat) (vs : list nat) : res (list R) :=
  match vs with
  | [] => Ok []
  | v :: r =>
    let! x := vertex_at coords g v in
    let! l := get_vertex_coordinates coords g r in
    Ok (x ++ l)
  end.

Section CppTrack.
Context (fl : R -> R).

(** [a[0]*b[0] + a[1]*b[1] + a[2]*b[2]] and its shorter versions: dolfin_functions.cpp lines 98-109, 145, 160, ... *)
Definition dot_cpp (g : nat) (a b : vec) : R :=
  match g with
  | 3%nat => fl (fl (fl (co a 0 * co b 0) + fl (co a 1 * co b 1)) + fl (co a 2 * co b 2))
  | 2%nat => fl (fl (co a 0 * co b 0) + fl (co a 1 * co b 1))
  | _ => fl (co a 0 * co b 0)
  end.

(** One facet: dolfin_functions.cpp lines 143-170 and the same text for the other facets (173-248 in 3D, 279-355 in 2D,
    386-409 and 427-445 in 1D).  [i] is the facet, [vi] the vertex taken on it; [3] is [cellFNVdim], line 88. *)
Definition cpp_facet_step (g : nat) (vco fnv : list R) (x0 dx : vec) (st : Z * R) (i vi : nat) : res (Z * R) :=
  let! n := doubles fnv (i * 3) g in
  let ndx := dot_cpp g n dx in
  if Rltb 0 ndx then
    let! v := doubles vco (vi * g) g in
    let d0 := dot_cpp g n (zip_with (fun a b => fl (a - b)) v x0) in
    let d := if Rltb d0 0 then - d0 else d0 in
    if Rltb d (fl (snd st * ndx)) then Ok (Z.of_nat i, fl (d / ndx)) else Ok st
  else Ok st.
(** The facets one after the other, with the vertex of each. *)
Fixpoint cpp_facet_scan (g : nat) (vco fnv : list R) (x0 dx : vec) (i : nat) (vis : list nat) (st : Z * R) : res (Z * R) :=
  match vis with
  | [] => Ok st
  | vi :: r =>
    let! st1 := cpp_facet_step g vco fnv x0 dx st i vi in
    cpp_facet_scan g vco fnv x0 dx (S i) r st1
  end.

(** [find_facet(mesh_M, x0, dx, cell_index, false)]: dolfin_functions.cpp lines 75-470; [vco] and [fnv] are [vertex_coords]
    and [facetNormalVectors].  2D and 3D: lines 132-267 and 268-373; when no facet was crossed,
    [&facetNormalVectors[facet*cellFNVdim]] with facet = -1 is outside the array (lines 263, 369).  1D: lines 374-463; a crossed
    facet is returned at once after an assertion (lines 410, 446) and without one the program exits (line 461).
    The third component of the result is the numpy array with the first [gDim] values of the normal. *)
Definition cpp_find_facet (g : nat) (vco fnv : list R) (x0 dx : vec) : res (Z * R * option vec) :=
  if Reqb (dot_cpp g dx dx) 0 then Ok (NO_FACET, 1, None) else
  match g with
  | 1%nat =>
    let found (st : Z * R) :=
      if Rltb (snd st) 0 || Rltb 1 (snd st) then Raise AssertionError
      else let! n := doubles fnv (Z.to_nat (fst st) * 3) g in Ok (fst st, snd st, Some n) in
    let! st := cpp_facet_step g vco fnv x0 dx (NO_FACET, 1) 0 0 in
    if (fst st =? 0)%Z then found st else
    let! st1 := cpp_facet_step g vco fnv x0 dx st 1 1 in
    if (fst st1 =? 1)%Z then found st1 else Raise SystemExit
  | 2%nat | 3%nat =>
    let! st := cpp_facet_scan g vco fnv x0 dx 0 (if (g =? 3)%nat then [1; 2; 3; 0]%nat else [1; 2; 0]%nat) (NO_FACET, 1) in
    if Rltb 1 (snd st) || Rltb (snd st) 0 then Raise SystemExit else
    if (fst st =? NO_FACET)%Z then Raise UndefinedBehaviour else
    let! n := doubles fnv (Z.to_nat (fst st) * 3) g in
    Ok (fst st, snd st, Some n)
  | _ => Raise SystemExit
  end.

(** The five movers, as far as the scratch array [pCoord2] is concerned.  Number of coordinates that are written, place where
    the start coordinates are put, and place from which [find_facet] reads them, [&pCoord2[pDim]] with pDim the number of
    coordinates of the particle type:
    - charged cartesian_x lines 333-341, 357; spherical_r lines 338-346, 362;
    - charged cartesian_xy lines 295-304, 318;
    - neutral cartesian_xy lines 181-192: the start coordinates are put at 3 and 4;
    - neutral cartesian_xyz lines 200-214: at 3, 4 and 5. *)
Inductive cmover := ChargedX | ChargedXY | ChargedR | NeutralXY | NeutralXYZ.
Definition m_dim (mv : cmover) : nat :=
  match mv with ChargedX | ChargedR => 1 | ChargedXY | NeutralXY => 2 | NeutralXYZ => 3 end%nat.
Definition m_put (mv : cmover) : nat :=
  match mv with ChargedX | ChargedR => 1 | ChargedXY => 2 | NeutralXY | NeutralXYZ => 3 end%nat.
Definition m_read (mv : cmover) : nat := m_dim mv.

(** The scratch arrays of cpp/particle.h lines 60-65: [pCoord2[6]] and [dx[3]], static and so shared by all calls. *)
Record scratch := Scratch { s_pcoord : list R; s_dx : list R }.

(** Fills the scratch arrays and makes the start point that [find_facet] gets: the lines listed above. *)
Definition put_scratch (mv : cmover) (g : nat) (p : particle) (s : scratch) : res (scratch * vec) :=
  let nc := m_dim mv in
  let! a1 := store (s_pcoord s) 0 (take nc (px p)) in
  let! a2 := store a1 (m_put mv) (take nc (px0 p)) in
  let! e := doubles a2 0 nc in
  let! b := doubles a2 (m_put mv) nc in
  let! d := store (s_dx s) 0 (zip_with (fun x y => fl (x - y)) e b) in
  let! x0 := doubles a2 (m_read mv) g in
  Ok (Scratch a2 d, x0).

(** [(bitflags_ & DELETE_FLAG) == 0b1] (charged cartesian_x line 438 and the same in the others); the trajectory flag is tested
    with [!= 0b0] as in Python. *)
Definition is_deleted_cpp (p : particle) : bool := (Z.land (pbits p) DELETE_FLAG =? 1)%Z.

(** [mFacet == (size_t)mLastFacet]: NO_FACET = -1 becomes 2^64-1. *)
Definition same_facet (mf ml : Z) : bool := (mf =? ml mod 2 ^ 64)%Z.

Context {K : Type}.
(** A C++ boundary function: particle, facet, [dx], dxFraction, normal.  [K] is the rest of the state it uses.  [dx] is passed
    as a pointer; the functions of the repository only read it (UPBFs_*.h, Pstruct.h). *)
Definition cbcfun : Type := K -> particle -> Z -> vec -> R -> option vec -> res (particle * K).
(** [cbcs v]: the entry of [bcFunctionDict] for marker [v] and the species; calling through the null pointer that
    [operator[]] makes for a missing entry is undefined.  [crecd]: [record_trajectory_datum]. *)
Context (cbcs : Z -> option cbcfun) (crecd : K -> Z -> particle -> R -> res K).

(** Charged cartesian_x lines 395-424, spherical_r 400-429, cartesian_xy 355-383; neutral xy 228-240, xyz 251-263. *)
Definition cpp_on_marker (mv : cmover) (cm : cmesh) (fi mf : Z) (dx : vec) (f : R) (n : option vec) (t : R) (p : particle) (k : K)
    : res (particle * K) :=
  let v := c_marker cm mf in
  if (v =? 0)%Z then Ok (p, k) else
  let! k1 := (if is_traj p then crecd k fi p t else Ok k) in
  match cbcs v with
  | None => Raise UndefinedBehaviour
  | Some b => b k1 p mf dx f n
  end.

(** The facet-crossing loop: cartesian_x lines 316-469, spherical_r 321-474, cartesian_xy 278-425, neutral xy 164-281, xyz 183-305.
    [fuel] as in [track_loop].  MAX_FACET_CROSS_COUNT is taken not to be negative. *)
Fixpoint cpp_loop (fuel : nat) (mv : cmover) (cm : cmesh) (maxc fi ci ml cnt : Z) (tS dtR : R) (p : particle) (s : scratch) (k : K)
    : res (particle * Z * scratch * K) :=
  match fuel with
  | O => Raise OutOfFuel
  | S fuel' =>
    let g := c_gdim cm in
    let! cc := c_cell cm ci in
    let! ins := is_inside_vertices (c_tdim cm) g (c_coords cm) (c_verts cc) (take (m_dim mv) (px p)) in
    if ins then Ok (p, cnt, s, k) else
    let cnt1 := (cnt + 1)%Z in
    if (maxc <? cnt1)%Z then Raise SystemExit else
    let! (s1, x0) := put_scratch mv g p s in
    let dx := take (m_dim mv) (s_dx s1) in
    let! vco := get_vertex_coordinates (c_coords cm) g (c_verts cc) in
    let! (cf, f, n) := cpp_find_facet g vco (c_normals cc) x0 dx in
    if (cf =? NO_FACET)%Z then Raise SystemExit else
    let tS1 := fl (tS + fl (f * dtR)) in
    let dtR1 := fl (fl (1 - f) * dtR) in
    let p1 := set_px0 p (zip_with (fun a b => fl (a + fl (f * b))) (px0 p) dx) in
    let! mf := c_get (c_fids cc) cf in
    if same_facet mf ml then Raise SystemExit else
    let! (p2, k2) := cpp_on_marker mv cm fi mf dx f n tS1 p1 k in
    let! cn := c_get (c_nbrs cc) cf in
    if (cn =? NO_CELL)%Z then
      if is_deleted_cpp p2 then Ok (set_pcell p2 NO_CELL, cnt1, s1, k2)
      else cpp_loop fuel' mv cm maxc fi ci mf cnt1 tS1 dtR1 p2 s1 k2
    else cpp_loop fuel' mv cm maxc fi cn mf cnt1 tS1 dtR1 (set_pcell p2 cn) s1 k2
  end.

(** Tracking of one particle after its move, and [crossings_]: cartesian_x lines 291-473, spherical_r 296-478, cartesian_xy 255-429,
    neutral xy 141-285, xyz 159-309. *)
Definition cpp_track (mv : cmover) (cm : cmesh) (maxc fi : Z) (time dt : R) (p : particle) (s : scratch) (k : K)
    : res (particle * scratch * K) :=
  let! (q, cnt, s1, k1) := cpp_loop (track_fuel maxc) mv cm maxc fi (pcell p) NO_FACET 0 (fl (time - dt)) dt p s k in
  Ok (set_pcross q cnt, s1, k1).

(** Everything a charged mover does to one particle: acceleration (cartesian_x lines 273-279, [EsegPtr == nullptr] is [None]), move
    (283-289; the argument [accel_only] is not used anywhere), tracking. *)
Definition cpp_advance_charged (mv : cmover) (accel_only : bool) (cm : cmesh) (maxc fi : Z) (time dt qmdt : R) (E : option vec)
    (p : particle) (s : scratch) (k : K) : res (particle * scratch * K) :=
  cpp_track mv cm maxc fi time dt (free_move fl dt (accelerate fl qmdt E p)) s k.
(** A neutral mover: move (neutral xy lines 133-139, xyz 149-157) and tracking. *)
Definition cpp_advance_neutral (mv : cmover) (cm : cmesh) (maxc fi : Z) (time dt : R) (p : particle) (s : scratch) (k : K)
    : res (particle * scratch * K) :=
  cpp_track mv cm maxc fi time dt (free_move fl dt p) s k.

End CppTrack.
