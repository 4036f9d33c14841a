(** Model of the geometry search and of the facet-tracking loop of the movers:
    [Mesh_C.find_facet] in /repo/Dolfin_Module.py and the body of the particle loop
    of [advance_charged_species_in_E_field] and [advance_neutral_species] in
    /repo/Particle_Module.py. *)
From Verif Require Export Vec.

(** [Mesh_C.NO_CELL] and [Mesh_C.NO_FACET], Dolfin_Module.py lines 35-36. *)
Definition NO_CELL : Z := (-1)%Z.
Definition NO_FACET : Z := (-1)%Z.

(** [DELETE_FLAG] and [TRAJECTORY_FLAG], Particle_Module.py lines 140-142. *)
Definition DELETE_FLAG : Z := 1%Z.
Definition TRAJECTORY_FLAG : Z := 2%Z.

(** What the mesh object knows about one cell: the vertex coordinates
    ([cell.get_vertex_coordinates()], Dolfin_Module.py line 685), the outward facet
    normals ([cell_facet_normals_dict], lines 388-427), the mesh indices of the
    facets ([cell_entity_indices_dict['facet']], lines 210-251) and the
    neighbour across each facet ([cell_neighbors_dict], lines 281-364). *)
Record cellrec := CellRec {
  verts : list vec;
  normals : list vec;
  fids : list Z;
  nbrs : list Z
}.

(** The parts of [Mesh_C] used by the movers.  [cells] is [cell_dict] together with
    the per-cell dictionaries (a missing key is KeyError); [inside c x] is DOLFIN's
    [cell.contains] (Dolfin_Module.py line 593), which is not part of the
    repository and so is a parameter; [marker] is [particle_boundary_marker]. *)
Record mesh := Mesh {
  gdim : nat;
  cells : Z -> option cellrec;
  inside : Z -> vec -> bool;
  marker : Z -> Z
}.

(** A particle record: coordinates, start-of-path coordinates, velocity, weight,
    bitflags, cell_index, unique_ID, crossings (Particle_Module.py lines 392-402,
    cpp/Pstruct.h lines 88-99). *)
Record particle := Particle {
  px : vec;
  px0 : vec;
  pu : vec;
  pw : R;
  pbits : Z;
  pcell : Z;
  puid : Z;
  pcross : Z
}.

(** Field assignments [p['x'] = ...] and so on. *)
Definition set_px (p : particle) (v : vec) : particle :=
  Particle v (px0 p) (pu p) (pw p) (pbits p) (pcell p) (puid p) (pcross p).
Definition set_px0 (p : particle) (v : vec) : particle :=
  Particle (px p) v (pu p) (pw p) (pbits p) (pcell p) (puid p) (pcross p).
Definition set_pu (p : particle) (v : vec) : particle :=
  Particle (px p) (px0 p) v (pw p) (pbits p) (pcell p) (puid p) (pcross p).
Definition set_pbits (p : particle) (b : Z) : particle :=
  Particle (px p) (px0 p) (pu p) (pw p) b (pcell p) (puid p) (pcross p).
Definition set_pcell (p : particle) (c : Z) : particle :=
  Particle (px p) (px0 p) (pu p) (pw p) (pbits p) c (puid p) (pcross p).
Definition set_pcross (p : particle) (n : Z) : particle :=
  Particle (px p) (px0 p) (pu p) (pw p) (pbits p) (pcell p) (puid p) n.

(** [p['bitflags'] & DELETE_FLAG != 0] and the same for TRAJECTORY_FLAG
    (Particle_Module.py lines 1704, 1780, 1804, 1811). *)
Definition is_deleted (p : particle) : bool :=
  negb (Z.land (pbits p) DELETE_FLAG =? 0)%Z.
Definition is_traj (p : particle) : bool :=
  negb (Z.land (pbits p) TRAJECTORY_FLAG =? 0)%Z.

Section Track.
Context (fl : R -> R).

(** One facet of [find_facet]: Dolfin_Module.py lines 699-714 for facet 0, and the
    same text for the other facets.  [n] is the facet's normal and [v] the vertex
    chosen to lie on it; [st] is (facet, dxFraction) so far. *)
Definition facet_step (x0 dx : vec) (st : Z * R) (i : Z) (n v : vec) : Z * R :=
  let ndx := vdot fl n dx in
  if Rltb 0 ndx then
    let d0 := vdot fl n (vsub fl v x0) in
    let d := if Rltb d0 0 then - d0 else d0 in
    if Rltb d (fl (snd st * ndx)) then (i, fl (d / ndx)) else st
  else st.

(** The facets tested one after the other (lines 699-763 in 3D, 779-835 in 2D). *)
Fixpoint facet_scan (x0 dx : vec) (i : Z) (l : list (vec * vec)) (st : Z * R) : Z * R :=
  match l with
  | [] => st
  | (n, v) :: r => facet_scan x0 dx (i + 1)%Z r (facet_step x0 dx st i n v)
  end.

(** The vertex that [find_facet] uses for each facet, in facet order: 1,2,3,0 in
    3D (lines 703, 721, 737, 753), 1,2,0 in 2D (lines 783, 803, 823) and 0,1 in
    1D (lines 856, 873). *)
Definition facet_vertex (d : nat) : list nat :=
  match d with
  | 3%nat => [1; 2; 3; 0]%nat
  | 2%nat => [1; 2; 0]%nat
  | _ => [0; 1]%nat
  end.

(** The (normal, vertex) pairs in the order in which they are tested; None is the
    IndexError of a cell with missing vertices or normals. *)
Definition facet_planes (d : nat) (c : cellrec) : option (list (vec * vec)) :=
  match mapM (fun j => verts c !! j) (facet_vertex d) with
  | None => None
  | Some vs =>
    if (length (normals c) =? length vs)%nat then Some (zip (normals c) vs) else None
  end.

(** [Mesh_C.find_facet(r0, dr, cell_index)]: Dolfin_Module.py lines 626-894.
    The result is (facet, dxFraction, facetNormalVectors[facet]).  With
    [facet = NO_FACET = -1] Python's [facetNormalVectors[facet]] is the last
    normal.  In 1D a crossed facet is returned at once (lines 866, 886) without the
    range check that 2D and 3D make (lines 765-767, 837-839); the check of line
    889 only ever sees dxFraction = 1.0. *)
Definition find_facet (d : nat) (c : cellrec) (r0 dr : vec) : res (Z * R * option vec) :=
  let dx := take d dr in
  let x0 := take d r0 in
  if Reqb (vdot fl dx dx) 0 then Ok (NO_FACET, 1, None) else
  match facet_planes d c with
  | None => Raise IndexError
  | Some l =>
    let '(facet, f) :=
      match d, l with
      | 1%nat, (n0, v0) :: r =>
        let st := facet_step x0 dx (NO_FACET, 1) 0 n0 v0 in
        if (fst st =? 0)%Z then st else facet_scan x0 dx 1 r st
      | _, _ => facet_scan x0 dx 0 l (NO_FACET, 1)
      end in
    if (1 <? d)%nat && (Rltb 1 f || Rltb f 0) then Raise SystemExit else
    let! n := py_get (normals c) facet in
    Ok (facet, f, Some n)
  end.

(** Which mover: the charged one (Particle_Module.py lines 1416-1853) or the
    neutral one (lines 1880-2145).  Their tracking loops are two copies of the same
    text except for the three places marked below. *)
Inductive mkind := Charged | Neutral.

(** Place 1: the error paths.  The charged mover raises RuntimeError (lines 1633,
    1690, 1791).  The neutral mover never defines [fncName], so building the message
    raises NameError (lines 2010, 2043, 2085). *)
Definition track_fail (k : mkind) (m : track_msg) : exn :=
  match k with Charged => RuntimeErrorAt m | Neutral => NameErrorAt m end.

(** Place 2: the rest of the time step after a crossing: lines 1667-1668
    (charged) and 2028 (neutral). *)
Definition dt_after (k : mkind) (f dtR : R) : R :=
  match k with
  | Charged => fl (dtR - fl (f * dtR))
  | Neutral => fl (fl (1 - f) * dtR)
  end.

Context {K : Type}.

(** State outside the particle that tracking and the callbacks share: [scr] is the
    scratch array [self.dx] of Particle_C, of which the boundary-function object
    holds a reference (UserParticles_1D.py line 128, UserParticles_2D_e.py line
    283); [usr] is whatever else the callbacks and the trajectory recording use. *)
Record tctx := TCtx { scr : vec; usr : K }.

(** Place 3: the move vector.  The charged mover writes it into [self.dx] in place
    (line 1651: [dx[:] = ...]); the neutral mover binds the local name [dx] to a
    new array and leaves [self.dx] alone (line 2021: [dx = ...]). *)
Definition put_move (k : mkind) (c : tctx) (dx : vec) : tctx :=
  match k with Charged => TCtx dx (usr c) | Neutral => c end.

(** A boundary-condition function bound to one species, as called in lines 1771
    and 2066: it gets the particle record, the facet index, dx_fraction and
    facet_normal, and may change the record and the shared state. *)
Definition bcfun : Type := tctx -> particle -> Z -> R -> option vec -> res (particle * tctx).

(** - [bcs v]: [bc_function_dict[v][species]] (KeyError when absent).
    - [recd c fi p t]: [record_trajectory_datum] for the particle whose full "in" index
      is [fi], at time [t] (lines 1765-1768, 2063-2064). *)
Context (bcs : Z -> option bcfun)
        (recd : tctx -> Z -> particle -> R -> res tctx).

(** Lines 1696-1771 (charged), 2050-2066 (neutral): if the facet has a non-zero marker,
    record the crossing of a trajectory particle and call the boundary function. *)
Definition on_marker (m : mesh) (fi : Z) (mf : Z) (f : R) (n : option vec) (t : R)
    (p : particle) (c : tctx) : res (particle * tctx) :=
  let v := marker m mf in
  if (v =? 0)%Z then Ok (p, c) else
  let! c1 := (if is_traj p then recd c fi p t else Ok c) in
  match bcs v with
  | None => Raise KeyError
  | Some b => b c1 p mf f n
  end.

(** The loop [while not pmesh_M.is_inside_cell(psegOut[ipOut], pCellIndex)]:
    Particle_Module.py lines 1623-1791 (charged), 2001-2086 (neutral).
    [ci] is pCellIndex, [ml] mLastFacet, [cnt] facetCrossCount, [tS] tStart, [dtR]
    dtRemaining.  The record layout puts the coordinates first and the start
    coordinates next, so lines 1646-1647 read (px, px0) as lines 2015-2020 do by name.
    [fuel] bounds the recursion; theorem C12 shows that it is never used up. *)
Fixpoint track_loop (fuel : nat) (k : mkind) (m : mesh) (maxc fi : Z)
    (ci ml cnt : Z) (tS dtR : R) (p : particle) (c : tctx)
    : res (particle * Z * tctx) :=
  match fuel with
  | O => Raise OutOfFuel
  | S fuel' =>
    match cells m ci with
    | None => Raise KeyError
    | Some cr =>
      if inside m ci (take (gdim m) (px p)) then Ok (p, cnt, c) else
      let cnt1 := (cnt + 1)%Z in
      if (maxc <? cnt1)%Z then Raise (track_fail k CrossCountMsg) else
      let dx := vsub fl (px p) (px0 p) in
      let c1 := put_move k c dx in
      let! (cf, f, n) := find_facet (gdim m) cr (px0 p) dx in
      if (cf =? NO_FACET)%Z then Raise (track_fail k NoFacetMsg) else
      let tS1 := fl (tS + fl (f * dtR)) in
      let dtR1 := dt_after k f dtR in
      let p1 := set_px0 p (vadd fl (px0 p) (vscale fl f dx)) in
      let! mf := py_get (fids cr) cf in
      if (mf =? ml)%Z then Raise (track_fail k SameFacetMsg) else
      let! (p2, c2) := on_marker m fi mf f n tS1 p1 c1 in
      let! cn := py_get (nbrs cr) cf in
      if (cn =? NO_CELL)%Z then
        if is_deleted p2 then Ok (set_pcell p2 NO_CELL, cnt1, c2)
        else track_loop fuel' k m maxc fi ci mf cnt1 tS1 dtR1 p2 c2
      else track_loop fuel' k m maxc fi cn mf cnt1 tS1 dtR1 (set_pcell p2 cn) c2
    end
  end.

(** Recursion bound that is always enough (theorem C12). *)
Definition track_fuel (maxc : Z) : nat := S (S (Z.to_nat maxc)).

(** Lines 1613-1796 (charged), 1992-2091 (neutral): tracking of one particle
    after its move, and the assignment of [crossings]. *)
Definition track (k : mkind) (m : mesh) (maxc fi : Z) (time dt : R)
    (p : particle) (c : tctx) : res (particle * tctx) :=
  let! (q, cnt, c1) :=
    track_loop (track_fuel maxc) k m maxc fi (pcell p) NO_FACET 0 (fl (time - dt)) dt p c in
  Ok (set_pcross q cnt, c1).

(** The move of one particle: lines 1591-1598 (charged), 1970-1974 (neutral):
    [x0 := x; x := x + u*dt] for every coordinate. *)
Definition free_move (dt : R) (p : particle) : particle :=
  set_px (set_px0 p (px p)) (vadd fl (px p) (map (fun u => fl (u * dt)) (pu p))).

(** The acceleration of one particle, lines 1577-1580: [u += qmdt*E] for every
    field component; [None] is [Eseg is None].  The field is taken to have as many
    components as the velocity. *)
Definition accelerate (qmdt : R) (E : option vec) (p : particle) : particle :=
  match E with
  | None => p
  | Some e => set_pu p (vadd fl (pu p) (vscale fl qmdt e))
  end.

(** Everything a mover does to one particle between the copy (lines 1574, 1963)
    and the test of the delete flag (lines 1804, 2096). *)
Definition advance_charged (accel_only : bool) (m : mesh) (maxc fi : Z)
    (time dt qmdt : R) (E : option vec) (p : particle) (c : tctx) : res (particle * tctx) :=
  let p1 := accelerate qmdt E p in
  let p2 := if accel_only then p1 else free_move dt p1 in
  track Charged m maxc fi time dt p2 c.
Definition advance_neutral (m : mesh) (maxc fi : Z) (time dt : R)
    (p : particle) (c : tctx) : res (particle * tctx) :=
  track Neutral m maxc fi time dt (free_move dt p) c.

End Track.
Arguments TCtx {K} _ _.
Arguments scr {K} _.
Arguments usr {K} _.
