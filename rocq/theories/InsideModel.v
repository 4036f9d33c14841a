(** Model of the C++ point-in-cell test: [dnt::is_inside_vertices] in /repo/cpp/dolfin_functions.cpp, with the predicates of
    /repo/cpp/predicates.cpp. *)
From Verif Require Export Vec VecProofs.

(** [_orient2d(a, b, c)], predicates.cpp lines 1650-1684, and [_orient3d(a, b, c, d)], lines 2323-2365: the determinants, taken to be
    exact.  (The adaptive stages, lines 1566-1647 and 1915-2320, are there to return the right sign; only the first stage is modelled,
    below.) *)
Definition orient2d (a b c : vec) : R := (co a 0 - co c 0) * (co b 1 - co c 1) - (co a 1 - co c 1) * (co b 0 - co c 0).
Definition orient3d (a b c d : vec) : R :=
  let adx := co a 0 - co d 0 in let bdx := co b 0 - co d 0 in let cdx := co c 0 - co d 0 in
  let ady := co a 1 - co d 1 in let bdy := co b 1 - co d 1 in let cdy := co c 1 - co d 1 in
  let adz := co a 2 - co d 2 in let bdz := co b 2 - co d 2 in let cdz := co c 2 - co d 2 in
  adz * (bdx * cdy - cdx * bdy) + bdz * (cdx * ady - adx * cdy) + cdz * (adx * bdy - bdx * ady).

(** [x >= 0.0], [x <= 0.0], [x == 0.0] and [a <= b]. *)
Definition nonneg (x : R) : bool := negb (Rltb x 0).
Definition nonpos (x : R) : bool := negb (Rltb 0 x).
Definition zero (x : R) : bool := Reqb x 0.
Definition leq (a b : R) : bool := negb (Rltb b a).

(** [_collides_segment_point_1d(p0, p1, point)], predicates.cpp lines 2386-2394: the ends are put in order first. *)
Definition collides_1d (p0 p1 x : R) : bool :=
  let '(a, b) := if Rltb p1 p0 then (p1, p0) else (p0, p1) in leq a x && leq x b.

(** [&mesh.coordinates()[v*gDim]]: [mesh.coordinates()] is the flat array of all vertex coordinates; reading outside is undefined. *)
Definition vertex_at (coords : list R) (g v : nat) : res vec :=
  if (length coords <? v * g + g)%nat then Raise UndefinedBehaviour else Ok (take g (drop (v * g) coords)).
(** [vertices[i]] for a C array. *)
Definition vertex_no (vertices : list nat) (i : nat) : res nat :=
  match vertices !! i with Some v => Ok v | None => Raise UndefinedBehaviour end.
Definition vertex (coords : list R) (g : nat) (vertices : list nat) (i : nat) : res vec :=
  let! v := vertex_no vertices i in vertex_at coords g v.

(** The three cases of dolfin_functions.cpp: lines 617-631 (1D), 632-673 (2D) and 677-724 (3D); [dolfin_error] throws a
    std::runtime_error. *)
Definition inside_1d (p0 p1 x : R) : bool :=
  let '(a, b) := if Rltb p1 p0 then (p1, p0) else (p0, p1) in leq a x && leq x b.
Section Test.
Context (o2 : vec -> vec -> vec -> R) (o3 : vec -> vec -> vec -> vec -> R).
Definition inside_2d_by (p0 p1 p2 x : vec) : bool :=
  let ref := o2 p0 p1 p2 in
  if Rltb 0 ref then nonneg (o2 p1 p2 x) && nonneg (o2 p2 p0 x) && nonneg (o2 p0 p1 x)
  else if Rltb ref 0 then nonpos (o2 p1 p2 x) && nonpos (o2 p2 p0 x) && nonpos (o2 p0 p1 x)
  else (zero (o2 p0 p1 x) && collides_1d (co p0 0) (co p1 0) (co x 0) && collides_1d (co p0 1) (co p1 1) (co x 1)) ||
       (zero (o2 p1 p2 x) && collides_1d (co p1 0) (co p2 0) (co x 0) && collides_1d (co p1 1) (co p2 1) (co x 1)) ||
       (zero (o2 p2 p0 x) && collides_1d (co p2 0) (co p0 0) (co x 0) && collides_1d (co p2 1) (co p0 1) (co x 1)).
Definition inside_3d_by (p0 p1 p2 p3 x : vec) : res bool :=
  let ref := o3 p0 p1 p2 p3 in
  if Rltb 0 ref then Ok (nonneg (o3 p0 p1 p2 x) && nonneg (o3 p0 p3 p1 x) && nonneg (o3 p0 p2 p3 x) && nonneg (o3 p1 p3 p2 x))
  else if Rltb ref 0 then
    Ok (nonpos (o3 p0 p1 p2 x) && nonpos (o3 p0 p3 p1 x) && nonpos (o3 p0 p2 p3 x) && nonpos (o3 p1 p3 p2 x))
  else Raise RuntimeError.

(** [is_inside_vertices(mesh, vertices, point)]: dolfin_functions.cpp lines 608-726.  Other dimensions, such as a surface in space,
    are answered by false (line 725).  [point] must have at least [gDim] coordinates. *)
Definition is_inside_by (tdim gdim : nat) (coords : list R) (vertices : list nat) (point : vec) : res bool :=
  match tdim, gdim with
  | 1%nat, 1%nat =>
    let! p0 := vertex coords 1 vertices 0 in
    let! p1 := vertex coords 1 vertices 1 in
    Ok (inside_1d (co p0 0) (co p1 0) (co point 0))
  | 2%nat, 2%nat =>
    let! p0 := vertex coords 2 vertices 0 in
    let! p1 := vertex coords 2 vertices 1 in
    let! p2 := vertex coords 2 vertices 2 in
    Ok (inside_2d_by p0 p1 p2 point)
  | 3%nat, 3%nat =>
    let! p0 := vertex coords 3 vertices 0 in
    let! p1 := vertex coords 3 vertices 1 in
    let! p2 := vertex coords 3 vertices 2 in
    let! p3 := vertex coords 3 vertices 3 in
    inside_3d_by p0 p1 p2 p3 point
  | _, _ => Ok false
  end.
End Test.

(** The test with exact determinants, and its 2D and 3D cases (lines 632-673 and 677-724). *)
Definition inside_2d : vec -> vec -> vec -> vec -> bool := inside_2d_by orient2d.
Definition inside_3d : vec -> vec -> vec -> vec -> vec -> res bool := inside_3d_by orient3d.
Definition is_inside_vertices : nat -> nat -> list R -> list nat -> vec -> res bool := is_inside_by orient2d orient3d.

(** ** The first stage of the predicates in floating point *)
Section Filter.
Context (fl : R -> R) (eps : R).

(** [ccwerrboundA] and [o3derrboundA]: [exactinit], lines 702 and 705; [epsilon] is 2^-53 (lines 680-697). *)
Definition ccwerrboundA : R := fl (fl (3 + fl (16 * eps)) * eps).
Definition o3derrboundA : R := fl (fl (7 + fl (56 * eps)) * eps).

(** [_orient2d], lines 1658-1683: the value returned before [orient2dadapt] is called, or None. *)
Definition orient2d_filter (a b c : vec) : option R :=
  let detleft := fl (fl (co a 0 - co c 0) * fl (co b 1 - co c 1)) in
  let detright := fl (fl (co a 1 - co c 1) * fl (co b 0 - co c 0)) in
  let det := fl (detleft - detright) in
  let decide detsum :=
    let errbound := fl (ccwerrboundA * detsum) in
    if leq errbound det || leq errbound (- det) then Some det else None in
  if Rltb 0 detleft then
    if leq detright 0 then Some det else decide (fl (detleft + detright))
  else if Rltb detleft 0 then
    if leq 0 detright then Some det else decide (fl (- detleft - detright))
  else Some det.

(** [_orient3d], lines 2333-2362: the value returned before [orient3dadapt] is called, or None. *)
Definition orient3d_filter (a b c d : vec) : option R :=
  let adx := fl (co a 0 - co d 0) in let bdx := fl (co b 0 - co d 0) in let cdx := fl (co c 0 - co d 0) in
  let ady := fl (co a 1 - co d 1) in let bdy := fl (co b 1 - co d 1) in let cdy := fl (co c 1 - co d 1) in
  let adz := fl (co a 2 - co d 2) in let bdz := fl (co b 2 - co d 2) in let cdz := fl (co c 2 - co d 2) in
  let bdxcdy := fl (bdx * cdy) in let cdxbdy := fl (cdx * bdy) in
  let cdxady := fl (cdx * ady) in let adxcdy := fl (adx * cdy) in
  let adxbdy := fl (adx * bdy) in let bdxady := fl (bdx * ady) in
  let det := fl (fl (fl (adz * fl (bdxcdy - cdxbdy)) + fl (bdz * fl (cdxady - adxcdy))) + fl (cdz * fl (adxbdy - bdxady))) in
  let permanent :=
    fl (fl (fl (fl (Rabs bdxcdy + Rabs cdxbdy) * Rabs adz) + fl (fl (Rabs cdxady + Rabs adxcdy) * Rabs bdz)) +
        fl (fl (Rabs adxbdy + Rabs bdxady) * Rabs cdz)) in
  let errbound := fl (o3derrboundA * permanent) in
  if Rltb errbound det || Rltb errbound (- det) then Some det else None.

(** [_orient2d] and [_orient3d] in floating point, given what the exact stages [orient2dadapt] (lines 1566-1647) and [orient3dadapt]
    (lines 1915-2320), which are not modelled, return. *)
Definition orient2d_double (adapt : vec -> vec -> vec -> R) (a b c : vec) : R :=
  match orient2d_filter a b c with Some d => d | None => adapt a b c end.
Definition orient3d_double (adapt : vec -> vec -> vec -> vec -> R) (a b c d : vec) : R :=
  match orient3d_filter a b c d with Some r => r | None => adapt a b c d end.
(** [is_inside_vertices] (dolfin_functions.cpp lines 608-726) in floating point. *)
Definition is_inside_double adapt2 adapt3 : nat -> nat -> list R -> list nat -> vec -> res bool :=
  is_inside_by (orient2d_double adapt2) (orient3d_double adapt3).
End Filter.
