(** C55: the rectangle and the quarter circle. *)
From stdpp Require Import list_numbers.
From Coq Require Cantor.
From Verif Require Import Vec VecProofs TrackModel BcModel Geometry FindFacetProps Conforming MeshModel MeshProps InsideModel InsideProps LineMeshModel LineMeshProps TrackGeomProps.
From Verif Require Import TriMeshModel TriMeshProps RectMeshProofs.
Local Open Scope R_scope.

(** ** Marking *)
Lemma near_mid k b p q : length p = 2%nat -> length q = 2%nat -> near_line k b p = true -> near_line k b q = true -> (k < 2)%nat ->
  near_line k b (vscale exact (/ 2) (vadd exact p q)) = true.
Proof.
  intros (px & py & ->)%len2 (qx & qy & ->)%len2. unfold near_line. rewrite !Rltb_true. intros H1 H2 Hk.
  set (e := / 10 ^ 10) in *. destruct k as [|[|k]]; [| |lia]; cbn in *; unfold exact; apply Rabs_def2 in H1, H2; apply Rabs_def1; lra.
Qed.

Section Mark.
Context (num : nat * nat -> nat) (xs : list vec) (ts : list tri) (Hnum : Numbering num ts) (Hxs : forall i p, xs !! i = Some p -> length p = 2%nat).

Lemma tri_mark_eq k b idx mk t u v p q : t ∈ ts -> (u, v) ∈ tri_edges t -> xs !! u = Some p -> xs !! v = Some q -> (k < 2)%nat ->
  tri_mark num xs ts k b idx mk (Z.of_nat (num (u, v))) =
  if (length (t_cells (tri_topo num ts) (num (u, v))) =? 1)%nat && near_line k b p && near_line k b q then idx else mk (Z.of_nat (num (u, v))).
Proof.
  intros Ht He Ep Eq Hk. unfold tri_mark.
  destruct (filter _ _) as [|[u' v'] l] eqn:E.
  - exfalso. assert (H : (u, v) ∈ filter (fun e => Z.of_nat (num e) = Z.of_nat (num (u, v))) (concat (map tri_edges ts))).
    { apply elem_of_list_filter. split; [done|]. apply elem_of_list_In, in_concat. exists (tri_edges t). split; [|by apply elem_of_list_In].
      apply elem_of_list_In, elem_of_list_fmap. by exists t. }
    rewrite E in H. by apply elem_of_nil in H.
  - assert (H : (u', v') ∈ filter (fun e => Z.of_nat (num e) = Z.of_nat (num (u, v))) (concat (map tri_edges ts))) by (rewrite E; left).
    apply elem_of_list_filter in H as [Hn Hin]. apply elem_of_list_In, in_concat in Hin as (l' & Hl' & Hin). apply elem_of_list_In, elem_of_list_fmap in Hl' as (t' & -> & Ht').
    apply elem_of_list_In in Hin. assert ((u', v') = (u, v)) as [= -> ->] by (apply (Hnum t' t); try assumption; lia).
    rewrite Ep, Eq. destruct (_ =? 1)%nat; [|reflexivity]. cbn [andb]. destruct (near_line k b p) eqn:N1; [|reflexivity]. destruct (near_line k b q) eqn:N2; [|reflexivity].
    cbn [andb]. by rewrite (near_mid k b p q (Hxs _ _ Ep) (Hxs _ _ Eq) N1 N2 Hk).
Qed.
End Mark.

(** ** The facets of meshes on the grid *)

(** The vertices of facet [i] of the triangle [cr] have the property [P]. *)
Definition FacetAll (cr : cellrec) (i : nat) (P : vec -> Prop) : Prop := forall j v, verts cr !! j = Some v -> j <> i -> P v.

Lemma grid_cell nx ny dg pos num mk m c cr : (forall v, length (pos v) = 2%nat) -> Oriented nx ny dg pos -> Numbering num (rect_tris nx ny dg) ->
  tri_mesh num (map pos (rect_gvertices nx ny dg)) (rect_tris nx ny dg) mk = Ok m -> cells m c = Some cr ->
  exists k a b d s i j, c = Z.of_nat k /\ rect_gtris nx ny dg !! k = Some (a, b, d) /\ (i < nx)%nat /\ (j < ny)%nat /\ ((a, b, d), s) ∈ signed_square dg i j /\
    verts cr = [pos a; pos b; pos d] /\
    forall i mf cn, fids cr !! i = Some mf -> nbrs cr !! i = Some cn -> exists go gu gv, GSide (a, b, d) i go gu gv /\
      mf = Z.of_nat (num (gnum nx ny gu, gnum nx ny gv)) /\ (cn = NO_CELL <-> exists b, OnBorder nx ny b gu gv) /\
      (forall P, FacetAll cr i P <-> P (pos gu) /\ P (pos gv)).
Proof.
  intros Hlen HO Hnum E Hc. pose proof (grid_triangulation nx ny dg pos num Hlen HO Hnum) as HT.
  destruct (tri_mesh_ok num _ _ mk HT) as (m' & E' & _ & _ & _ & Hcells & _). rewrite E in E'. injection E' as <-.
  apply Hcells in Hc as (k & a & b & d & p & q & r & nb & -> & Ek & Ep & Eq & Er & _ & _ & _ & _ & -> & Hl & Htab).
  assert (exists g, rect_gtris nx ny dg !! k = Some g /\ gtri_num nx ny g = (a, b, d)) as ([[ga gb] gd] & Eg & Egn).
  { unfold rect_tris in Ek. rewrite list_lookup_fmap in Ek. destruct (rect_gtris nx ny dg !! k) as [g|]; [|discriminate]. injection Ek as Ek. by exists g. }
  pose proof (elem_of_list_lookup_2 _ _ _ Eg) as (i & j & Hi & Hj & Hg)%gtris_in. destruct (signed_in _ _ _ _ Hg) as [s H].
  pose proof (tri_used _ _ _ _ _ _ _ Hi Hj H) as (Ua & Ub & Ud & _). cbn [gtri_num] in Egn. injection Egn as <- <- <-.
  rewrite (pos_at nx ny dg pos ga Ua) in Ep. rewrite (pos_at nx ny dg pos gb Ub) in Eq. rewrite (pos_at nx ny dg pos gd Ud) in Er.
  injection Ep as <-. injection Eq as <-. injection Er as <-.
  exists k, ga, gb, gd, s, i, j. split_and!; try done. clear i j Hi Hj Hg H. intros i mf cn Hf Hn. cbn [fids nbrs] in *.
  assert (Hi : (i < 3)%nat) by (apply lookup_lt_Some in Hn; lia).
  assert (exists go gu gv, GSide (ga, gb, gd) i go gu gv) as (go & gu & gv & Hs).
  { destruct i as [|[|[|i]]]; [exists ga, gb, gd|exists gb, ga, gd|exists gd, ga, gb|lia]; cbn; tauto. }
  exists go, gu, gv. split; [exact Hs|]. pose proof (side_lower nx ny _ _ _ _ _ Hs) as Hs'. cbn [gtri_num] in Hs'.
  destruct (Htab _ _ _ _ Hs') as (_ & T2 & _).
  split; [|split].
  - destruct Hs as [(-> & -> & -> & ->)|[(-> & -> & -> & ->)|(-> & -> & -> & ->)]]; by injection Hf as <-.
  - rewrite <- (grid_border nx ny dg pos num Hlen Hnum k _ i go gu gv Eg Hs), <- T2, Hn. unfold NO_CELL. split; [by intros ->|by intros [=]].
  - intros P. unfold FacetAll. cbn [verts]. destruct Hs as [(-> & -> & -> & ->)|[(-> & -> & -> & ->)|(-> & -> & -> & ->)]].
    + split; [intros HP; split; [apply (HP 1%nat)|apply (HP 2%nat)]; done|]. intros [P1 P2] j v Hv Hj. destruct j as [|[|[|j]]]; try done; by injection Hv as <-.
    + split; [intros HP; split; [apply (HP 0%nat)|apply (HP 2%nat)]; done|]. intros [P1 P2] j v Hv Hj. destruct j as [|[|[|j]]]; try done; by injection Hv as <-.
    + split; [intros HP; split; [apply (HP 0%nat)|apply (HP 1%nat)]; done|]. intros [P1 P2] j v Hv Hj. destruct j as [|[|[|j]]]; try done; by injection Hv as <-.
Qed.

(** ** The rectangle *)
Section Rect.
Context (num : nat * nat -> nat) (nx ny : nat) (x0 x1 y0 y1 : R) (dg : diagonal)
        (Hnx : (1 <= nx)%nat) (Hny : (1 <= ny)%nat) (Hx : x0 < x1) (Hy : y0 < y1) (Hnum : Numbering num (rect_tris nx ny dg)).
Let pos := gpos nx ny x0 x1 y0 y1.
Let dx := (x1 - x0) / INR nx.
Let dy := (y1 - y0) / INR ny.

Lemma rect_pos : (forall i j, pos (Corner i j) = [x0 + INR i * dx; y0 + INR j * dy]) /\
  (forall i j, pos (Middle i j) = [x0 + (INR i + / 2) * dx; y0 + (INR j + / 2) * dy]) /\ 0 < dx /\ 0 < dy.
Proof.
  assert (0 < INR nx) by (apply lt_0_INR; lia). assert (0 < INR ny) by (apply lt_0_INR; lia).
  split; [|split; [|split]].
  - intros i j. unfold pos, gpos, dx, dy. f_equal; [|f_equal]; field; lra.
  - intros i j. unfold pos, gpos, dx, dy. f_equal; [|f_equal]; field; lra.
  - apply Rdiv_lt_0_compat; lra.
  - apply Rdiv_lt_0_compat; lra.
Qed.
Lemma rect_oriented : Oriented nx ny dg pos.
Proof.
  destruct rect_pos as (Hc & Hm & Hdx & Hdy). intros i j t s _ _ H.
  destruct (square_kinds _ _ _ _ _ H) as [(_ & _ & [[-> ->]|[-> ->]])|[(_ & _ & [[-> ->]|[-> ->]])|(_ & [[-> ->]|[[-> ->]|[[-> ->]|[-> ->]]]])]];
    rewrite ?Hc, ?Hm, orient2d_2, ?S_INR; nra.
Qed.
Lemma pos_len v : length (pos v) = 2%nat.
Proof. by destruct v. Qed.
Lemma rect_triangulation : Triangulation num (rect_vertices nx ny x0 x1 y0 y1 dg) (rect_tris nx ny dg).
Proof. apply (grid_triangulation nx ny dg pos num pos_len rect_oriented Hnum). Qed.

(** The marker of a side. *)
Lemma rect_marker_ok ix0 ix1 iy0 iy1 k g i go gu gv : rect_gtris nx ny dg !! k = Some g -> GSide g i go gu gv ->
  let mk := rect_marker num nx ny x0 x1 y0 y1 dg ix0 ix1 iy0 iy1 (Z.of_nat (num (gnum nx ny gu, gnum nx ny gv))) in
  ((forall b, ~ OnBorder nx ny b gu gv) -> mk = 0%Z) /\
  (forall b, OnBorder nx ny b gu gv -> mk ∈ [ix0; ix1; iy0; iy1]) /\
  (forall b, OnBorder nx ny b gu gv -> / 10 ^ 10 <= dx -> / 10 ^ 10 <= dy ->
     mk = match b with BLeft => ix0 | BRight => ix1 | BBottom => iy0 | BTop => iy1 end).
Proof.
  intros Ek Hs. cbv zeta. pose proof (elem_of_list_lookup_2 _ _ _ Ek) as (a & b0 & Ha & Hb & Hg)%gtris_in. destruct (signed_in _ _ _ _ Hg) as [s H].
  destruct (gside_used _ _ _ _ _ _ _ _ _ _ _ Ha Hb H Hs) as (Uo & Uu & Uv).
  assert (Ht : gtri_num nx ny g ∈ rect_tris nx ny dg).
  { apply elem_of_list_fmap. exists g. split; [done|]. by eapply elem_of_list_lookup_2. }
  pose proof (side_in_edges _ _ _ _ _ (side_lower nx ny g i go gu gv Hs)) as He.
  pose proof (grid_border nx ny dg pos num pos_len Hnum k g i go gu gv Ek Hs) as HB.
  assert (Hxs : forall i p, rect_vertices nx ny x0 x1 y0 y1 dg !! i = Some p -> length p = 2%nat) by exact (tr_points _ _ _ rect_triangulation).
  pose proof (pos_at nx ny dg pos gu Uu) as Pu. pose proof (pos_at nx ny dg pos gv Uv) as Pv.
  pose proof (fun k b idx mk => tri_mark_eq num _ _ Hnum Hxs k b idx mk _ _ _ _ _ Ht He Pu Pv) as HM.
  unfold rect_marker. rewrite !HM by lia. clear HM.
  assert (HL : (exists b, OnBorder nx ny b gu gv) <-> (length (t_cells (tri_topo num (rect_tris nx ny dg)) (num (gnum nx ny gu, gnum nx ny gv))) =? 1)%nat = true).
  { rewrite <- HB, Nat.eqb_eq. split; [by intros ->|]. intros Hl.
    assert (Hk : k ∈ t_cells (tri_topo num (rect_tris nx ny dg)) (num (gnum nx ny gu, gnum nx ny gv))).
    { apply attached_in, facet_in. exists (gtri_num nx ny g), i, (gnum nx ny go), (gnum nx ny gu), (gnum nx ny gv).
      split; [unfold rect_tris; rewrite list_lookup_fmap; by rewrite Ek|]. split; [by apply side_lower|done]. }
    destruct (t_cells _ _) as [|y [|z l]]; [discriminate| |discriminate]. by apply elem_of_list_singleton in Hk as ->. }
  clear HB. destruct rect_pos as (Hc & Hm & Hdx & Hdy).
  assert (Ex : x0 + INR nx * dx = x1) by (unfold dx; field; apply not_0_INR; lia).
  assert (Ey : y0 + INR ny * dy = y1) by (unfold dy; field; apply not_0_INR; lia).
  split; [|split].
  - intros Hn. destruct (_ =? 1)%nat; [|reflexivity]. destruct (proj2 HL eq_refl) as [b Hb']. destruct (Hn b Hb').
  - intros b Hb'. rewrite (proj1 HL (ex_intro _ b Hb')). cbn [andb].
    assert (HN : near_line 0 x0 (pos gu) && near_line 0 x0 (pos gv) = true \/ near_line 0 x1 (pos gu) && near_line 0 x1 (pos gv) = true \/
      near_line 1 y0 (pos gu) && near_line 1 y0 (pos gv) = true \/ near_line 1 y1 (pos gu) && near_line 1 y1 (pos gv) = true).
    { assert (He0 : 0 < / 10 ^ 10) by (apply Rinv_0_lt_compat, pow_lt; lra). unfold near_line. set (e := / 10 ^ 10) in *.
      destruct b; destruct Hb' as (z & _ & -> & ->); rewrite !Hc; cbn [co].
      - left. apply andb_true_iff. rewrite !Rltb_true. cbn. replace (x0 + 0 * dx - x0) with 0 by ring. by rewrite Rabs_R0.
      - right. left. apply andb_true_iff. rewrite !Rltb_true. unfold co. cbn [nth]. rewrite Ex. replace (x1 - x1) with 0 by ring. by rewrite Rabs_R0.
      - right. right. left. apply andb_true_iff. rewrite !Rltb_true. cbn. replace (y0 + 0 * dy - y0) with 0 by ring. by rewrite Rabs_R0.
      - right. right. right. apply andb_true_iff. rewrite !Rltb_true. unfold co. cbn [nth]. rewrite Ey. replace (y1 - y1) with 0 by ring. by rewrite Rabs_R0. }
    fold pos. rewrite !elem_of_cons.
    destruct (near_line 1 y1 (pos gu) && _); [tauto|]. destruct (near_line 1 y0 (pos gu) && _); [tauto|]. destruct (near_line 0 x1 (pos gu) && _); [tauto|].
    destruct (near_line 0 x0 (pos gu) && _); [tauto|]. destruct HN as [HN|[HN|[HN|HN]]]; discriminate.
  - intros b Hb' Hex Hey. rewrite (proj1 HL (ex_intro _ b Hb')). cbn [andb]. fold pos.
    assert (He0 : 0 < / 10 ^ 10) by (apply Rinv_0_lt_compat, pow_lt; lra). unfold near_line. set (e := / 10 ^ 10) in *.
    assert (HT : forall x y, x = y -> Rltb (Rabs (x - y)) e = true) by (intros x y ->; apply Rltb_true; replace (y - y) with 0 by ring; by rewrite Rabs_R0).
    assert (HF : forall x y, x + e <= y \/ y + e <= x -> Rltb (Rabs (x - y)) e = false).
    { intros x y Hxy. apply Rltb_false. unfold Rabs. destruct (Rcase_abs (x - y)); lra. }
    assert (Hpn : forall z, 0 <= INR z) by exact pos_INR.
    assert (Hlt : forall z n, (z < n)%nat -> INR z + 1 <= INR n) by (intros z n Hz; rewrite <- S_INR; apply le_INR; lia).
    destruct b; destruct Hb' as (z & Hz & -> & ->); rewrite !Hc; unfold co; cbn [nth]; rewrite ?S_INR; pose proof (Hlt _ _ Hz); pose proof (Hpn z).
    + rewrite (HF (y0 + INR z * dy) y1), (HF (y0 + (INR z + 1) * dy) y0), (HF _ x1), (HT _ x0) by
        (first [cbn; lra | left; rewrite <- Ey; nra | right; nra | left; rewrite <- Ex; cbn; pose proof (Hlt 0%nat nx Hnx); cbn in *; nra]).
      rewrite ?andb_false_r, ?andb_false_l. reflexivity.
    + rewrite (HF (y0 + INR z * dy) y1), (HF (y0 + (INR z + 1) * dy) y0), (HT _ x1) by (first [exact Ex | left; rewrite <- Ey; nra | right; nra]).
      rewrite ?andb_false_r, ?andb_false_l. reflexivity.
    + rewrite (HF _ y1), (HT _ y0) by (first [cbn; lra | left; rewrite <- Ey; cbn; pose proof (Hlt 0%nat ny Hny); cbn in *; nra]).
      rewrite ?andb_false_r, ?andb_false_l. reflexivity.
    + rewrite (HT _ y1) by exact Ey. reflexivity.
Qed.
End Rect.

Lemma between t n : (1 <= n)%nat -> 0 <= t <= INR n -> exists i, (i < n)%nat /\ INR i <= t <= INR i + 1.
Proof.
  induction n as [|n IH]; intros Hn Ht; [lia|]. rewrite S_INR in Ht. destruct (Rle_dec (INR n) t) as [H|H].
  - exists n. split; [lia|lra].
  - destruct n as [|n]; [cbn in H; lra|]. destruct IH as (i & Hi & Hi'); [lia|lra|]. exists i. split; [lia|exact Hi'].
Qed.

(** C55: the mesh of a rectangle can be made for all numbers of cells, all diagonals and all numberings of the facets; it is conforming; a
    facet has no cell behind it exactly if it lies on one of the four sides; the facets between two cells are not marked, the others
    are marked with one of the four numbers, and with the number of their side if the cells are not smaller than the tolerance. *)
Theorem C55_rectangle num nx ny x0 x1 y0 y1 dg ix0 ix1 iy0 iy1 : (1 <= nx)%nat -> (1 <= ny)%nat -> x0 < x1 -> y0 < y1 ->
  Numbering num (rect_tris nx ny (default RightDiag dg)) ->
  exists m, xyz_rect_mesh num nx ny x0 x1 y0 y1 dg ix0 ix1 iy0 iy1 = Ok m /\ gdim m = 2%nat /\ Conforming m /\
    forall c cr i mf cn, cells m c = Some cr -> fids cr !! i = Some mf -> nbrs cr !! i = Some cn ->
      (cn = NO_CELL <-> FacetAll cr i (fun v => co v 0 = x0) \/ FacetAll cr i (fun v => co v 0 = x1) \/
                        FacetAll cr i (fun v => co v 1 = y0) \/ FacetAll cr i (fun v => co v 1 = y1)) /\
      (cn <> NO_CELL -> marker m mf = 0%Z) /\
      (cn = NO_CELL -> marker m mf ∈ [ix0; ix1; iy0; iy1]) /\
      (/ 10 ^ 10 <= (x1 - x0) / INR nx -> / 10 ^ 10 <= (y1 - y0) / INR ny ->
        (FacetAll cr i (fun v => co v 0 = x0) -> marker m mf = ix0) /\ (FacetAll cr i (fun v => co v 0 = x1) -> marker m mf = ix1) /\
        (FacetAll cr i (fun v => co v 1 = y0) -> marker m mf = iy0) /\ (FacetAll cr i (fun v => co v 1 = y1) -> marker m mf = iy1)).
Proof.
  intros Hnx Hny Hx Hy Hnum. unfold xyz_rect_mesh. cbv zeta. set (d := default RightDiag dg) in *. clearbody d. clear dg.
  pose proof (rect_triangulation num nx ny x0 x1 y0 y1 d Hnx Hny Hx Hy Hnum) as HT.
  destruct (C55_conforming num _ _ (rect_marker num nx ny x0 x1 y0 y1 d ix0 ix1 iy0 iy1) HT) as (m & E & HC).
  destruct (tri_mesh_ok num _ _ (rect_marker num nx ny x0 x1 y0 y1 d ix0 ix1 iy0 iy1) HT) as (m' & E' & Hd & Hmk & _). rewrite E in E'. injection E' as <-.
  exists m. split; [exact E|]. split; [exact Hd|]. split; [exact HC|]. intros c cr i mf cn Hc Hf Hn.
  pose proof (rect_oriented nx ny x0 x1 y0 y1 d Hnx Hny Hx Hy) as HO.
  destruct (grid_cell nx ny d _ num _ m c cr (pos_len nx ny x0 x1 y0 y1) HO Hnum E Hc) as (k & a & b & g & s & p & q & -> & Ek & Hp & Hq & Hsq & _ & Hside).
  destruct (Hside i mf cn Hf Hn) as (go & gu & gv & Hs & -> & Hout & Hall). clear Hside.
  pose proof (rect_marker_ok num nx ny x0 x1 y0 y1 d Hnx Hny Hx Hy Hnum ix0 ix1 iy0 iy1 k _ i go gu gv Ek Hs) as (M1 & M2 & M3).
  rewrite Hmk. destruct (rect_pos nx ny x0 x1 y0 y1 Hnx Hny Hx Hy) as (Pc & Pm & Hdx & Hdy).
  set (dx := (x1 - x0) / INR nx) in *. set (dy := (y1 - y0) / INR ny) in *.
  assert (Ex : x0 + INR nx * dx = x1) by (unfold dx; field; apply not_0_INR; lia).
  assert (Ey : y0 + INR ny * dy = y1) by (unfold dy; field; apply not_0_INR; lia).
  clearbody dx dy.
  assert (Hln : forall z n, (z < n)%nat -> INR z + 1 <= INR n) by (intros z n Hz; rewrite <- S_INR; apply le_INR; lia).
  assert (HX : forall z t D, 0 < D -> t + INR z * D = t <-> z = 0%nat).
  { intros z t D HD. split; [|intros ->; cbn; lra]. intros HE. destruct z as [|z]; [done|]. rewrite S_INR in HE. pose proof (pos_INR z). nra. }
  assert (HXn : forall z n t D, 0 < D -> t + INR z * D = t + INR n * D <-> z = n).
  { intros z n t D HD. split; [|by intros ->]. intros HE. apply INR_eq. nra. }
  assert (HM : forall z t D, 0 < D -> t + (INR z + / 2) * D <> t).
  { intros z t D HD HE. pose proof (pos_INR z). nra. }
  assert (HMn : forall z n t D, 0 < D -> t + (INR z + / 2) * D <> t + INR n * D).
  { intros z n t D HD HE. assert (HZ : INR z + / 2 = INR n) by nra. destruct (lt_eq_lt_dec z n) as [[Hz|Hz]|Hz].
    - pose proof (Hln _ _ Hz). lra.
    - subst. lra.
    - pose proof (Hln _ _ Hz). lra. }
  assert (HB : (FacetAll cr i (fun v => co v 0 = x0) <-> OnBorder nx ny BLeft gu gv) /\ (FacetAll cr i (fun v => co v 0 = x1) <-> OnBorder nx ny BRight gu gv) /\
    (FacetAll cr i (fun v => co v 1 = y0) <-> OnBorder nx ny BBottom gu gv) /\ (FacetAll cr i (fun v => co v 1 = y1) <-> OnBorder nx ny BTop gu gv)).
  { rewrite !Hall. cbn [OnBorder]. split_and!.
    all: split; [|intros (z & Hz & -> & ->); rewrite !Pc; unfold co; cbn [nth]; rewrite ?Ex, ?Ey; split; cbn; lra].
    all: destruct (square_kinds _ _ _ _ _ Hsq) as [(_ & _ & [[[= -> -> ->] ->]|[[= -> -> ->] ->]])|[(_ & _ & [[[= -> -> ->] ->]|[[= -> -> ->] ->]])|
      (_ & [[[= -> -> ->] ->]|[[[= -> -> ->] ->]|[[[= -> -> ->] ->]|[[= -> -> ->] ->]]]])]];
      destruct Hs as [(-> & -> & -> & ->)|[(-> & -> & -> & ->)|(-> & -> & -> & ->)]]; rewrite ?Pc, ?Pm; unfold co; cbn [nth]; intros [H1 H2];
      rewrite <- ?Ex in H1, H2; rewrite <- ?Ey in H1, H2;
      try (exfalso; first [apply (HM _ _ _ Hdx H1)|apply (HM _ _ _ Hdx H2)|apply (HM _ _ _ Hdy H1)|apply (HM _ _ _ Hdy H2)|
        apply (HMn _ _ _ _ Hdx H1)|apply (HMn _ _ _ _ Hdx H2)|apply (HMn _ _ _ _ Hdy H1)|apply (HMn _ _ _ _ Hdy H2)]; fail).
    all: first [apply (HXn _ _ _ _ Hdx) in H1; apply (HXn _ _ _ _ Hdx) in H2|apply (HX _ _ _ Hdx) in H1; apply (HX _ _ _ Hdx) in H2|
      apply (HXn _ _ _ _ Hdy) in H1; apply (HXn _ _ _ _ Hdy) in H2|apply (HX _ _ _ Hdy) in H1; apply (HX _ _ _ Hdy) in H2]; try (exfalso; lia); eexists; (split; [|split; f_equal; eassumption]); lia. }
  destruct HB as (B1 & B2 & B3 & B4). rewrite B1, B2, B3, B4. split_and!.
  - rewrite Hout. split.
    + intros [[] Hb]; tauto.
    + intros [Hb|[Hb|[Hb|Hb]]]; eexists; exact Hb.
  - intros Hcn. apply M1. intros bb Hb. apply Hcn, Hout. by exists bb.
  - intros Hcn. apply Hout in Hcn as [bb Hb]. exact (M2 bb Hb).
  - intros Hex Hey. split_and!; intros Hb; exact (M3 _ Hb Hex Hey).
Qed.

(** C55: if the four numbers are not zero and their boundary conditions absorb particles, or reflect charged ones, particles can be tracked
    through the mesh of a rectangle: a move that starts in the cell of the particle never fails but by its limit of facet crossings. *)
Theorem C55_rectangle_tracked {K} (bcs : Z -> option (bcfun (K:=K))) recd kd num nx ny x0 x1 y0 y1 dg ix0 ix1 iy0 iy1 m maxc fi time dt p c cr :
  (1 <= nx)%nat -> (1 <= ny)%nat -> x0 < x1 -> y0 < y1 -> Numbering num (rect_tris nx ny (default RightDiag dg)) ->
  xyz_rect_mesh num nx ny x0 x1 y0 y1 dg ix0 ix1 iy0 iy1 = Ok m ->
  (forall v, v ∈ [ix0; ix1; iy0; iy1] -> v <> 0%Z /\ (bcs v = Some absorb_bc \/ (kd = Charged /\ bcs v = Some (reflect_bc exact)))) ->
  (forall c i p t, exists u, recd c i p t = Ok (TCtx (scr c) u)) ->
  length (px p) = 2%nat -> length (px0 p) = 2%nat -> length (pu p) = 2%nat -> cells m (pcell p) = Some cr -> InCell 2 cr (px0 p) ->
  match track exact bcs recd kd m maxc fi time dt p c with
  | Ok _ => True
  | Raise e => e = track_fail kd CrossCountMsg
  end.
Proof.
  intros Hnx Hny Hx Hy Hnum E Hb Hrec L1 L2 L3 Hc HI.
  destruct (C55_rectangle num nx ny x0 x1 y0 y1 dg ix0 ix1 iy0 iy1 Hnx Hny Hx Hy Hnum) as (m' & E' & Hd & HC & HF). rewrite E in E'. injection E' as <-.
  rewrite <- Hd in L1, L2, L3, HI.
  pose proof (C14_no_impossible_errors bcs recd kd m maxc fi time dt p c cr HC) as H. specialize (fun HB => H HB Hrec L1 L2 L3 Hc HI).
  destruct (track exact bcs recd kd m maxc fi time dt p c) as [[q u]|e]; [done|]. apply H.
  intros c' cr' i mf cn Hc' Hf Hn. destruct (HF c' cr' i mf cn Hc' Hf Hn) as (_ & F2 & F3 & _). split.
  - intros Hcn. exact (Hb _ (F3 Hcn)).
  - intros Hcn. left. exact (F2 Hcn).
Qed.

(** A mesh of four cells on the rectangle from (0, 0) to (4, 1), the sides marked 1, 2, 3, 4. *)
Example C55_rectangle_2_1 : exists m cr f, xyz_rect_mesh Cantor.to_nat 2 1 0 4 0 1 (Some LeftDiag) 1 2 3 4 = Ok m /\ Conforming m /\
  cells m 3%Z = Some cr /\ verts cr = [[4; 0]; [2; 1]; [4; 1]] /\ nbrs cr = [-1; -1; 2]%Z /\ fids cr !! 0%nat = Some f /\ marker m f = 4%Z.
Proof.
  destruct (C55_rectangle Cantor.to_nat 2 1 0 4 0 1 (Some LeftDiag) 1 2 3 4) as (m & E & _ & HC & HF); [lia|lia|lra|lra|apply cantor_numbering|].
  assert (exists cr, cells m 3%Z = Some cr /\ verts cr = [[0 + INR 2 * (4 - 0) / INR 2; 0 + INR 0 * (1 - 0) / INR 1]; [0 + INR 1 * (4 - 0) / INR 2; 0 + INR 1 * (1 - 0) / INR 1];
      [0 + INR 2 * (4 - 0) / INR 2; 0 + INR 1 * (1 - 0) / INR 1]] /\ nbrs cr = [-1; -1; 2]%Z /\ is_Some (fids cr !! 0%nat)) as (cr & H1 & H2 & H3 & [f H4]).
  { unfold xyz_rect_mesh, tri_mesh in E. injection E as <-. eexists. split; [reflexivity|]. cbn [verts nbrs fids]. split; [reflexivity|]. split; [reflexivity|]. by eexists. }
  assert (verts cr = [[4; 0]; [2; 1]; [4; 1]]) as Hv by (rewrite H2; cbn [INR]; repeat f_equal; field).
  exists m, cr, f. split_and!; try done.
  destruct (HF 3%Z cr 0%nat f (-1)%Z H1 H4) as (_ & _ & _ & HM); [by rewrite H3|].
  assert (H10 : / 10 ^ 10 <= 1) by (rewrite <- Rinv_1; apply Rinv_le_contravar; [lra|apply pow_R1_Rle; lra]).
  destruct HM as (_ & _ & _ & HM); [cbn [INR]; lra|cbn [INR]; lra|]. apply HM.
  intros j v Hj Hne. rewrite Hv in Hj. destruct j as [|[|[|j]]]; try done; by injection Hj as <-.
Qed.
Print Assumptions C55_rectangle.
Print Assumptions C55_rectangle_tracked.
