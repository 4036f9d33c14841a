(** C56: moves through the mesh of a rectangle. *)
From stdpp Require Import list_numbers.
From Coq Require Cantor.
From Verif Require Import Vec VecProofs TrackModel BcModel Geometry FindFacetProofs FindFacetProps Conforming MeshModel MeshProps InsideModel InsideProps LineMeshModel LineMeshProps TrackProps TrackGeomProps.
From Verif Require Import TriMeshModel TriMeshProps RectMeshProofs RectMeshProps RectFillProps.
From Verif Require Import RankProps RectTrackProofs.
Local Open Scope R_scope.

(** The point lies in the rectangle. *)
Definition InRect (x0 x1 y0 y1 : R) (x : vec) : Prop := x0 <= co x 0 <= x1 /\ y0 <= co x 1 <= y1.

Section Rect.
Context (num : nat * nat -> nat) (nx ny : nat) (x0 x1 y0 y1 : R) (odg : option diagonal) (ix0 ix1 iy0 iy1 : Z) (m : mesh).
Context (Hnx : (1 <= nx)%nat) (Hny : (1 <= ny)%nat) (Hx : x0 < x1) (Hy : y0 < y1).
Let dg := default RightDiag odg.
Context (Hnum : Numbering num (rect_tris nx ny dg)) (E : xyz_rect_mesh num nx ny x0 x1 y0 y1 odg ix0 ix1 iy0 iy1 = Ok m).
Let pos := gpos nx ny x0 x1 y0 y1.
Let dx := (x1 - x0) / INR nx.
Let dy := (y1 - y0) / INR ny.

Lemma rect_next c cr i n cn : cells m c = Some cr -> normals cr !! i = Some n -> nbrs cr !! i = Some cn ->
  exists k g s a b go gu gv, c = Z.of_nat k /\ rect_gtris nx ny dg !! k = Some g /\ (a < nx)%nat /\ (b < ny)%nat /\ (g, s) ∈ signed_square dg a b /\
    GSide g i go gu gv /\ n = tri_normal (pos go) (pos gu) (pos gv) /\ verts cr = [pos g.1.1; pos g.1.2; pos g.2] /\ (cn = NO_CELL <-> exists bo, OnBorder nx ny bo gu gv) /\
    (cn <> NO_CELL -> exists k' g' s' a' b' i' go', cn = Z.of_nat k' /\ rect_gtris nx ny dg !! k' = Some g' /\ (a' < nx)%nat /\ (b' < ny)%nat /\
       (g', s') ∈ signed_square dg a' b' /\ GSide g' i' go' gu gv /\ g <> g').
Proof.
  intros Hc Hn Hb.
  apply (grid_next nx ny dg pos num (rect_marker num nx ny x0 x1 y0 y1 dg ix0 ix1 iy0 iy1) m c cr i n cn (pos_len nx ny x0 x1 y0 y1)
    (rect_oriented nx ny x0 x1 y0 y1 dg Hnx Hny Hx Hy) Hnum E Hc Hn Hb).
Qed.

(** The ranks. *)
Definition rect_rank (d : vec) (c : Z) : nat := match rect_gtris nx ny dg !! Z.to_nat c with Some g => grank nx ny (co d 0) (co d 1) dx dy g | None => 0 end.
Lemma rect_downhill d : length d = 2%nat -> Downhill m d (rect_rank d).
Proof.
  intros (d0 & d1 & ->)%len2 c cr i n cn Hc Hn Hb Hcn Hd.
  destruct (rect_next c cr i n cn Hc Hn Hb) as (k & g & s & a & b & go & gu & gv & -> & Eg & Ha & Hb' & Hsq & Hs & -> & _ & _ & Hnext).
  destruct (Hnext Hcn) as (k' & g' & s' & a' & b' & i' & go' & -> & Eg' & Ha' & Hbb & Hsq' & Hs' & Hne).
  unfold rect_rank. rewrite !Nat2Z.id, Eg, Eg'.
  destruct (rect_pos nx ny x0 x1 y0 y1 Hnx Hny Hx Hy) as (Pc & Pm & Hdx & Hdy).
  apply (grank_down nx ny x0 y0 d0 d1 dx dy dg Hdx Hdy pos Pc Pm g s a b i go gu gv g' s' a' b' i' go'); try assumption.
  apply (side_orient nx ny dg pos (rect_oriented nx ny x0 x1 y0 y1 dg Hnx Hny Hx Hy) g s a b i go gu gv); assumption.
Qed.
Lemma rect_rank_le d c : (rect_rank d c + 4 <= 3 * (nx + ny))%nat.
Proof using Hnx Hny.
  unfold rect_rank. destruct (_ !! _) as [g|] eqn:Eg; [|lia].
  pose proof (elem_of_list_lookup_2 _ _ _ Eg) as (a & b & Ha & Hb & Hg)%gtris_in. destruct (signed_in _ _ _ _ Hg) as [s Hs].
  exact (grank_le nx ny _ _ dx dy dg g s a b Ha Hb Hs).
Qed.

(** Beyond a facet at the border is outside. *)
Lemma border_out c cr i n : cells m c = Some cr -> normals cr !! i = Some n -> nbrs cr !! i = Some NO_CELL ->
  exists j v, verts cr !! j = Some v /\ on_facet 2 i j /\ forall z, length z = 2%nat -> dot n v < dot n z -> ~ InRect x0 x1 y0 y1 z.
Proof.
  intros Hc Hn Hb. destruct (rect_next c cr i n NO_CELL Hc Hn Hb) as (k & g & s & a & b & go & gu & gv & -> & Eg & Ha & Hb' & Hsq & Hs & -> & Hv & [HB _] & _).
  destruct (HB eq_refl) as [bo Hbo]. clear HB.
  assert (exists j, verts cr !! j = Some (pos gu) /\ on_facet 2 i j) as (j & Hj & Ho).
  { rewrite Hv. destruct g as [[ga gb] gd]. destruct Hs as [(-> & -> & -> & ->)|[(-> & -> & -> & ->)|(-> & -> & -> & ->)]]; [exists 1%nat|exists 0%nat|exists 0%nat]; split; done. }
  exists j, (pos gu). split; [exact Hj|]. split; [exact Ho|]. intros z (z0 & z1 & ->)%len2 Hlt [HX HY]. unfold co in HX, HY. cbn [nth] in HX, HY.
  pose proof (border_sign nx ny dg bo g s a b i go gu gv Ha Hb' Hsq Hs Hbo) as Hsg.
  pose proof (side_orient nx ny dg pos (rect_oriented nx ny x0 x1 y0 y1 dg Hnx Hny Hx Hy) g s a b i go gu gv Ha Hb' Hsq Hs) as HO. rewrite Hsg in HO. clear Hsg.
  destruct (rect_pos nx ny x0 x1 y0 y1 Hnx Hny Hx Hy) as (Pc & Pm & Hdx & Hdy). fold pos dx dy in Pc, Pm, Hdx, Hdy.
  assert (Ex : x0 + INR nx * dx = x1) by (unfold dx; field; apply not_0_INR; lia).
  assert (Ey : y0 + INR ny * dy = y1) by (unfold dy; field; apply not_0_INR; lia).
  destruct (len2 _ (pos_len nx ny x0 x1 y0 y1 go)) as (ox & oy & Eo). fold pos in Eo. rewrite Eo in *.
  destruct bo; destruct Hbo as (w & Hw & -> & ->); rewrite !Pc in *.
  all: match type of HO with (0 < ?D \/ _) => idtac | 0 < ?D => assert (HD : D <> 0) by lra | ?D < 0 => assert (HD : D <> 0) by lra end.
  all: match type of Hlt with dot (tri_normal [?a; ?b] [?c; ?d] [?e; ?f]) _ < _ => destruct (tri_normal_eq a b c d e f HD) as (HL & _ & En) end; rewrite En, !dot2 in Hlt; clear En;
    set (L := R_sqrt.sqrt _) in *; clearbody L; unfold sgn in Hlt;
    (rewrite (proj2 (Rltb_true _ _) HO) in Hlt || rewrite (proj2 (Rltb_false _ _) (Rlt_le _ _ HO)) in Hlt); rewrite S_INR in Hlt; clear HO HD.
  all: assert (HiL : 0 < / L) by (by apply Rinv_0_lt_compat); unfold Rdiv in Hlt; set (iL := / L) in *; clearbody iL.
  - assert (0 < iL * dy * (x0 - z0)) by (cbn [INR] in Hlt; lra). assert (0 < iL * dy) by (by apply Rmult_lt_0_compat). nra.
  - rewrite Ex in Hlt. assert (0 < iL * dy * (z0 - x1)) by lra. assert (0 < iL * dy) by (by apply Rmult_lt_0_compat). nra.
  - assert (0 < iL * dx * (y0 - z1)) by (cbn [INR] in Hlt; lra). assert (0 < iL * dx) by (by apply Rmult_lt_0_compat). nra.
  - rewrite Ey in Hlt. assert (0 < iL * dx * (z1 - y1)) by lra. assert (0 < iL * dx) by (by apply Rmult_lt_0_compat). nra.
Qed.

(** What [Ended] means here. *)
Lemma rect_ended p q cr : length (px p) = 2%nat -> length (px0 p) = 2%nat -> cells m (pcell p) = Some cr -> InCell 2 cr (px0 p) -> Ended m p q ->
  px q = px p /\ pu q = pu p /\
  (InRect x0 x1 y0 y1 (px p) -> pbits q = pbits p /\ exists cr', cells m (pcell q) = Some cr' /\ InCell 2 cr' (px p)) /\
  (~ InRect x0 x1 y0 y1 (px p) -> pbits q = Z.lor (pbits p) DELETE_FLAG /\ pcell q = NO_CELL /\
    exists t, 0 <= t < 1 /\ px0 q = along (px0 p) (vsub exact (px p) (px0 p)) t /\
      forall s, 0 <= s <= 1 -> InRect x0 x1 y0 y1 (along (px0 p) (vsub exact (px p) (px0 p)) s) <-> s <= t).
Proof.
  intros L1 L2 Hc HI (E1 & E2 & HE). split; [exact E1|]. split; [exact E2|].
  destruct (C55_rectangle num nx ny x0 x1 y0 y1 odg ix0 ix1 iy0 iy1 Hnx Hny Hx Hy Hnum) as (m' & E' & Hd & HC & _). rewrite E in E'. injection E' as <-.
  pose proof (C55_rectangle_filled num nx ny x0 x1 y0 y1 odg ix0 ix1 iy0 iy1 m Hnx Hny Hx Hy Hnum E) as HF.
  set (d := vsub exact (px p) (px0 p)) in *. assert (Ld : length d = 2%nat) by (subst d; rewrite vsub_length; lia).
  assert (La : forall s, length (along (px0 p) d s) = 2%nat) by (intros s; unfold along; rewrite vadd_length; rewrite ?vscale_length; lia).
  destruct HE as [(B & cr' & Hc' & HI')|(B & Hnc & t & Ht & Et & c1 & cr1 & i & n & Hc1 & Hb1 & Hn1 & HIy & Hfac)]; rewrite Hd in *.
  - assert (HR : InRect x0 x1 y0 y1 (px p)) by (apply (HF (px p) L1); by exists (pcell q), cr'). split; [|tauto]. intros _. split; [exact B|]. by exists cr'.
  - destruct (border_out c1 cr1 i n Hc1 Hn1 Hb1) as (j & v & Hv & Ho & Hout). destruct (Hfac j v Hv Ho) as [F1 F2].
    split; [intros HR; destruct (Hout (px p) L1 F2 HR)|]. intros _. split; [exact B|]. split; [exact Hnc|]. exists t. split; [exact Ht|]. split; [exact Et|].
    assert (HY : InRect x0 x1 y0 y1 (along (px0 p) d t)) by (rewrite <- Et; apply (HF (px0 q)); [rewrite Et; apply La|by exists c1, cr1]).
    assert (H0 : InRect x0 x1 y0 y1 (px0 p)) by (apply (HF (px0 p) L2); by exists (pcell p), cr).
    assert (Hnd : 0 < dot n d).
    { rewrite Et, dot_along in F1 by lia. assert (dot n d = dot n (px p) - dot n (px0 p)) by (unfold d; rewrite dot_sub by lia; reflexivity). nra. }
    intros s Hs. split.
    + intros HR. destruct (Rle_dec s t) as [H|H]; [exact H|]. exfalso. apply (Hout (along (px0 p) d s) (La s)); [|exact HR].
      rewrite <- F1, Et, !dot_along by lia. nra.
    + intros H. destruct HY as [Y1 Y2], H0 as [Z1 Z2]. unfold InRect. rewrite !co_along in * by lia.
      assert (HM : forall lo hi a e, lo <= a <= hi -> lo <= a + t * e <= hi -> lo <= a + s * e <= hi).
      { intros lo hi a e G1 G2. destruct (Rle_dec 0 e); split; nra. }
      split; [exact (HM _ _ _ _ Z1 Y1)|exact (HM _ _ _ _ Z2 Y2)].
Qed.

(** The rectangle of the cut in which a cell lies. *)
Definition rect_square (c : Z) : nat * nat := match rect_gtris nx ny dg !! Z.to_nat c with Some g => gsquare g | None => (0, 0)%nat end.
Lemma rect_walk c is c' : (exists cr, cells m c = Some cr) -> walk m c is c' ->
  (Z.abs (Z.of_nat (rect_square c').1 - Z.of_nat (rect_square c).1) + Z.abs (Z.of_nat (rect_square c').2 - Z.of_nat (rect_square c).2) <= Z.of_nat (length is))%Z.
Proof.
  intros _ HW. induction HW as [c|c is c1 cr i cn HW IH Hc Hb Hcn|c is c1 cr i HW IH Hc Hb]; [cbn [length]; lia| |rewrite app_length; cbn [length]; lia].
  rewrite app_length. cbn [length].
  destruct (C55_rectangle num nx ny x0 x1 y0 y1 odg ix0 ix1 iy0 iy1 Hnx Hny Hx Hy Hnum) as (m' & E' & Hd & HC & _). rewrite E in E'. injection E' as <-.
  assert (exists n, normals cr !! i = Some n) as [n Hn].
  { apply lookup_lt_is_Some. pose proof (sx_nn _ _ (cf_simplex m HC c1 cr Hc)) as Hl. rewrite Hl. rewrite <- (cf_nbrs m HC c1 cr Hc). by eapply lookup_lt_Some. }
  destruct (rect_next c1 cr i n cn Hc Hn Hb) as (k & g & s & a & b & go & gu & gv & -> & Eg & Ha & Hb' & Hsq & Hs & _ & _ & _ & Hnext).
  destruct (Hnext Hcn) as (k' & g' & s' & a' & b' & i' & go' & -> & Eg' & Ha' & Hbb & Hsq' & Hs' & Hne).
  pose proof (grid_step dg g s a b i go gu gv g' s' a' b' i' go' Hsq Hsq' Hs Hs') as Hst.
  unfold rect_square in IH |- *. rewrite !Nat2Z.id, Eg in IH. rewrite !Nat2Z.id, Eg'. rewrite (gsquare_eq _ _ _ _ _ Hsq) in IH. rewrite (gsquare_eq _ _ _ _ _ Hsq'). cbn [fst snd] in *. lia.
Qed.
Lemma rect_place c cr x : length x = 2%nat -> cells m c = Some cr -> InCell 2 cr x ->
  INR (rect_square c).1 <= (co x 0 - x0) / dx <= INR (rect_square c).1 + 1 /\ INR (rect_square c).2 <= (co x 1 - y0) / dy <= INR (rect_square c).2 + 1.
Proof.
  intros Lx Hc HI.
  destruct (C55_rectangle num nx ny x0 x1 y0 y1 odg ix0 ix1 iy0 iy1 Hnx Hny Hx Hy Hnum) as (m' & E' & Hd & HC & _). rewrite E in E'. injection E' as <-.
  pose proof (cf_simplex _ HC c cr Hc) as HS. rewrite Hd in HS. pose proof (in_cell_hull 2 cr x HS Lx HI) as HH.
  destruct (grid_cell nx ny dg pos num (rect_marker num nx ny x0 x1 y0 y1 dg ix0 ix1 iy0 iy1) m c cr (pos_len nx ny x0 x1 y0 y1) (rect_oriented nx ny x0 x1 y0 y1 dg Hnx Hny Hx Hy) Hnum E Hc)
    as (k & a & b & g & sg & i & j & -> & Ek & Hi & Hj & Hsq & Hv & _). rewrite Hv in HH.
  apply hull3 in HH as (s & t & u & Hs & Ht & Hu & H1 & Hco).
  destruct (place_local nx ny x0 x1 y0 y1 dg Hnx Hny Hx Hy a b g sg i j s t u x Hsq H1 Hco) as (X & Y & HL & C0 & C1).
  destruct (local_unit _ _ _ _ _ _ _ _ _ HL Hs Ht Hu) as [HX HY].
  destruct (rect_pos nx ny x0 x1 y0 y1 Hnx Hny Hx Hy) as (_ & _ & Hdx & Hdy). fold dx in C0, Hdx. fold dy in C1, Hdy.
  unfold rect_square. rewrite Nat2Z.id, Ek, (gsquare_eq _ _ _ _ _ Hsq). cbn [fst snd]. rewrite C0, C1.
  replace ((x0 + (INR i + X) * dx - x0) / dx) with (INR i + X) by (field; lra). replace ((y0 + (INR j + Y) * dy - y0) / dy) with (INR j + Y) by (field; lra). lra.
Qed.
End Rect.

(** C56: particles whose boundaries absorb are moved through the mesh of a rectangle without failure if the limit of facet crossings is at
    least 3 (nx + ny) - 3, for every direction and length of the move: a particle that ends in the rectangle is in a cell that contains the end,
    and one that does not is absorbed where its path leaves the rectangle. *)
Theorem C56_rectangle {K} (bcs : Z -> option (bcfun (K:=K))) recd kd num nx ny x0 x1 y0 y1 dg ix0 ix1 iy0 iy1 m maxc fi time dt p c cr :
  (1 <= nx)%nat -> (1 <= ny)%nat -> x0 < x1 -> y0 < y1 -> Numbering num (rect_tris nx ny (default RightDiag dg)) ->
  xyz_rect_mesh num nx ny x0 x1 y0 y1 dg ix0 ix1 iy0 iy1 = Ok m ->
  (forall v, v ∈ [ix0; ix1; iy0; iy1] -> v <> 0%Z /\ bcs v = Some absorb_bc) ->
  (forall c i p t, exists u, recd c i p t = Ok (TCtx (scr c) u)) ->
  length (px p) = 2%nat -> length (px0 p) = 2%nat -> cells m (pcell p) = Some cr -> InCell 2 cr (px0 p) ->
  (3 * Z.of_nat (nx + ny) - 3 <= maxc)%Z ->
  let path := along (px0 p) (vsub exact (px p) (px0 p)) in
  exists q c', track exact bcs recd kd m maxc fi time dt p c = Ok (q, c') /\ px q = px p /\ pu q = pu p /\
    (0 <= pcross q <= 3 * Z.of_nat (nx + ny) - 3)%Z /\
    (InRect x0 x1 y0 y1 (px p) -> pbits q = pbits p /\ exists cr', cells m (pcell q) = Some cr' /\ InCell 2 cr' (px p)) /\
    (~ InRect x0 x1 y0 y1 (px p) -> pbits q = Z.lor (pbits p) DELETE_FLAG /\ pcell q = NO_CELL /\
      exists t, 0 <= t < 1 /\ px0 q = path t /\ forall s, 0 <= s <= 1 -> InRect x0 x1 y0 y1 (path s) <-> s <= t).
Proof.
  intros Hnx Hny Hx Hy Hnum E Hb Hrec L1 L2 Hc HI Hmax path.
  destruct (C55_rectangle num nx ny x0 x1 y0 y1 dg ix0 ix1 iy0 iy1 Hnx Hny Hx Hy Hnum) as (m' & E' & Hd & HC & HF). rewrite E in E'. injection E' as <-.
  assert (HA : Absorbing m bcs).
  { intros c' cr' i mf cn Hc' Hf Hn. destruct (HF c' cr' i mf cn Hc' Hf Hn) as (_ & F2 & F3 & _). split; [intros Hcn; exact (Hb _ (F3 Hcn))|intros Hcn; left; exact (F2 Hcn)]. }
  pose proof (rect_rank_le nx ny x0 x1 y0 y1 dg Hnx Hny (vsub exact (px p) (px0 p)) (pcell p)) as Hle.
  destruct (C56_ranked bcs recd kd m maxc fi time dt p c cr (rect_rank nx ny x0 x1 y0 y1 dg (vsub exact (px p) (px0 p))) HC HA Hrec) as (q & c' & Et & HE & Hcr);
    rewrite ?Hd; try assumption.
  - apply (rect_downhill num nx ny x0 x1 y0 y1 dg ix0 ix1 iy0 iy1 m Hnx Hny Hx Hy Hnum E). rewrite vsub_length; lia.
  - lia.
  - exists q, c'. split; [exact Et|]. destruct (rect_ended num nx ny x0 x1 y0 y1 dg ix0 ix1 iy0 iy1 m Hnx Hny Hx Hy Hnum E p q cr L1 L2 Hc HI HE) as (R1 & R2 & R3 & R4).
    split; [exact R1|]. split; [exact R2|]. split; [lia|]. split; [exact R3|exact R4].
Qed.

(** C56: without such a limit moves fail: a particle that is to go further than maxc + 2 rectangles of the cut, counted along both directions, is never moved. *)
Theorem C56_too_far {K} (bcs : Z -> option (bcfun (K:=K))) recd kd num nx ny x0 x1 y0 y1 dg ix0 ix1 iy0 iy1 m maxc fi time dt p c cr :
  (1 <= nx)%nat -> (1 <= ny)%nat -> x0 < x1 -> y0 < y1 -> Numbering num (rect_tris nx ny (default RightDiag dg)) ->
  xyz_rect_mesh num nx ny x0 x1 y0 y1 dg ix0 ix1 iy0 iy1 = Ok m ->
  (forall v, v ∈ [ix0; ix1; iy0; iy1] -> v <> 0%Z /\ bcs v = Some absorb_bc) ->
  (forall c i p t, exists u, recd c i p t = Ok (TCtx (scr c) u)) ->
  length (px p) = 2%nat -> length (px0 p) = 2%nat -> cells m (pcell p) = Some cr -> InCell 2 cr (px0 p) ->
  InRect x0 x1 y0 y1 (px p) ->
  IZR (Z.max 0 maxc) + 2 < Rabs (co (px p) 0 - co (px0 p) 0) / ((x1 - x0) / INR nx) + Rabs (co (px p) 1 - co (px0 p) 1) / ((y1 - y0) / INR ny) ->
  track exact bcs recd kd m maxc fi time dt p c = Raise (track_fail kd CrossCountMsg).
Proof.
  intros Hnx Hny Hx Hy Hnum E Hb Hrec L1 L2 Hc HI HR Hfar.
  destruct (C55_rectangle num nx ny x0 x1 y0 y1 dg ix0 ix1 iy0 iy1 Hnx Hny Hx Hy Hnum) as (m' & E' & Hd & HC & HF). rewrite E in E'. injection E' as <-.
  assert (HA : Absorbing m bcs).
  { intros c' cr' i mf cn Hc' Hf Hn. destruct (HF c' cr' i mf cn Hc' Hf Hn) as (_ & F2 & F3 & _). split; [intros Hcn; exact (Hb _ (F3 Hcn))|intros Hcn; left; exact (F2 Hcn)]. }
  pose proof (C56_ends bcs recd kd m maxc fi time dt p c cr HC HA Hrec) as H. rewrite Hd in H. specialize (H L1 L2 Hc HI).
  destruct (track exact bcs recd kd m maxc fi time dt p c) as [[q c']|e]; [|by destruct H as [-> _]]. exfalso.
  destruct H as (HE & Hcr & Hw & _).
  destruct (rect_ended num nx ny x0 x1 y0 y1 dg ix0 ix1 iy0 iy1 m Hnx Hny Hx Hy Hnum E p q cr L1 L2 Hc HI HE) as (R1 & R2 & R3 & _).
  destruct (R3 HR) as (_ & cr' & Hc' & HI').
  assert (Hq : pcell q <> NO_CELL).
  { intros Hq. rewrite Hq in Hc'. pose proof (grid_cell nx ny (default RightDiag dg) _ num _ m NO_CELL cr' (pos_len nx ny x0 x1 y0 y1)
      (rect_oriented nx ny x0 x1 y0 y1 _ Hnx Hny Hx Hy) Hnum E Hc') as (k & _ & _ & _ & _ & _ & _ & Hk & _). unfold NO_CELL in Hk. lia. }
  destruct (Hw Hq) as (is & HW & Hlen).
  pose proof (rect_walk num nx ny x0 x1 y0 y1 dg ix0 ix1 iy0 iy1 m Hnx Hny Hx Hy Hnum E (pcell p) is (pcell q) (ex_intro _ cr Hc) HW) as HD.
  destruct (rect_place num nx ny x0 x1 y0 y1 dg ix0 ix1 iy0 iy1 m Hnx Hny Hx Hy Hnum E (pcell p) cr (px0 p) L2 Hc HI) as [A1 A2].
  destruct (rect_place num nx ny x0 x1 y0 y1 dg ix0 ix1 iy0 iy1 m Hnx Hny Hx Hy Hnum E (pcell q) cr' (px p) L1 Hc' HI') as [B1 B2].
  destruct (rect_pos nx ny x0 x1 y0 y1 Hnx Hny Hx Hy) as (_ & _ & Hdx & Hdy).
  set (dx := (x1 - x0) / INR nx) in *. set (dy := (y1 - y0) / INR ny) in *. clearbody dx dy.
  set (sp := rect_square nx ny dg (pcell p)) in *. set (sq := rect_square nx ny dg (pcell q)) in *. clearbody sp sq.
  assert (Hdist : forall a b D t, 0 < D -> Rabs (a - b) / D = Rabs ((a - t) / D - (b - t) / D)).
  { intros a b D t HD'. replace ((a - t) / D - (b - t) / D) with ((a - b) * / D) by (field; lra). rewrite Rabs_mult, (Rabs_pos_eq (/ D)); [reflexivity|]. apply Rlt_le. by apply Rinv_0_lt_compat. }
  rewrite (Hdist _ _ dx x0), (Hdist _ _ dy y0) in Hfar by assumption.
  set (a0 := (co (px p) 0 - x0) / dx) in *. set (b0 := (co (px0 p) 0 - x0) / dx) in *. set (a1 := (co (px p) 1 - y0) / dy) in *. set (b1 := (co (px0 p) 1 - y0) / dy) in *.
  assert (HZ : forall (i j : nat) a b, INR i <= a <= INR i + 1 -> INR j <= b <= INR j + 1 -> Rabs (a - b) <= IZR (Z.abs (Z.of_nat i - Z.of_nat j)) + 1).
  { intros i j a b G1 G2. rewrite abs_IZR, minus_IZR, <- !INR_IZR_INZ. unfold Rabs. destruct (Rcase_abs _), (Rcase_abs _); lra. }
  pose proof (HZ _ _ _ _ B1 A1) as D1. pose proof (HZ _ _ _ _ B2 A2) as D2.
  assert (HS : IZR (Z.abs (Z.of_nat sq.1 - Z.of_nat sp.1)) + IZR (Z.abs (Z.of_nat sq.2 - Z.of_nat sp.2)) <= IZR (Z.max 0 maxc)).
  { rewrite <- plus_IZR. apply IZR_le. lia. }
  lra.
Qed.

(** A strip of ten squares from (0, 0) to (10, 1): a particle goes from (1/4, 1/2) to (39/4, 1/4); another one leaves at the right.  With the limit
    5 the first move fails. *)
Example C56_strip : exists m c cr, xyz_rect_mesh Cantor.to_nat 10 1 0 10 0 1 (Some Crossed_) 1 2 3 4 = Ok m /\ cells m c = Some cr /\ InCell 2 cr [/ 4; / 2] /\
  let bcs := fun v : Z => if (v =? 0)%Z then None else Some (absorb_bc (K:=unit)) in
  let go x maxc := track exact bcs (fun c _ _ _ => Ok c) Neutral m maxc 0 1 1 (Particle x [/ 4; / 2] [1; 0] 1 0 c 5 0) (TCtx [] tt) in
  (exists q u cr', go [39 / 4; / 4] 30%Z = Ok (q, u) /\ pbits q = 0%Z /\ cells m (pcell q) = Some cr' /\ InCell 2 cr' [39 / 4; / 4]) /\
  (exists q u, go [20; / 2] 30%Z = Ok (q, u) /\ pbits q = DELETE_FLAG /\ pcell q = NO_CELL /\ co (px0 q) 0 = 10) /\
  go [39 / 4; / 4] 5%Z = Raise (track_fail Neutral CrossCountMsg).
Proof.
  destruct (C55_rectangle Cantor.to_nat 10 1 0 10 0 1 (Some Crossed_) 1 2 3 4) as (m & E & _); [lia|lia|lra|lra|apply cantor_numbering|].
  destruct (C55_rectangle_filled Cantor.to_nat 10 1 0 10 0 1 (Some Crossed_) 1 2 3 4 m ltac:(lia) ltac:(lia) ltac:(lra) ltac:(lra) (cantor_numbering _) E [/ 4; / 2] eq_refl) as [[_ HF] _].
  destruct HF as (c & cr & Hc & HI); [unfold co; cbn [nth]; lra|].
  exists m, c, cr. split; [exact E|]. split; [exact Hc|]. split; [exact HI|]. cbv zeta.
  set (bcs := fun v : Z => if (v =? 0)%Z then None else Some (absorb_bc (K:=unit))).
  assert (Hb : forall v, v ∈ [1; 2; 3; 4]%Z -> v <> 0%Z /\ bcs v = Some absorb_bc).
  { intros v Hv. repeat (apply elem_of_cons in Hv as [->|Hv]; [split; [lia|reflexivity]|]). by apply elem_of_nil in Hv. }
  assert (Hrec : forall (c : tctx (K:=unit)) (i : Z) (p : particle) (t : R), exists u, Ok c = Ok (TCtx (scr c) u)) by (intros [sc u] i p t; exists u; reflexivity).
  split; [|split].
  - destruct (C56_rectangle bcs (fun c _ _ _ => Ok c) Neutral Cantor.to_nat 10 1 0 10 0 1 (Some Crossed_) 1 2 3 4 m 30 0 1 1
      (Particle [39 / 4; / 4] [/ 4; / 2] [1; 0] 1 0 c 5 0) (TCtx [] tt) cr ltac:(lia) ltac:(lia) ltac:(lra) ltac:(lra) (cantor_numbering _) E Hb Hrec eq_refl eq_refl Hc HI ltac:(lia))
      as (q & u & Et & _ & _ & _ & HR & _).
    destruct HR as (HB & cr' & Hc' & HI'); [unfold InRect, co; cbn [px nth]; lra|]. exists q, u, cr'. split; [exact Et|]. split; [exact HB|]. split; [exact Hc'|exact HI'].
  - destruct (C56_rectangle bcs (fun c _ _ _ => Ok c) Neutral Cantor.to_nat 10 1 0 10 0 1 (Some Crossed_) 1 2 3 4 m 30 0 1 1
      (Particle [20; / 2] [/ 4; / 2] [1; 0] 1 0 c 5 0) (TCtx [] tt) cr ltac:(lia) ltac:(lia) ltac:(lra) ltac:(lra) (cantor_numbering _) E Hb Hrec eq_refl eq_refl Hc HI ltac:(lia))
      as (q & u & Et & _ & _ & _ & _ & HR).
    destruct HR as (HB & HN & t & Ht & Ep & Hin); [unfold InRect, co; cbn [px nth]; lra|]. exists q, u. split; [exact Et|]. split; [exact HB|]. split; [exact HN|].
    rewrite Ep. cbn [px px0] in *.
    assert (Ec : forall s k, co (along [/ 4; / 2] (vsub exact [20; / 2] [/ 4; / 2]) s) k = co [/ 4; / 2] k + s * (co [20; / 2] k - co [/ 4; / 2] k)).
    { intros s k. rewrite co_along by reflexivity. f_equal. f_equal. apply co_vsub. reflexivity. }
    unfold InRect in Hin. rewrite Ec. pose proof (Hin t ltac:(lra)) as [_ H1]. specialize (H1 ltac:(lra)). rewrite !Ec in H1.
    pose proof (Hin (39 / 79) ltac:(lra)) as [H2 _]. rewrite !Ec in H2. unfold co in *. cbn [nth] in *.
    assert (39 / 79 <= t) by (apply H2; lra). lra.
  - apply (C56_too_far bcs (fun c _ _ _ => Ok c) Neutral Cantor.to_nat 10 1 0 10 0 1 (Some Crossed_) 1 2 3 4 m 5 0 1 1
      (Particle [39 / 4; / 4] [/ 4; / 2] [1; 0] 1 0 c 5 0) (TCtx [] tt) cr ltac:(lia) ltac:(lia) ltac:(lra) ltac:(lra) (cantor_numbering _) E Hb Hrec eq_refl eq_refl Hc HI).
    + unfold InRect, co. cbn [px nth]. lra.
    + cbn [px px0]. unfold co. cbn [nth]. replace (INR 10) with 10 by (rewrite INR_IZR_INZ; reflexivity). replace (INR 1) with 1 by reflexivity.
      change (IZR (Z.max 0 5)) with 5. rewrite (Rabs_pos_eq (39 / 4 - / 4)) by lra. pose proof (Rabs_pos (/ 4 - / 2)). set (r := Rabs (/ 4 - / 2)) in *. lra.
Qed.
Print Assumptions C56_rectangle.
Print Assumptions C56_too_far.
