(** C55: the mesh of a part of a ring. *)
From stdpp Require Import list_numbers.
From Coq Require Cantor.
From Verif Require Import Vec VecProofs TrackModel BcModel Geometry FindFacetProps Conforming MeshModel MeshProps InsideModel InsideProps LineMeshModel LineMeshProps.
From Verif Require Import TriMeshModel TriMeshProps RectMeshProofs RectMeshProps.
Local Open Scope R_scope.

(** The point with polar coordinates r and a. *)
Definition polar (r a : R) : vec := [r * cos a; r * sin a].
(** Row [i] of the vertices has this radius; also used halfway between two rows. *)
Definition ring (nr : nat) (rmin rmax stretch i : R) : R := rmin + (rmax - rmin) * np_power (i / INR nr) stretch.

Section Circ.
Context (num : nat * nat -> nat) (nr nt : nat) (rmin rmax stretch tmax : R) (dg : diagonal)
        (Hnr : (1 <= nr)%nat) (Hnt : (1 <= nt)%nat) (Hr0 : 0 < rmin) (Hr : rmin < rmax) (Hs : 0 < stretch) (Ht : 0 < tmax) (Hd : tmax / INR nt < PI)
        (Hcross : dg = Crossed_ -> forall i, (i < nr)%nat ->
           ring nr rmin rmax stretch (INR i + / 2) < ring nr rmin rmax stretch (INR i + 1) * cos (tmax / INR nt / 2)).
Let pos v := cylinder tmax (denser rmin rmax stretch (gpos nr nt rmin rmax 0 1 v)).
Let rho := ring nr rmin rmax stretch.
Let da := tmax / INR nt.

Lemma circ_pos : (forall i j, pos (Corner i j) = polar (rho (INR i)) (INR j * da)) /\
  (forall i j, pos (Middle i j) = polar (rho (INR i + / 2)) ((INR j + / 2) * da)).
Proof.
  assert (0 < INR nr) by (apply lt_0_INR; lia). assert (0 < INR nt) by (apply lt_0_INR; lia).
  split; intros i j; unfold pos, gpos, denser, cylinder, polar, rho, ring, da; unfold co; cbn [nth].
  - replace ((rmin + INR i * (rmax - rmin) / INR nr - rmin) / (rmax - rmin)) with (INR i / INR nr) by (field; lra).
    replace (tmax * (0 + INR j * (1 - 0) / INR nt)) with (INR j * (tmax / INR nt)) by (field; lra). reflexivity.
  - replace ((rmin + (INR i + / 2) * (rmax - rmin) / INR nr - rmin) / (rmax - rmin)) with ((INR i + / 2) / INR nr) by (field; lra).
    replace (tmax * (0 + (INR j + / 2) * (1 - 0) / INR nt)) with ((INR j + / 2) * (tmax / INR nt)) by (field; lra). reflexivity.
Qed.
Lemma ring_mono a b : 0 <= a < b -> rho a < rho b.
Proof.
  intros Hab. assert (0 < / INR nr) by (apply Rinv_0_lt_compat, lt_0_INR; lia). unfold rho, ring.
  assert (np_power (a / INR nr) stretch < np_power (b / INR nr) stretch); [|nra]. apply np_power_mono; [exact Hs|]. unfold Rdiv. split; nra.
Qed.
Lemma ring_0 : rho 0 = rmin.
Proof. unfold rho, ring. replace (0 / INR nr) with 0 by (unfold Rdiv; ring). rewrite np_power_0 by exact Hs. ring. Qed.
Lemma ring_n : rho (INR nr) = rmax.
Proof. unfold rho, ring. replace (INR nr / INR nr) with 1 by (field; apply not_0_INR; lia). rewrite np_power_1. ring. Qed.
Lemma ring_pos a : 0 <= a -> rmin <= rho a.
Proof. intros [H| <-]; [pose proof (ring_mono 0 a ltac:(lra)); rewrite ring_0 in *; lra|rewrite ring_0; lra]. Qed.

Lemma polar_orient r1 a1 r2 a2 r3 a3 : orient2d (polar r1 a1) (polar r2 a2) (polar r3 a3) =
  r1 * r2 * sin (a2 - a1) + r2 * r3 * sin (a3 - a2) - r1 * r3 * sin (a3 - a1).
Proof. unfold polar. rewrite orient2d_2, !sin_minus. ring. Qed.

Lemma circ_oriented : Oriented nr nt dg pos.
Proof.
  destruct circ_pos as (Hc & Hm). intros i j t s Hi Hj H.
  assert (0 < INR nt) by (apply lt_0_INR; lia). assert (Hda : 0 < da) by (apply Rdiv_lt_0_compat; lra). change (da < PI) in Hd.
  pose proof (pos_INR i) as Pi. pose proof (ring_pos _ Pi) as R0. pose proof (ring_mono (INR i) (INR i + / 2) ltac:(lra)) as R1.
  pose proof (ring_mono (INR i + / 2) (INR i + 1) ltac:(lra)) as R2.
  assert (HS : 0 < sin da) by (apply sin_gt_0; lra). assert (Hh : 0 < sin (da / 2)) by (apply sin_gt_0; lra).
  assert (HE : sin da = 2 * sin (da / 2) * cos (da / 2)) by (rewrite <- sin_2a; f_equal; field).
  assert (E1 : INR j * da - INR j * da = 0) by ring. assert (E2 : (INR j + 1) * da - INR j * da = da) by ring.
  assert (E3 : INR j * da - (INR j + 1) * da = - da) by ring. assert (E4 : (INR j + / 2) * da - INR j * da = da / 2) by field.
  assert (E5 : (INR j + / 2) * da - (INR j + 1) * da = - (da / 2)) by field. assert (E6 : (INR j + 1) * da - (INR j + 1) * da = 0) by ring.
  set (r0 := rho (INR i)) in *. set (r1 := rho (INR i + 1)) in *. set (rm := rho (INR i + / 2)) in *.
  set (S := sin da) in *. set (h := sin (da / 2)) in *. set (c := cos (da / 2)) in *.
  assert (0 < r0) by lra. assert (0 < r1) by lra. assert (0 < rm) by lra.
  destruct (square_kinds _ _ _ _ _ H) as [(_ & _ & [[-> ->]|[-> ->]])|[(_ & _ & [[-> ->]|[-> ->]])|(ED & [[-> ->]|[[-> ->]|[[-> ->]|[-> ->]]]])]];
    rewrite ?Hc, ?Hm, polar_orient, ?S_INR, ?E1, ?E2, ?E3, ?E4, ?E5, ?E6, ?sin_neg, ?sin_0; fold r0 r1 rm S h c.
  - replace (r0 * r1 * 0 + r1 * r1 * S - r0 * r1 * S) with (r1 * (r1 - r0) * S) by ring. repeat apply Rmult_lt_0_compat; lra.
  - replace (r0 * r0 * S + r0 * r1 * 0 - r0 * r1 * S) with (- (r0 * (r1 - r0) * S)) by ring. assert (0 < r0 * (r1 - r0) * S) by (repeat apply Rmult_lt_0_compat; lra). lra.
  - replace (r0 * r1 * 0 + r1 * r0 * S - r0 * r0 * S) with (r0 * (r1 - r0) * S) by ring. repeat apply Rmult_lt_0_compat; lra.
  - replace (r1 * r0 * S + r0 * r1 * 0 - r1 * r1 * S) with (- (r1 * (r1 - r0) * S)) by ring. assert (0 < r1 * (r1 - r0) * S) by (repeat apply Rmult_lt_0_compat; lra). lra.
  - replace (r0 * r1 * 0 + r1 * rm * h - r0 * rm * h) with ((r1 - r0) * rm * h) by ring. repeat apply Rmult_lt_0_compat; lra.
  - assert (c <= 1) by (unfold c; apply COS_bound). assert (0 < 2 * r0 * h * (rm - r0 * c)) by (repeat apply Rmult_lt_0_compat; nra).
    rewrite HE. nra.
  - assert (Hx : rm < r1 * c) by exact (Hcross ED i Hi). assert (0 < 2 * r1 * h * (r1 * c - rm)) by (repeat apply Rmult_lt_0_compat; lra).
    rewrite HE. nra.
  - assert (0 < rm * h * (r1 - r0)) by (repeat apply Rmult_lt_0_compat; lra). nra.
Qed.
Lemma circ_len v : length (pos v) = 2%nat.
Proof. reflexivity. Qed.
End Circ.

(** The circle of radius [r] around the origin, and the half-line that starts there at the angle [a]. *)
Definition OnCircle (r : R) (v : vec) : Prop := co v 0 * co v 0 + co v 1 * co v 1 = r * r.
Definition OnRay (a : R) (v : vec) : Prop := exists r, 0 < r /\ v = [r * cos a; r * sin a].

Lemma polar_sq r a : (r * cos a) * (r * cos a) + (r * sin a) * (r * sin a) = r * r.
Proof. pose proof (sin2_cos2 a) as H. unfold Rsqr in H. transitivity (r * r * (sin a * sin a + cos a * cos a)); [ring|]. rewrite H. ring. Qed.
Lemma circle_polar r q a : 0 < r -> 0 < q -> OnCircle r (polar q a) <-> q = r.
Proof. intros Hr Hq. unfold OnCircle, polar, co. cbn [nth]. rewrite polar_sq. split; [intros E; nra|by intros ->]. Qed.
Lemma cos_1 x : - (2 * PI) < x < 2 * PI -> cos x = 1 -> x = 0.
Proof.
  enough (H : forall x, 0 < x < 2 * PI -> cos x <> 1).
  { intros Hx E. destruct (Rtotal_order x 0) as [Hl|[Hl|Hl]]; [|exact Hl|].
    - destruct (H (- x)); [lra|by rewrite cos_neg].
    - destruct (H x); [lra|done]. }
  intros y Hy E. assert (0 < sin (y / 2)) by (apply sin_gt_0; lra). replace y with (2 * (y / 2)) in E by field. rewrite cos_2a_sin in E. nra.
Qed.
Lemma ray_polar b q a : 0 < q -> - (2 * PI) < a - b < 2 * PI -> OnRay b (polar q a) <-> a = b.
Proof.
  intros Hq Hab. split; [|intros ->; by exists q]. intros (r & Hr & E). unfold polar in E. injection E as E1 E2.
  assert (q = r) as <-. { pose proof (polar_sq q a) as P1. rewrite E1, E2, polar_sq in P1. nra. }
  assert (cos a = cos b) by nra. assert (sin a = sin b) by nra.
  enough (a - b = 0) by lra. apply cos_1; [exact Hab|]. rewrite cos_minus. pose proof (sin2_cos2 b) as P. unfold Rsqr in P. nra.
Qed.

(** C55: the mesh of a part of a ring can be made and is conforming, for all numbers of cells, all stretchings and all numberings of the
    facets, if the inner radius is positive and one row of cells spans less than half a turn; with the diagonals 'crossed' the middle
    vertices must lie on the inner side of the outer facets of their rows.  For less than a full turn, a facet has no cell behind it exactly
    if it lies on one of the two circles or on one of the two radial sides.  Facets between two cells are not marked, the others are
    marked with one of the four numbers, and with the number of their side if the cells of the rectangle from which the mesh was
    made are not smaller than the tolerance. *)
Theorem C55_ring num nr nt rmin rmax stretch tmax dg irmin irmax ithmin ithmax :
  (1 <= nr)%nat -> (1 <= nt)%nat -> 0 < rmin -> rmin < rmax -> 0 < stretch -> 0 < tmax -> tmax / INR nt < PI ->
  (dg = Crossed_ -> forall i, (i < nr)%nat ->
     ring nr rmin rmax stretch (INR i + / 2) < ring nr rmin rmax stretch (INR i + 1) * cos (tmax / INR nt / 2)) ->
  Numbering num (rect_tris nr nt dg) ->
  exists m, circ_mesh num nr nt rmin rmax stretch tmax dg irmin irmax ithmin ithmax = Ok m /\ gdim m = 2%nat /\ Conforming m /\
    forall c cr i mf cn, cells m c = Some cr -> fids cr !! i = Some mf -> nbrs cr !! i = Some cn ->
      (tmax < 2 * PI -> (cn = NO_CELL <-> FacetAll cr i (OnCircle rmin) \/ FacetAll cr i (OnCircle rmax) \/
                                          FacetAll cr i (OnRay 0) \/ FacetAll cr i (OnRay tmax))) /\
      (cn <> NO_CELL -> marker m mf = 0%Z) /\
      (cn = NO_CELL -> marker m mf ∈ [irmin; irmax; ithmin; ithmax]) /\
      (/ 10 ^ 10 <= (rmax - rmin) / INR nr -> / 10 ^ 10 <= / INR nt ->
        (FacetAll cr i (OnCircle rmin) -> marker m mf = irmin) /\ (FacetAll cr i (OnCircle rmax) -> marker m mf = irmax) /\
        (tmax < 2 * PI -> FacetAll cr i (OnRay 0) -> marker m mf = ithmin) /\ (tmax < 2 * PI -> FacetAll cr i (OnRay tmax) -> marker m mf = ithmax)).
Proof.
  intros Hnr Hnt Hr0 Hr Hst Ht Hd Hcr Hnum. unfold circ_mesh.
  assert (EV : circ_vertices nr nt rmin rmax stretch tmax dg =
    map (fun v => cylinder tmax (denser rmin rmax stretch (gpos nr nt rmin rmax 0 1 v))) (rect_gvertices nr nt dg)).
  { unfold circ_vertices, rect_vertices. by rewrite map_map. }
  rewrite EV. clear EV. set (pos := fun v => cylinder tmax (denser rmin rmax stretch (gpos nr nt rmin rmax 0 1 v))).
  pose proof (circ_oriented nr nt rmin rmax stretch tmax dg Hnr Hnt Hr0 Hr Hst Ht Hd Hcr : Oriented nr nt dg pos) as HO.
  assert (Hlen : forall v, length (pos v) = 2%nat) by reflexivity.
  pose proof (grid_triangulation nr nt dg pos num Hlen HO Hnum) as HT.
  set (mk := rect_marker num nr nt rmin rmax 0 1 dg irmin irmax ithmin ithmax).
  destruct (C55_conforming num _ _ mk HT) as (m & E & HC).
  destruct (tri_mesh_ok num _ _ mk HT) as (m' & E' & Hgd & Hmk & _). rewrite E in E'. injection E' as <-.
  exists m. split; [exact E|]. split; [exact Hgd|]. split; [exact HC|]. intros c cr i mf cn Hc Hf Hn.
  destruct (grid_cell nr nt dg pos num mk m c cr Hlen HO Hnum E Hc) as (k & a & b & g & s & p & q & -> & Ek & Hp & Hq & Hsq & _ & Hside).
  destruct (Hside i mf cn Hf Hn) as (go & gu & gv & Hs & -> & Hout & Hall). clear Hside.
  pose proof (rect_marker_ok num nr nt rmin rmax 0 1 dg Hnr Hnt Hr ltac:(lra) Hnum irmin irmax ithmin ithmax k _ i go gu gv Ek Hs) as (M1 & M2 & M3).
  fold mk in M1, M2, M3. rewrite Hmk. destruct (circ_pos nr nt rmin rmax stretch tmax dg Hnr Hnt Hr Hcr) as (Pc & Pm).
  fold pos in Pc, Pm. change (forall i j, pos (Corner i j) = polar (ring nr rmin rmax stretch (INR i)) (INR j * (tmax / INR nt))) in Pc.
  change (forall i j, pos (Middle i j) = polar (ring nr rmin rmax stretch (INR i + / 2)) ((INR j + / 2) * (tmax / INR nt))) in Pm. clearbody pos.
  pose proof (ring_mono nr nt rmin rmax stretch tmax dg Hnr Hnt Hr Hst Hcr) as RM. pose proof (ring_0 nr rmin rmax stretch Hst) as RZ. pose proof (ring_n nr nt rmin rmax stretch tmax dg Hnr Hnt Hcr) as RN.
  pose proof (ring_pos nr nt rmin rmax stretch tmax dg Hnr Hnt Hr Hst Hcr) as RP. cbv zeta in RM, RZ, RN, RP.
  set (rho := ring nr rmin rmax stretch) in *. clearbody rho.
  assert (0 < INR nt) by (apply lt_0_INR; lia). assert (Hda : 0 < tmax / INR nt) by (apply Rdiv_lt_0_compat; lra).
  assert (Ea : INR nt * (tmax / INR nt) = tmax) by (field; lra). set (da := tmax / INR nt) in *.
  assert (Hln : forall z n, (z < n)%nat -> INR z + 1 <= INR n) by (intros z n Hz; rewrite <- S_INR; apply le_INR; lia).
  assert (HI : forall z z', rho (INR z) = rho (INR z') -> z = z').
  { intros z z' HE. pose proof (pos_INR z). pose proof (pos_INR z'). destruct (lt_eq_lt_dec z z') as [[Hz|Hz]|Hz]; [|exact Hz|].
    - pose proof (RM (INR z) (INR z') ltac:(pose proof (Hln _ _ Hz); lra)). lra.
    - pose proof (RM (INR z') (INR z) ltac:(pose proof (Hln _ _ Hz); lra)). lra. }
  assert (HM : forall z z', rho (INR z + / 2) <> rho (INR z')).
  { intros z z' HE. pose proof (pos_INR z). pose proof (pos_INR z'). destruct (le_lt_dec z' z) as [Hz|Hz].
    - apply le_INR in Hz. pose proof (RM (INR z') (INR z + / 2) ltac:(lra)). lra.
    - pose proof (RM (INR z + / 2) (INR z') ltac:(pose proof (Hln _ _ Hz); lra)). lra. }
  assert (AI : forall z z', INR z * da = INR z' * da -> z = z') by (intros z z' HE; apply INR_eq; nra).
  assert (AM : forall z z', (INR z + / 2) * da <> INR z' * da).
  { intros z z' HE. assert (HE' : INR z + / 2 = INR z') by nra. destruct (le_lt_dec z' z) as [Hz|Hz]; [apply le_INR in Hz; lra|pose proof (Hln _ _ Hz); lra]. }
  assert (CP : forall z a, (0 <= z) -> OnCircle rmin (polar (rho z) a) <-> rho z = rho (INR 0)).
  { intros z a0 Hz. pose proof (RP z Hz). rewrite circle_polar by lra. cbn [INR]. by rewrite RZ. }
  assert (CN : forall z a, (0 <= z) -> OnCircle rmax (polar (rho z) a) <-> rho z = rho (INR nr)).
  { intros z a0 Hz. pose proof (RP z Hz). rewrite circle_polar by lra. by rewrite RN. }
  assert (YP : tmax < 2 * PI -> forall z a, 0 <= z -> 0 <= a <= INR nt -> OnRay 0 (polar (rho z) (a * da)) <-> a * da = INR 0 * da).
  { intros H2 z a0 Hz Ha. pose proof (RP z Hz). rewrite ray_polar; [cbn [INR]; by rewrite Rmult_0_l|lra|]. split; nra. }
  assert (YN : tmax < 2 * PI -> forall z a, 0 <= z -> 0 <= a <= INR nt -> OnRay tmax (polar (rho z) (a * da)) <-> a * da = INR nt * da).
  { intros H2 z a0 Hz Ha. pose proof (RP z Hz). rewrite ray_polar; [by rewrite Ea|lra|]. split; nra. }
  pose proof (pos_INR p) as Pp. pose proof (pos_INR q) as Pq. pose proof (Hln _ _ Hp) as Lp. pose proof (Hln _ _ Hq) as Lq.
  assert (HB : (FacetAll cr i (OnCircle rmin) <-> OnBorder nr nt BLeft gu gv) /\ (FacetAll cr i (OnCircle rmax) <-> OnBorder nr nt BRight gu gv) /\
    (tmax < 2 * PI -> FacetAll cr i (OnRay 0) <-> OnBorder nr nt BBottom gu gv) /\ (tmax < 2 * PI -> FacetAll cr i (OnRay tmax) <-> OnBorder nr nt BTop gu gv)).
  { rewrite !Hall. cbn [OnBorder].
    assert (HK : forall w1 w2 w3 w4 : Prop, (tmax < 2 * PI -> w1) -> (tmax < 2 * PI -> w2) -> w3 -> w4 -> w3 /\ w4 /\ (tmax < 2 * PI -> w1) /\ (tmax < 2 * PI -> w2)) by tauto.
    apply HK; clear HK; [intros H2|intros H2| |].
    all: (split; [|intros (z & Hz & -> & ->); rewrite !Pc, ?S_INR; pose proof (pos_INR z); pose proof (Hln _ _ Hz);
      try (split; [rewrite CP|rewrite CP]; first [done|apply pos_INR]); try (split; [rewrite CN|rewrite CN]; first [done|apply pos_INR]);
      split; first [rewrite (YP H2)|rewrite (YN H2)]; first [done|cbn; lra]]).
    all: destruct (square_kinds _ _ _ _ _ Hsq) as [(_ & _ & [[[= -> -> ->] ->]|[[= -> -> ->] ->]])|[(_ & _ & [[[= -> -> ->] ->]|[[= -> -> ->] ->]])|
      (_ & [[[= -> -> ->] ->]|[[[= -> -> ->] ->]|[[[= -> -> ->] ->]|[[= -> -> ->] ->]]]])]];
      destruct Hs as [(-> & -> & -> & ->)|[(-> & -> & -> & ->)|(-> & -> & -> & ->)]]; rewrite ?Pc, ?Pm.
    all: first [rewrite !CP by (rewrite ?S_INR; lra)|rewrite !CN by (rewrite ?S_INR; lra)|rewrite !(YP H2) by (rewrite ?S_INR; lra)|rewrite !(YN H2) by (rewrite ?S_INR; lra)]; intros [H1 H3];
      try (exfalso; first [exact (HM _ _ H1)|exact (HM _ _ H3)|exact (AM _ _ H1)|exact (AM _ _ H3)]; fail).
    all: first [apply HI in H1; apply HI in H3|apply AI in H1; apply AI in H3]; try (exfalso; lia); eexists; (split; [|split; f_equal; eassumption]); lia. }
  destruct HB as (B1 & B2 & B3 & B4). split_and!.
  - intros H2. rewrite B1, B2, (B3 H2), (B4 H2), Hout. split.
    + intros [[] Hb]; tauto.
    + intros [Hb|[Hb|[Hb|Hb]]]; eexists; exact Hb.
  - intros Hcn. apply M1. intros bb Hb. apply Hcn, Hout. by exists bb.
  - intros Hcn. apply Hout in Hcn as [bb Hb]. exact (M2 bb Hb).
  - intros Hex Hey. assert (Hey' : / 10 ^ 10 <= (1 - 0) / INR nt) by (unfold Rdiv; rewrite Rminus_0_r, Rmult_1_l; exact Hey).
    split_and!.
    + intros Hb%B1. exact (M3 _ Hb Hex Hey').
    + intros Hb%B2. exact (M3 _ Hb Hex Hey').
    + intros H2 Hb%(B3 H2). exact (M3 _ Hb Hex Hey').
    + intros H2 Hb%(B4 H2). exact (M3 _ Hb Hex Hey').
Qed.

(** The quarter of a ring from DnTrun1.py lines 77-84, and a coarser one with the sides marked 1, 2, 3, 4: the second triangle has one side
    on the inner circle, and one in common with the first triangle. *)
Example C55_quarter : exists m, circ_mesh Cantor.to_nat 10 20 1 5 (13 / 10) (PI / 2) RightDiag 1 2 3 4 = Ok m /\ Conforming m.
Proof.
  pose proof PI_RGT_0 as HP. assert (H20 : INR 20 = 20) by (rewrite INR_IZR_INZ; reflexivity).
  destruct (C55_ring Cantor.to_nat 10 20 1 5 (13 / 10) (PI / 2) RightDiag 1 2 3 4) as (m & E & _ & HC & HF);
    [lia|lia|lra|lra|lra|lra|rewrite H20; lra|discriminate|apply cantor_numbering|].
  exists m. split; [exact E|exact HC].
Qed.
Example C55_quarter_2_2 : exists m cr f g, circ_mesh Cantor.to_nat 2 2 1 5 (13 / 10) (PI / 2) RightDiag 1 2 3 4 = Ok m /\ Conforming m /\
  cells m 1%Z = Some cr /\ nbrs cr !! 2%nat = Some (-1)%Z /\ fids cr !! 2%nat = Some f /\ marker m f = 1%Z /\
  nbrs cr !! 1%nat = Some 0%Z /\ fids cr !! 1%nat = Some g /\ marker m g = 0%Z.
Proof.
  pose proof PI_RGT_0 as HP.
  destruct (C55_ring Cantor.to_nat 2 2 1 5 (13 / 10) (PI / 2) RightDiag 1 2 3 4) as (m & E & _ & HC & HF);
    [lia|lia|lra|lra|lra|lra|cbn [INR]; lra|discriminate|apply cantor_numbering|].
  assert (exists cr f g, cells m 1%Z = Some cr /\ verts cr !! 0%nat = Some (cylinder (PI / 2) (denser 1 5 (13 / 10) (gpos 2 2 1 5 0 1 (Corner 0 0)))) /\
     verts cr !! 1%nat = Some (cylinder (PI / 2) (denser 1 5 (13 / 10) (gpos 2 2 1 5 0 1 (Corner 0 1)))) /\ length (verts cr) = 3%nat /\
     nbrs cr !! 2%nat = Some (-1)%Z /\ nbrs cr !! 1%nat = Some 0%Z /\ fids cr !! 2%nat = Some f /\ fids cr !! 1%nat = Some g) as (cr & f & g & H1 & V0 & V1 & LV & N2 & N1 & F2 & F1).
  { unfold circ_mesh, tri_mesh in E. injection E as <-. do 3 eexists. split; [reflexivity|]. cbn [verts nbrs fids]. split_and!; reflexivity. }
  exists m, cr, f, g. split_and!; try done.
  - assert (H10 : / 10 ^ 10 <= / 2) by (apply Rinv_le_contravar; [lra|]; pose proof (Rle_pow 10 1 10 ltac:(lra) ltac:(lia)); lra).
    destruct (HF 1%Z cr 2%nat f (-1)%Z H1 F2 N2) as (_ & _ & _ & HM). destruct HM as (HM & _); [cbn [INR]; lra|cbn [INR]; lra|].
    apply HM. assert (HZ : forall y, OnCircle 1 (cylinder (PI / 2) (denser 1 5 (13 / 10) [1 + INR 0 * (5 - 1) / INR 2; y]))).
    { intros y. unfold denser, cylinder, OnCircle, co. cbn [nth]. replace ((1 + INR 0 * (5 - 1) / INR 2 - 1) / (5 - 1)) with 0 by (cbn [INR]; field).
      rewrite np_power_0 by lra. rewrite polar_sq. ring. }
    intros j v Hj Hne. destruct j as [|[|[|j]]]; [rewrite V0 in Hj; injection Hj as <-; apply HZ|rewrite V1 in Hj; injection Hj as <-; apply HZ|done|].
    apply lookup_lt_Some in Hj. lia.
  - destruct (HF 1%Z cr 1%nat g 0%Z H1 F1 N1) as (_ & HM & _). by apply HM.
Qed.
Print Assumptions C55_ring.
