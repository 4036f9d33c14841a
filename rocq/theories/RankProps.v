(** C56: how many facets a move can cross. *)
From Verif Require Import Vec VecProofs TrackModel BcModel Geometry FindFacetProofs FindFacetProps.
From Verif Require Import TrackProofs TrackGeomProofs Conforming TrackEval TrackGeomProps TrackProps.
Local Open Scope R_scope.

(** ** What is meant *)

(** The cells can be ranked such that every facet that is crossed in direction [d] leads to a cell of lower rank. *)
Definition Downhill (m : mesh) (d : vec) (rank : Z -> nat) : Prop :=
  forall c cr i n cn, cells m c = Some cr -> normals cr !! i = Some n -> nbrs cr !! i = Some cn -> cn <> NO_CELL ->
    0 < dot n d -> (rank cn < rank c)%nat.
(** All facets without a cell behind them absorb; the others are not marked or have a function that does nothing. *)
Definition Absorbing {K} (m : mesh) (bcs : Z -> option (bcfun (K:=K))) : Prop :=
  forall c cr i mf cn, cells m c = Some cr -> fids cr !! i = Some mf -> nbrs cr !! i = Some cn ->
    (cn = NO_CELL -> marker m mf <> 0%Z /\ bcs (marker m mf) = Some absorb_bc) /\
    (cn <> NO_CELL -> marker m mf = 0%Z \/ bcs (marker m mf) = Some noop_bc).
(** The point [x] lies beyond facet [i] of a cell, a facet without a cell behind it; [y] is a point of the cell on that facet. *)
Definition Beyond (m : mesh) (x y : vec) : Prop :=
  exists c cr i n, cells m c = Some cr /\ nbrs cr !! i = Some NO_CELL /\ normals cr !! i = Some n /\ InCell (gdim m) cr y /\
    forall j v, verts cr !! j = Some v -> on_facet (gdim m) i j -> dot n y = dot n v /\ dot n v < dot n x.

Lemma absorb_bc_eq {K} (c : tctx (K:=K)) p mf f n : absorb_bc c p mf f n = Ok (set_pbits p (Z.lor (pbits p) DELETE_FLAG), c).
Proof. reflexivity. Qed.

Lemma co_along x dx t i : length x = length dx -> co (along x dx t) i = co x i + t * co dx i.
Proof. intros. unfold along. by rewrite co_vadd, co_vscale by (rewrite vscale_length; lia). Qed.

(** What a move with absorbing boundaries does. *)
Definition Ended (m : mesh) (p q : particle) : Prop := px q = px p /\ pu q = pu p /\
    ((pbits q = pbits p /\ exists cr', cells m (pcell q) = Some cr' /\ InCell (gdim m) cr' (px p)) \/
     (pbits q = Z.lor (pbits p) DELETE_FLAG /\ pcell q = NO_CELL /\
      exists t, 0 <= t < 1 /\ px0 q = along (px0 p) (vsub exact (px p) (px0 p)) t /\ Beyond m (px p) (px0 q))).

(** C56: a move with absorbing boundaries in a conforming mesh ends as [Ended] says, after a walk through the mesh whose length is the stored number
    of crossings, or fails because the limit of crossings is reached.  Ranks of the cells along the direction of the move bound the number. *)
Theorem C56_ends {K} (bcs : Z -> option (bcfun (K:=K))) recd k m maxc fi time dt p c cr :
  Conforming m -> Absorbing m bcs ->
  (forall c i p t, exists u, recd c i p t = Ok (TCtx (scr c) u)) ->
  length (px p) = gdim m -> length (px0 p) = gdim m ->
  cells m (pcell p) = Some cr -> InCell (gdim m) cr (px0 p) ->
  match track exact bcs recd k m maxc fi time dt p c with
  | Ok (q, c') => Ended m p q /\ (0 <= pcross q <= Z.max 0 maxc)%Z /\
      (pcell q <> NO_CELL -> exists is, walk m (pcell p) is (pcell q) /\ pcross q = Z.of_nat (length is)) /\
      forall rank, Downhill m (vsub exact (px p) (px0 p)) rank -> (pcross q <= Z.of_nat (rank (pcell p)) + 1)%Z
  | Raise e => e = track_fail k CrossCountMsg /\
      forall rank, Downhill m (vsub exact (px p) (px0 p)) rank -> (maxc <= Z.of_nat (rank (pcell p)))%Z
  end.
Proof.
  intros HC HA Hrec Hx Hx0 Hcr HI.
  set (d := vsub exact (px p) (px0 p)) in *.
  assert (Ld : length d = gdim m) by (subst d; rewrite vsub_length; lia).
  set (Inv := fun s : lstate (K:=K) => exists cr, cells m (l_ci s) = Some cr /\
    px (l_p s) = px p /\ pu (l_p s) = pu p /\ pbits (l_p s) = pbits p /\ pcell (l_p s) = l_ci s /\
    (exists t, 0 <= t <= 1 /\ px0 (l_p s) = along (px0 p) d t) /\
    InCell (gdim m) cr (px0 (l_p s)) /\
    ((0 <= l_cnt s <= Z.max 0 maxc)%Z /\ (exists is, walk m (pcell p) is (l_ci s) /\ l_cnt s = Z.of_nat (length is)) /\ forall rank, Downhill m d rank -> (l_cnt s + Z.of_nat (rank (l_ci s)) <= Z.of_nat (rank (pcell p)))%Z) /\
    (forall i n, fids cr !! i = Some (l_ml s) -> normals cr !! i = Some n ->
       dot n (px (l_p s)) <= dot n (px0 (l_p s)))).
  set (Q := fun (q : particle) (n : Z) (c' : tctx (K:=K)) => Ended m p q /\ (0 <= n <= Z.max 0 maxc)%Z /\
    (pcell q <> NO_CELL -> exists is, walk m (pcell p) is (pcell q) /\ n = Z.of_nat (length is)) /\
    forall rank, Downhill m d rank -> (n <= Z.of_nat (rank (pcell p)) + 1)%Z).
  set (E := fun e => e = track_fail k CrossCountMsg /\ forall rank, Downhill m d rank -> (maxc <= Z.of_nat (rank (pcell p)))%Z).
  pose proof (track_rule exact bcs recd k m maxc fi Inv Q E time dt p c) as HR.
  assert (Hend : along (px0 p) d 1 = px p).
  { apply vec_co_ext.
    - unfold along. rewrite vadd_length; rewrite ?vscale_length; lia.
    - intros i. unfold along. rewrite co_vadd, co_vscale by (rewrite ?vscale_length; lia). subst d. rewrite co_vsub by lia. lra. }
  assert (Hstart : along (px0 p) d 0 = px0 p).
  { apply vec_co_ext.
    - unfold along. rewrite vadd_length; rewrite ?vscale_length; lia.
    - intros i. unfold along. rewrite co_vadd, co_vscale by (rewrite ?vscale_length; lia). lra. }
  assert (Hgoal : match track exact bcs recd k m maxc fi time dt p c with
    | Ok (q, c') => exists q0 n, q = set_pcross q0 n /\ Q q0 n c'
    | Raise e => E e end).
  2:{ destruct (track _ _ _ _ _ _ _ _ _ _ _) as [[q c']|e]; [|exact Hgoal]. destruct Hgoal as (q0 & n & -> & HQ). exact HQ. }
  apply HR.
  2:{ exists cr. cbn. repeat (split; [done|]). split; [exists 0; split; [lra|symmetry; exact Hstart]|]. split; [done|]. split; [split; [lia|split; [exists []; split; [constructor|reflexivity]|intros; lia]]|]. intros i n Hf. exfalso.
      destruct (cf_fids m HC _ cr Hcr) as (_ & _ & Hno). apply Hno.
      by eapply elem_of_list_lookup_2. }
  clear HR. clear dependent cr. intros s (cr & Hcr & Epx & Epu & Epb & Epc & (t & Ht & Et) & HI & (Hc0 & (is & Hw & Hlen) & Hcnt) & Hml).
  assert (Lpx : length (px (l_p s)) = gdim m) by (rewrite Epx; exact Hx).
  assert (Lpx0 : length (px0 (l_p s)) = gdim m) by (rewrite Et; unfold along; rewrite vadd_length; rewrite ?vscale_length; lia).
  assert (Edot : forall w, dot w (moved exact s) = (1 - t) * dot w d).
  { intros w. unfold moved. rewrite dot_sub by lia. rewrite Epx, Et, <- Hend. rewrite !dot_along by lia. lra. }
  pose proof (cf_simplex m HC _ cr Hcr) as HS.
  destruct (iter_ok exact bcs recd k m maxc fi s)
      as [Hno|cr' Hcr' Hin|cr' Hcr' Hin Hmx|cr' e' Hcr' Hin Hmx Hff|cr' f n Hcr' Hin Hmx Hff|cr' i f nn r Hcr' Hin Hmax' Hff Hcs];
    try (rewrite Hcr in Hcr'; injection Hcr' as <-).
  - exfalso. congruence.
  - split; [|split; [lia|split; [intros _; exists is; by rewrite Epc|intros rank HD; specialize (Hcnt rank HD); lia]]]. split; [done|]. split; [done|]. left. split; [done|]. exists cr. split; [by rewrite Epc|].
    rewrite <- Epx. apply (cf_inside m HC (l_ci s)); [done|lia|]. by rewrite take_all in Hin by lia.
  - split; [done|]. intros rank HD. specialize (Hcnt rank HD). lia.
  - exfalso. unfold moved in Hff.
    destruct (find_facet_exact (gdim m) cr (px0 (l_p s)) (vsub exact (px (l_p s)) (px0 (l_p s))) HS)
      as (k1 & f1 & n1 & Hff1 & _); [lia|rewrite vsub_length; lia|]. congruence.
  - exfalso. unfold moved in Hff.
    destruct (find_facet_exact (gdim m) cr (px0 (l_p s)) (vsub exact (px (l_p s)) (px0 (l_p s))) HS)
      as (k1 & f1 & n1 & Hff1 & _ & Hcase); [lia|rewrite vsub_length; lia|].
    rewrite Hff in Hff1. injection Hff1 as <- <- <-.
    destruct Hcase as [(_ & _ & Hen)|(i & nk & v & Hk & _)]; [|unfold NO_FACET in Hk; lia].
    rewrite !take_all in Hen by (rewrite ?vsub_length; lia). specialize (Hen HI).
    assert (Heq : along (px0 (l_p s)) (vsub exact (px (l_p s)) (px0 (l_p s))) 1 = px (l_p s)).
    { apply vec_co_ext.
      - unfold along. rewrite vadd_length; rewrite ?vscale_length, ?vsub_length; lia.
      - intros i. unfold along. rewrite co_vadd, co_vscale, co_vsub by (rewrite ?vscale_length, ?vsub_length; lia). lra. }
    rewrite Heq in Hen. rewrite take_all in Hin by lia.
    apply (cf_inside m HC _ cr (px (l_p s)) Hcr Lpx) in Hen. congruence.
  - destruct (crossing_facts m (l_ci s) cr (l_p s) i f nn HC Hcr Lpx Lpx0 HI Hff)
      as (nk & Hnk & -> & Hunit & Lnk & Hf & Hpos & HIy & Ly & Hony).
    fold (moved exact s) in Hpos, HIy, Ly, Hony.
    destruct (cf_fids m HC _ cr Hcr) as (Lf & Hnd & Hnof).
    pose proof (cf_nbrs m HC _ cr Hcr) as Lnb.
    pose proof (lookup_lt_Some _ _ _ Hnk) as Hlt. rewrite (sx_nn _ _ HS) in Hlt.
    set (y := vadd exact (px0 (l_p s)) (vscale exact f (moved exact s))) in *.
    assert (Ldx : length (moved exact s) = gdim m) by (unfold moved; rewrite vsub_length; lia).
    assert (Edx : forall w, dot w (moved exact s) = dot w (px (l_p s)) - dot w (px0 (l_p s))).
    { intros w. unfold moved. rewrite dot_sub; [done|lia]. }
    assert (Ey : forall w, dot w y = dot w (px0 (l_p s)) + f * dot w (moved exact s)).
    { intros w. change y with (along (px0 (l_p s)) (moved exact s) f). apply dot_along. lia. }
    assert (Hnd' : 0 < dot nk d) by (rewrite Edot in Hpos; nra).
    assert (Ht1 : t < 1) by (rewrite Edot in Hpos; nra).
    assert (Hy : y = along (px0 p) d (t + f * (1 - t))).
    { apply vec_co_ext.
      - rewrite Ly. unfold along. rewrite vadd_length; rewrite ?vscale_length; lia.
      - intros j. change y with (along (px0 (l_p s)) (moved exact s) f). rewrite !co_along by lia. unfold moved. rewrite co_vsub by lia.
        rewrite Et, Epx, co_along by lia. assert (co d j = co (px p) j - co (px0 p) j) as -> by (unfold d; rewrite co_vsub by lia; reflexivity). ring. }
    assert (Htf : 0 <= t + f * (1 - t) < 1) by nra.
    assert (Hsame : forall mf, fids cr !! i = Some mf -> mf <> l_ml s).
    { intros mf Hfi ->. specialize (Hml i nk Hfi Hnk). rewrite Edx in Hpos. lra. }
    assert (Hmark : forall mf cn, fids cr !! i = Some mf -> nbrs cr !! i = Some cn ->
      exists p2 c2, on_marker bcs recd m fi mf f (Some nk) (next_t exact s f) (crossed exact s f)
        (put_move k (l_c s) (moved exact s)) = Ok (p2, c2) /\
      (cn = NO_CELL -> p2 = set_pbits (crossed exact s f) (Z.lor (pbits p) DELETE_FLAG)) /\ (cn <> NO_CELL -> p2 = crossed exact s f)).
    { intros mf cn Hfi Hnb. unfold on_marker.
      destruct (HA _ cr i mf cn Hcr Hfi Hnb) as [HB1 HB2].
      destruct (marker m mf =? 0)%Z eqn:Ez.
      { do 2 eexists. split; [reflexivity|]. split; [|done]. intros Hcn. destruct (HB1 Hcn) as [Hm0 _]. lia. }
      assert (Hc1 : exists c1, (if is_traj (crossed exact s f)
         then recd (put_move k (l_c s) (moved exact s)) fi (crossed exact s f) (next_t exact s f)
         else Ok (put_move k (l_c s) (moved exact s))) = Ok c1).
      { destruct (is_traj _); [|eauto]. destruct (Hrec (put_move k (l_c s) (moved exact s)) fi (crossed exact s f) (next_t exact s f)) as [u ->]. eauto. }
      destruct Hc1 as (c1 & ->).
      destruct (decide (cn = NO_CELL)) as [Hcn|Hcn].
      - destruct (HB1 Hcn) as [_ ->]. rewrite absorb_bc_eq. do 2 eexists. split; [reflexivity|]. split; [|done]. intros _. rewrite <- Epb. reflexivity.
      - destruct (HB2 Hcn) as [Hb|Hb]; [lia|]. rewrite Hb. do 2 eexists. split; [reflexivity|]. split; [done|]. done. }
    assert (Hdel : forall q : particle, is_deleted (set_pbits q (Z.lor (pbits p) DELETE_FLAG)) = true).
    { intros q0. unfold is_deleted, set_pbits. cbn [pbits]. apply (absorb_deletes p). }
    inversion Hcs; subst; clear Hcs;
      try match goal with H : (?l !! i) = None |- _ => apply lookup_ge_None_1 in H; lia end.
    + exfalso. by eapply Hsame.
    + exfalso. destruct (nbrs cr !! i) as [cn|] eqn:En; [|apply lookup_ge_None_1 in En; lia].
      match goal with H : fids cr !! i = Some _ |- _ => destruct (Hmark _ _ H eq_refl) as (p2 & c2 & E2 & _) end. congruence.
    + match goal with H : fids cr !! i = Some _, G : nbrs cr !! i = Some _ |- _ => destruct (Hmark _ _ H G) as (p3 & c3 & E2 & E3 & _) end.
      match goal with H : on_marker _ _ _ _ _ _ _ _ _ _ = Ok (?p2, ?c2) |- _ => rewrite H in E2; injection E2 as -> -> end.
      rewrite (E3 eq_refl). split; [|split; [lia|split; [by intros []|intros rank HD; specialize (Hcnt rank HD); lia]]]. split; [exact Epx|]. split; [exact Epu|]. right. split; [reflexivity|]. split; [reflexivity|].
      exists (t + f * (1 - t)). split; [exact Htf|]. split; [exact Hy|]. exists (l_ci s), cr, i, nk. split; [exact Hcr|]. split; [assumption|]. split; [exact Hnk|]. split; [exact HIy|].
      intros j v Hv Hon. change (px0 _) with y. rewrite <- (Hony j v Hv Hon). split; [done|].
      rewrite Ey, <- Epx. pose proof (Edx nk). nra.
    + match goal with H : fids cr !! i = Some _, G : nbrs cr !! i = Some _ |- _ => destruct (Hmark _ _ H G) as (p3 & c3 & E2 & E3 & _) end.
      match goal with H : on_marker _ _ _ _ _ _ _ _ _ _ = Ok (?p2, ?c2) |- _ => rewrite H in E2; injection E2 as -> -> end.
      exfalso. rewrite (E3 eq_refl), Hdel in *. congruence.
    + match goal with H : fids cr !! i = Some ?mf0, G : nbrs cr !! i = Some ?cn0 |- _ => destruct (Hmark _ _ H G) as (p3 & c3 & E2 & _ & E3);
        pose proof H as Hfi; pose proof G as Hnb; rename mf0 into mf'; rename cn0 into cn' end.
      match goal with H : on_marker _ _ _ _ _ _ _ _ _ _ = Ok (?p2, ?c2) |- _ => rewrite H in E2; injection E2 as -> -> end.
      assert (Hcn : cn' <> NO_CELL) by assumption. rewrite (E3 Hcn).
      destruct (cf_shared m HC (l_ci s) cr i cn' nk mf' Hcr Hnb Hcn Hnk Hfi) as (cr2 & i2 & Hcr2 & Hf2 & Hn2 & Hmove).
      exists cr2. cbn [l_ci l_p l_cnt l_ml]. split; [exact Hcr2|]. split; [exact Epx|]. split; [exact Epu|]. split; [exact Epb|]. split; [reflexivity|].
      split; [exists (t + f * (1 - t)); split; [lra|exact Hy]|].
      split; [apply Hmove; [exact Ly|exact HIy|exact Hony]|].
      split. { split; [lia|]. split; [exists (is ++ [i]); split; [by eapply walk_in|rewrite app_length; cbn [length]; lia]|]. intros rank HD. specialize (Hcnt rank HD). pose proof (HD _ _ _ _ _ Hcr Hnk Hnb Hcn Hnd'). lia. }
      intros i3 n3 Hf3 Hn3. change (px0 _) with y. change (px _) with (px (l_p s)).
      destruct (cf_fids m HC _ cr2 Hcr2) as (_ & Hnd2 & _).
      assert (i3 = i2) as -> by (eapply NoDup_lookup; [exact Hnd2|exact Hf3|exact Hf2]).
      rewrite Hn2 in Hn3. injection Hn3 as <-. rewrite !dot_scale_l. rewrite Ey. pose proof (Edx nk). rewrite Edx. nra.
Qed.

(** C56: if the cells are ranked along the direction of a move and the limit of facet crossings is above the rank of the first cell, then the
    move is completed. *)
Theorem C56_ranked {K} (bcs : Z -> option (bcfun (K:=K))) recd k m maxc fi time dt p c cr rank :
  Conforming m -> Absorbing m bcs ->
  (forall c i p t, exists u, recd c i p t = Ok (TCtx (scr c) u)) ->
  length (px p) = gdim m -> length (px0 p) = gdim m ->
  cells m (pcell p) = Some cr -> InCell (gdim m) cr (px0 p) ->
  Downhill m (vsub exact (px p) (px0 p)) rank -> (Z.of_nat (rank (pcell p)) < maxc)%Z ->
  exists q c', track exact bcs recd k m maxc fi time dt p c = Ok (q, c') /\ Ended m p q /\
    (0 <= pcross q <= Z.of_nat (rank (pcell p)) + 1)%Z.
Proof.
  intros HC HA Hrec Hx Hx0 Hcr HI HD Hmax. pose proof (C56_ends bcs recd k m maxc fi time dt p c cr HC HA Hrec Hx Hx0 Hcr HI) as H.
  destruct (track exact bcs recd k m maxc fi time dt p c) as [[q c']|e].
  - destruct H as (H1 & H2 & _ & H3). exists q, c'. split; [reflexivity|]. split; [exact H1|]. split; [lia|exact (H3 rank HD)].
  - destruct H as [_ H]. specialize (H rank HD). lia.
Qed.

(** On the line mesh with both ends absorbing, moves to the right: cell 0 has rank 1, cell 1 has rank 0.  A particle goes from 1/2 in cell 0 to
    5/2 in cell 1; another one is absorbed at the right end. *)
Definition line_absorb (v : Z) : option (bcfun (K:=unit)) := if (v =? 0)%Z then None else Some absorb_bc.
Definition right_rank (c : Z) : nat := if (c =? 0)%Z then 1 else 0.
Lemma line_absorbing : Absorbing line_mesh line_absorb.
Proof.
  intros c cr i mf cn Hc Hf Hn. line_cases Hc; destruct i as [|[|i]]; cbn in Hf, Hn; simplify_eq;
    cbn; unfold NO_CELL; split; intros; try lia; (split; [lia|reflexivity]) || (left; lia).
Qed.
Lemma line_downhill a : 0 < a -> Downhill line_mesh [a] right_rank.
Proof.
  intros Ha c cr i n cn Hc Hn Hb Hcn Hd. line_cases Hc; destruct i as [|[|i]]; cbn in Hn, Hb; simplify_eq; cbn in Hd; try (exfalso; lra).
  cbn. lia.
Qed.
Example C56_line : forall x, x = 5 / 2 \/ x = 10 ->
  exists q u, track exact line_absorb (fun c _ _ _ => Ok c) Neutral line_mesh 2 0 1 1 (Particle [x] [/ 2] [2] 1 0 0 5 0) (TCtx [] tt) = Ok (q, u) /\
    (pcross q <= 2)%Z /\ (x = 5 / 2 -> pcell q = 1%Z /\ pbits q = 0%Z) /\ (x = 10 -> pcell q = NO_CELL /\ pbits q = DELETE_FLAG /\ px0 q = [3]).
Proof.
  intros x Hx. set (p := Particle [x] [/ 2] [2] 1 0 0 5 0).
  assert (Ed : vsub exact (px p) (px0 p) = [x - / 2]) by reflexivity.
  destruct (C56_ranked line_absorb (fun c _ _ _ => Ok c) Neutral line_mesh 2 0 1 1 p (TCtx [] tt) (CellRec [[0]; [1]] [[-1]; [1]] [0; 1]%Z [-1; 1]%Z) right_rank
    line_conforming line_absorbing) as (q & u & Et & HE & Hcr); [intros [sc w] i q t; by exists w|reflexivity|reflexivity|reflexivity| | |cbn; lia|].
  { apply (in_line_cell 0%Z); [reflexivity|]. cbn. apply andb_true_iff. rewrite !negb_true_iff, !Rltb_false. lra. }
  { rewrite Ed. apply line_downhill. lra. }
  exists q, u. split; [exact Et|]. split; [cbn in Hcr; lia|]. clear Et.
  destruct HE as (E1 & _ & [(B & cr' & Hc & HI)|(B & Hn & t & Ht & Ep & c1 & cr1 & i & n & Hc1 & Hb1 & Hn1 & HIy & Hf)]).
  - change (px p) with [x] in HI. remember (pcell q) as cq eqn:Hq. clear Hq.
    pose proof (proj1 (in_line_cell cq cr' x Hc) HI) as HL. clear HI. rename HL into HI. line_cases Hc; cbn in HI; apply andb_true_iff in HI as [H1 H2]; rewrite negb_true_iff, Rltb_false in H1, H2; [lra|].
    split; [|lra]. intros _. split; [reflexivity|exact B].
  - change (px p) with [x] in Hf. rewrite Ed in Ep. change (px0 p) with [/ 2] in Ep. cbn in Ep. unfold exact in Ep. rewrite Ep in Hf.
    line_cases Hc1; destruct i as [|[|i]]; cbn in Hb1, Hn1; simplify_eq.
    + destruct (Hf 0%nat [0] eq_refl eq_refl) as [_ F2]. cbn in F2. lra.
    + destruct (Hf 1%nat [3] eq_refl eq_refl) as [F1 F2]. cbn in F1, F2. split; [lra|]. intros _. split; [exact Hn|]. split; [exact B|]. rewrite Ep. f_equal. lra.
Qed.
Print Assumptions C56_ends.
Print Assumptions C56_ranked.
