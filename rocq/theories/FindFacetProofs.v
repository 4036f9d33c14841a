(** Proofs about [find_facet] in exact arithmetic. *)
From Verif Require Import Vec VecProofs TrackModel Geometry.

(** Value kept by the scan: [f] does not lie beyond any plane tested so far. *)
Definition Tested (x0 dx : vec) (l : list (vec * vec)) (f : R) : Prop :=
  Forall (fun nv => f * dot (fst nv) dx <= Rabs (dot (fst nv) (snd nv) - dot (fst nv) x0)
                    \/ dot (fst nv) dx <= 0) l.

Definition Chosen (x0 dx : vec) (l : list (vec * vec)) (st : Z * R) : Prop :=
  (st = (NO_FACET, 1)) \/
  (exists i n v, fst st = Z.of_nat i /\ l !! i = Some (n, v) /\ 0 < dot n dx /\
     snd st * dot n dx = Rabs (dot n v - dot n x0) /\ 0 <= snd st < 1).

Definition same_len (x0 : vec) (l : list (vec * vec)) : Prop :=
  Forall (fun nv => length (snd nv) = length x0) l.

Lemma facet_step_ok x0 dx l st n v :
  same_len x0 (l ++ [(n, v)]) ->
  Tested x0 dx l (snd st) -> Chosen x0 dx l st -> 0 <= snd st <= 1 ->
  let st' := facet_step exact x0 dx st (Z.of_nat (length l)) n v in
  Tested x0 dx (l ++ [(n, v)]) (snd st') /\ Chosen x0 dx (l ++ [(n, v)]) st' /\
  0 <= snd st' <= 1.
Proof.
  intros Hlen HT HC Hr. cbv zeta.
  assert (Hv : length v = length x0).
  { unfold same_len in Hlen. rewrite Forall_app in Hlen. destruct Hlen as [_ Hl].
    apply Forall_cons_1 in Hl. apply Hl. }
  assert (Keep : (snd st * dot n dx <= Rabs (dot n v - dot n x0) \/ dot n dx <= 0) ->
    Tested x0 dx (l ++ [(n, v)]) (snd st) /\ Chosen x0 dx (l ++ [(n, v)]) st /\
    0 <= snd st <= 1).
  { intros Hk. split; [|split; [|exact Hr]].
    - apply Forall_app. split; [exact HT|]. constructor; [exact Hk|constructor].
    - destruct HC as [HC|(i & n1 & v1 & H1 & H2 & H3)]; [by left|right].
      exists i, n1, v1. split; [done|]. split; [by apply lookup_app_l_Some|done]. }
  unfold facet_step. rewrite !vdot_exact.
  destruct (Rltb 0 (dot n dx)) eqn:E1.
  2:{ apply Rltb_false in E1. apply Keep. by right. }
  apply Rltb_true in E1.
  assert (Ed : (if Rltb (dot n (vsub exact v x0)) 0 then - dot n (vsub exact v x0)
                else dot n (vsub exact v x0)) = Rabs (dot n v - dot n x0)).
  { rewrite dot_sub by done. destruct (Rltb _ 0) eqn:E.
    - apply Rltb_true in E. by rewrite Rabs_left.
    - apply Rltb_false in E. rewrite Rabs_right; lra. }
  cbv zeta. rewrite Ed. set (D := Rabs (dot n v - dot n x0)) in *.
  pose proof (Rabs_pos (dot n v - dot n x0)) as HD. fold D in HD.
  destruct (Rltb D _) eqn:E2.
  2:{ apply Rltb_false in E2. apply Keep. left. exact E2. }
  apply Rltb_true in E2. unfold exact in E2.
  assert (Hq : D / dot n dx * dot n dx = D) by (field; lra).
  assert (0 <= D / dot n dx) by (apply Rle_mult_inv_pos; lra).
  assert (D / dot n dx < snd st) by nra.
  cbn. unfold exact. split; [|split; [|lra]].
  - apply Forall_app. split.
    + eapply List.Forall_impl; [|exact HT]. cbn. intros nv [Hle|Hle]; [|by right].
      destruct (Rle_lt_dec (dot nv.1 dx) 0); [by right|left]. nra.
    + constructor; [|constructor]. cbn. left. fold D. lra.
  - right. exists (length l), n, v. cbn. split; [done|]. split.
    + rewrite lookup_app_r, Nat.sub_diag by lia. done.
    + split; [done|]. fold D. split; lra.
Qed.

Lemma facet_scan_ok x0 dx l2 : forall l1 st,
  same_len x0 (l1 ++ l2) ->
  Tested x0 dx l1 (snd st) -> Chosen x0 dx l1 st -> 0 <= snd st <= 1 ->
  let st' := facet_scan exact x0 dx (Z.of_nat (length l1)) l2 st in
  Tested x0 dx (l1 ++ l2) (snd st') /\ Chosen x0 dx (l1 ++ l2) st' /\ 0 <= snd st' <= 1.
Proof.
  induction l2 as [|[n v] l2 IH]; intros l1 st Hlen HT HC Hr; cbn.
  { rewrite app_nil_r. auto. }
  replace (l1 ++ (n, v) :: l2) with ((l1 ++ [(n, v)]) ++ l2) in * by (by rewrite <- app_assoc).
  assert (Hl1 : same_len x0 (l1 ++ [(n, v)])).
  { unfold same_len in *. rewrite Forall_app in Hlen. apply Hlen. }
  destruct (facet_step_ok x0 dx l1 st n v Hl1 HT HC Hr) as (H1 & H2 & H3).
  specialize (IH (l1 ++ [(n, v)]) _ Hlen H1 H2 H3).
  rewrite app_length in IH. cbn in IH.
  replace (Z.of_nat (length l1 + 1)) with (Z.of_nat (length l1) + 1)%Z in IH by lia.
  exact IH.
Qed.

(** The planes that [find_facet] tests are the facet planes. *)
Lemma facet_vertex_on d i j : (1 <= d <= 3)%nat ->
  facet_vertex d !! i = Some j -> on_facet d i j.
Proof.
  intros Hd. assert (d = 1 \/ d = 2 \/ d = 3)%nat as [->|[->| ->]] by lia;
    destruct i as [|[|[|[|i]]]]; cbn; intros; simplify_eq; unfold on_facet; cbn; lia.
Qed.
Lemma facet_vertex_len d : (1 <= d <= 3)%nat -> length (facet_vertex d) = S d.
Proof. intros Hd. assert (d = 1 \/ d = 2 \/ d = 3)%nat as [->|[->| ->]] by lia; done. Qed.
Lemma facet_vertex_lt d i j : (1 <= d <= 3)%nat -> facet_vertex d !! i = Some j -> (j <= d)%nat.
Proof.
  intros Hd. assert (d = 1 \/ d = 2 \/ d = 3)%nat as [->|[->| ->]] by lia;
    destruct i as [|[|[|[|i]]]]; cbn; intros; simplify_eq; lia.
Qed.

Lemma facet_planes_ok d c : Simplex d c ->
  exists l, facet_planes d c = Some l /\ length l = S d /\
    (forall i n v, l !! i = Some (n, v) ->
       normals c !! i = Some n /\
       exists j, facet_vertex d !! i = Some j /\ verts c !! j = Some v /\ on_facet d i j).
Proof.
  intros HS. pose proof (sx_dim _ _ HS) as Hd. unfold facet_planes.
  destruct (mapM _ (facet_vertex d)) as [vs|] eqn:E.
  2:{ exfalso. assert (is_Some (mapM (fun j => verts c !! j) (facet_vertex d))) as [? Hx].
      { apply mapM_is_Some_2. apply Forall_lookup. intros i j Hij. apply lookup_lt_is_Some.
        rewrite (sx_nv _ _ HS). pose proof (facet_vertex_lt d i j Hd Hij). lia. }
      congruence. }
  apply mapM_Some_1 in E.
  pose proof (Forall2_length _ _ _ E) as Hlen. rewrite facet_vertex_len in Hlen by done.
  rewrite (sx_nn _ _ HS), Hlen, Nat.eqb_refl.
  exists (zip (normals c) vs). split; [done|]. split.
  { rewrite zip_with_length, (sx_nn _ _ HS). lia. }
  intros i n v H. apply lookup_zip_with_Some in H as (n1 & v1 & [= <- <-] & Hn & Hv).
  split; [done|].
  destruct (Forall2_lookup_r _ _ _ _ _ E Hv) as (j & Hj & Hvj).
  exists j. split; [done|]. split; [done|]. by apply facet_vertex_on.
Qed.

Lemma InCell_planes d c x l : Simplex d c -> facet_planes d c = Some l ->
  InCell d c x <-> Forall (fun nv => dot (fst nv) x <= dot (fst nv) (snd nv)) l.
Proof.
  intros HS Hl. destruct (facet_planes_ok d c HS) as (l' & Hl' & Hlen & Hp).
  rewrite Hl in Hl'. injection Hl' as <-.
  split.
  - intros HI. apply Forall_lookup. intros i [n v] Hi.
    destruct (Hp i n v Hi) as (Hn & j & _ & Hv & Hon). cbn. by eapply HI.
  - intros HF i n j v Hn Hv Hon.
    assert (Hi : is_Some (l !! i)).
    { apply lookup_lt_is_Some. rewrite Hlen, <- (sx_nn _ _ HS). by eapply lookup_lt_Some. }
    destruct Hi as [[n1 v1] Hi]. destruct (Hp i n1 v1 Hi) as (Hn1 & j1 & _ & Hv1 & Hon1).
    rewrite Hn in Hn1. injection Hn1 as <-.
    pose proof (Forall_lookup_1 _ _ _ _ HF Hi) as HH. cbn in HH.
    rewrite (sx_flat _ _ HS i n j v j1 v1); done.
Qed.

Lemma dot_along n x dx t : length x = length dx ->
  dot n (along x dx t) = dot n x + t * dot n dx.
Proof.
  intros. unfold along. rewrite dot_add, dot_scale; [done|]. by rewrite vscale_length.
Qed.

(** In 1D the two normals point in opposite directions. *)
Lemma simplex_1d_opposite c dx n0 n1 : Simplex 1 c -> length dx = 1%nat ->
  normals c !! 0%nat = Some n0 -> normals c !! 1%nat = Some n1 ->
  0 < dot n0 dx -> dot n1 dx <= 0.
Proof.
  intros HS Hdx H0 H1.
  destruct (lookup_lt_is_Some_2 (verts c) 0%nat) as [v0 Hv0]; [rewrite (sx_nv _ _ HS); lia|].
  destruct (lookup_lt_is_Some_2 (verts c) 1%nat) as [v1 Hv1]; [rewrite (sx_nv _ _ HS); lia|].
  pose proof (Forall_lookup_1 _ _ _ _ (sx_lv _ _ HS) Hv0) as L0.
  pose proof (Forall_lookup_1 _ _ _ _ (sx_lv _ _ HS) Hv1) as L1.
  pose proof (Forall_lookup_1 _ _ _ _ (sx_ln _ _ HS) H0) as M0.
  pose proof (Forall_lookup_1 _ _ _ _ (sx_ln _ _ HS) H1) as M1.
  cbn in *.
  pose proof (sx_out _ _ HS 0%nat n0 0%nat v0 1%nat v1 H0 Hv0 Hv1) as A0.
  pose proof (sx_out _ _ HS 1%nat n1 1%nat v1 0%nat v0 H1 Hv1 Hv0) as A1.
  unfold on_facet in *. cbn in *.
  specialize (A0 eq_refl ltac:(lia)). specialize (A1 eq_refl ltac:(lia)).
  destruct dx as [|a [|]], v0 as [|b0 [|]], v1 as [|b1 [|]], n0 as [|m0 [|]], n1 as [|m1 [|]];
    cbn in *; try lia.
  intros. destruct (Rlt_le_dec m0 0); destruct (Rlt_le_dec m1 0); nra.
Qed.

(** The (facet, dxFraction) that [find_facet] computes is the scan's in every
    dimension. *)
Lemma find_facet_scan d c r0 dr l : Simplex d c -> (d <= length dr)%nat ->
  facet_planes d c = Some l -> dot (take d dr) (take d dr) <> 0 ->
  let st := facet_scan exact (take d r0) (take d dr) 0 l (NO_FACET, 1) in
  (d = 1%nat -> same_len (take d r0) l) ->
  find_facet exact d c r0 dr =
    (if (1 <? d)%nat && (Rltb 1 (snd st) || Rltb (snd st) 0) then Raise SystemExit else
     match py_get (normals c) (fst st) with Ok n => Ok (fst st, snd st, Some n) | Raise e => Raise e end).
Proof.
  intros HS Hdr Hl Hnz st Hsl. unfold find_facet.
  rewrite vdot_exact. apply Reqb_false in Hnz. rewrite Hnz, Hl.
  set (dx := take d dr) in *. set (x0 := take d r0) in *.
  destruct (decide (d = 1%nat)) as [->|Hd1].
  - destruct (facet_planes_ok 1 c HS) as (l' & Hl' & Hlen & Hp).
    rewrite Hl in Hl'. injection Hl' as <-.
    destruct l as [|[n0 v0] [|[n1 v1] [|]]]; cbn in Hlen; try lia.
    destruct (Hp 0%nat n0 v0 eq_refl) as (Hn0 & _).
    destruct (Hp 1%nat n1 v1 eq_refl) as (Hn1 & _).
    assert (Hfst : fst (facet_step exact x0 dx (NO_FACET, 1) 0 n0 v0) = 0%Z ->
      facet_scan exact x0 dx 1 [(n1, v1)] (facet_step exact x0 dx (NO_FACET, 1) 0 n0 v0)
      = facet_step exact x0 dx (NO_FACET, 1) 0 n0 v0).
    { intros H0. cbn [facet_scan]. set (s0 := facet_step _ _ _ _ 0 _ _) in *.
      assert (0 < dot n0 dx).
      { subst s0. unfold facet_step in H0. rewrite vdot_exact in H0.
        destruct (Rltb 0 (dot n0 dx)) eqn:E; [by apply Rltb_true in E|]. done. }
      unfold facet_step at 1. rewrite vdot_exact.
      assert (Hle : dot n1 dx <= 0).
      { eapply simplex_1d_opposite; eauto. subst dx. rewrite take_length. lia. }
      apply Rltb_false in Hle. by rewrite Hle. }
    subst st. cbn [facet_scan] in *. cbn [Nat.ltb Nat.leb andb].
    change (0 + 1)%Z with 1%Z in *.
    destruct (facet_step exact x0 dx (NO_FACET, 1) 0 n0 v0) as [k f] eqn:E0. cbn [fst] in *.
    destruct (k =? 0)%Z eqn:Ek.
    + assert (k = 0%Z) by lia. subst k. rewrite Hfst by done. done.
    + destruct (facet_step exact x0 dx (k, f) 1 n1 v1). done.
  - subst st.
    assert (Hm : forall A (a : A) g, match d, l with
       | 1%nat, (n0, v0) :: r => g n0 v0 r | _, _ => a end = a).
    { intros. destruct d as [|[|d]]; [done|lia|done]. }
    rewrite Hm. destruct (facet_scan _ _ _ _ _ _); done.
Qed.

(** The complete characterisation used by the tracking proofs. *)
Lemma find_facet_exact d c r0 dr : Simplex d c ->
  (d <= length r0)%nat -> (d <= length dr)%nat ->
  let x0 := take d r0 in let dx := take d dr in
  exists k f n, find_facet exact d c r0 dr = Ok (k, f, n) /\ 0 <= f <= 1 /\
  ((k = NO_FACET /\ f = 1 /\
    (InCell d c x0 -> InCell d c (along x0 dx 1))) \/
   (exists i nk v, k = Z.of_nat i /\ (i <= d)%nat /\ normals c !! i = Some nk /\ n = Some nk /\
      (exists j, verts c !! j = Some v /\ on_facet d i j) /\
      0 < dot nk dx /\ f < 1 /\
      (InCell d c x0 -> f * dot nk dx = dot nk v - dot nk x0 /\
         forall t, 0 <= t <= f -> InCell d c (along x0 dx t)))).
Proof.
  intros HS H0 Hr x0 dx.
  assert (Lx : length x0 = d) by (subst x0; rewrite take_length; lia).
  assert (Ldx : length dx = d) by (subst dx; rewrite take_length; lia).
  destruct (Req_EM_T (dot dx dx) 0) as [Hz|Hz].
  { exists NO_FACET, 1, None. unfold find_facet. rewrite vdot_exact. fold dx.
    pose proof Hz as Hz'. apply Reqb_true in Hz. rewrite Hz. split; [done|]. split; [lra|].
    left. split; [done|]. split; [done|]. intros HI i n j v Hn Hv Hon.
    rewrite dot_along by lia. rewrite (dot_self_zero dx n Hz').
    specialize (HI i n j v Hn Hv Hon). lra. }
  destruct (facet_planes_ok d c HS) as (l & Hl & Hlen & Hp).
  assert (Hsl : same_len x0 l).
  { apply Forall_lookup. intros i [n v] Hi. destruct (Hp i n v Hi) as (_ & j & _ & Hv & _).
    cbn. rewrite Lx. exact (Forall_lookup_1 _ _ _ _ (sx_lv _ _ HS) Hv). }
  rewrite (find_facet_scan d c r0 dr l HS Hr Hl Hz) by done. fold x0 dx.
  destruct (facet_scan_ok x0 dx l [] (NO_FACET, 1)) as (HT & HC & Hf).
  { exact Hsl. } { constructor. } { by left. } { cbn. lra. }
  cbn [length app] in HT, HC, Hf. change (Z.of_nat 0) with 0%Z in *.
  destruct (facet_scan exact x0 dx 0 l (NO_FACET, 1)) as [k f]. cbn [fst snd] in *.
  assert (E1 : Rltb 1 f = false) by (apply Rltb_false; lra).
  assert (E2 : Rltb f 0 = false) by (apply Rltb_false; lra).
  rewrite E1, E2. cbn [orb]. rewrite andb_false_r.
  pose proof (sx_nn _ _ HS) as Hnn.
  (* distances to the planes are non-negative when the start is in the cell *)
  assert (Habs : InCell d c x0 -> forall i n v, l !! i = Some (n, v) ->
    Rabs (dot n v - dot n x0) = dot n v - dot n x0).
  { intros HI i n v Hi. destruct (Hp i n v Hi) as (Hn & j & _ & Hv & Hon).
    apply Rabs_right. specialize (HI i n j v Hn Hv Hon). lra. }
  assert (Hin : InCell d c x0 -> forall t, 0 <= t <= f -> InCell d c (along x0 dx t)).
  { intros HI t Ht. rewrite (InCell_planes d c _ l HS Hl). apply Forall_lookup.
    intros i [n v] Hi. cbn. rewrite dot_along by lia.
    pose proof (Forall_lookup_1 _ _ _ _ HT Hi) as Hti. cbn in Hti.
    rewrite (Habs HI i n v Hi) in Hti.
    pose proof (Habs HI i n v Hi) as Hp0. pose proof (Rabs_pos (dot n v - dot n x0)).
    destruct (Rle_lt_dec (dot n dx) 0); [nra|]. destruct Hti as [Hti|]; [nra|lra]. }
  destruct HC as [HC|(i & nk & v & Hk & Hi & Hpos & Heq & Hf')].
  - injection HC as -> ->. unfold py_get, py_pos.
    replace ((0 <=? NO_FACET) && _)%Z with false by (unfold NO_FACET; lia).
    replace ((- Z.of_nat (length (normals c)) <=? NO_FACET) && (NO_FACET <? 0))%Z with true
      by (unfold NO_FACET; lia).
    destruct (lookup_lt_is_Some_2 (normals c) (Z.to_nat (NO_FACET + Z.of_nat (length (normals c)))))
      as [nl Hnl]; [unfold NO_FACET; lia|]. rewrite Hnl.
    exists NO_FACET, 1, (Some nl). split; [done|]. split; [lra|]. left.
    split; [done|]. split; [done|]. intros HI. apply Hin; [done|lra].
  - cbn in Hk, Heq, Hf'. subst k. destruct (Hp i nk v Hi) as (Hn & j & _ & Hv & Hon).
    pose proof (lookup_lt_Some _ _ _ Hn) as Hlt.
    unfold py_get, py_pos.
    replace ((0 <=? Z.of_nat i) && (Z.of_nat i <? Z.of_nat (length (normals c))))%Z with true by lia.
    rewrite Nat2Z.id, Hn.
    exists (Z.of_nat i), f, (Some nk). split; [done|]. split; [lra|]. right.
    exists i, nk, v. split; [done|]. split; [lia|]. split; [done|]. split; [done|].
    split; [eauto|]. split; [done|]. split; [lra|]. intros HI.
    split; [|by apply Hin]. rewrite Heq. by eapply Habs.
Qed.
