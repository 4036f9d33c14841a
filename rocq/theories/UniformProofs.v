(** The loop of the uniform-field mover. *)
From Verif Require Import SapModel MoverModel SapProofs MoverProofs.
From Coq Require Import ZifyBool ZifyNat.
Ltac Zify.zify_post_hook ::= Z.div_mod_to_equations.

(** The pass as a fold: flagged records are skipped before they claim a slot. *)
Section Spec.
Context {A C : Type} (hk : hooks A C) (L : Z).
Fixpoint uni_pass (outs : list A) (seg : Z) (c : C) (xs : list A) : res (list A * Z * C) :=
  match xs with
  | [] => Ok (outs, seg, c)
  | p :: xs' =>
    if deleted hk p then uni_pass outs seg c xs'
    else let! (q, c1) := adv hk c 0 p in
         uni_pass (outs ++ [q]) (Z.of_nat (length outs) / L) c1 xs'
  end.

Lemma uni_pass_app outs seg c xs ys :
  uni_pass outs seg c (xs ++ ys) =
  match uni_pass outs seg c xs with
  | Ok (o, sg, c') => uni_pass o sg c' ys
  | Raise e => Raise e
  end.
Proof.
  revert outs seg c. induction xs as [|p xs IH]; intros outs seg c; [done|]. cbn [app uni_pass].
  destruct (deleted hk p); [apply IH|]. destruct (adv hk c 0 p) as [[q c1]|e]; [apply IH|done].
Qed.

Lemma uni_pass_length outs seg c xs o sg c' :
  uni_pass outs seg c xs = Ok (o, sg, c') ->
  (length outs <= length o <= length outs + length xs)%nat.
Proof.
  revert outs seg c. induction xs as [|p xs IH]; intros outs seg c H; cbn in *; [simplify_eq; lia|].
  destruct (deleted hk p); [apply IH in H; lia|]. destruct (adv hk c 0 p) as [[q c1]|e]; [|done].
  apply IH in H. rewrite app_length in H. simpl in H. lia.
Qed.

Lemma uni_pass_seg outs seg c xs o sg c' B : 1 <= L ->
  uni_pass outs seg c xs = Ok (o, sg, c') -> seg * L <= B ->
  Z.of_nat (length outs) + Z.of_nat (length xs) - 1 <= B -> sg * L <= B.
Proof.
  intros HL. revert outs seg c. induction xs as [|p xs IH]; intros outs seg c H Hs HB; cbn in *; [simplify_eq; lia|].
  destruct (deleted hk p); [eapply IH; [exact H|done|lia]|].
  destruct (adv hk c 0 p) as [[q c1]|e]; [|done].
  eapply IH; [exact H|nia|]. rewrite app_length. simpl. lia.
Qed.
End Spec.

Section Sim.
Context {A C : Type} (ops : sap_ops A) (hk : hooks A C) (L N : Z) (HL : 1 <= L).
Implicit Types (m : mstate A C) (s : sap A).
Context (agree_next_in : forall s, Bounded L N s -> op_next_in ops s = op_next_in (py_ops A) s).
Context (agree_next_out : forall s, Bounded L N s -> fnf (arr s (out_sa s)) + 1 < N ->
  op_next_out ops s = op_next_out (py_ops A) s).
Context (ain : sarr A) (iarr : bool) (nout0 : Z) (xs : list A).
Context (Hain : Holds L ain xs) (Hn0 : nout0 <= N) (Hnin : nseg ain <= N).

Definition usim iseg (rm : res (mstate A C)) (rs : res (list A * Z * C)) : Prop :=
  match rs with
  | Raise e => rm = Raise e
  | Ok (outs, seg, c) =>
    exists m, rm = Ok m /\ PInv L ain iarr iseg nout0 m outs /\ ms_oseg m = seg /\ ms_ctx m = c /\
      (outs <> [] -> 0 < ms_ipOut m)
  end.

Lemma uniform_particle_sim iseg m outs ipIn p :
  PInv L ain iarr iseg nout0 m outs -> (outs <> [] -> 0 < ms_ipOut m) -> 0 <= iseg < nseg ain -> 0 <= ipIn < L ->
  xs !! Z.to_nat (iseg * L + ipIn) = Some p ->
  Z.of_nat (length outs) <= iseg * L + ipIn ->
  usim iseg (uniform_particle ops hk iarr iseg m ipIn) (uni_pass hk L outs (ms_oseg m) (ms_ctx m) [p]).
Proof using All.
  intros HP Hnz Hi Hip Hp Hle.
  assert (Hf : fetch (arr (ms_sap m) iarr) iseg ipIn = Ok (Some p)).
  { rewrite (pi_ain _ _ _ _ _ _ _ HP).
    destruct (fetch_ok L (SArr (segs ain) (fnf ain) (fao ain) iseg (nseg ain)) iseg ipIn HL) as (x & Hx & Hfx).
    - eapply Wf_ext; [..|exact (h_wf _ _ _ Hain)]; done.
    - done.
    - done.
    - rewrite Hx. f_equal. pose proof (Prefix_lookup ain xs _ _ (h_pre _ _ _ Hain) Hp) as Hpl.
      unfold flat in *. cbn [segs] in Hfx. congruence. }
  unfold uniform_particle. rewrite Hf. cbn [uni_pass].
  destruct (deleted hk p) eqn:Ed.
  { exists m. done. }
  destruct (claim_slot ops L N HL agree_next_out ain iarr nout0 xs Hain Hn0 Hnin iseg m outs ipIn HP Hi Hip Hle)
    as (m1 & Em1 & HP1 & Hip1 & Hch & Hctx & Hos).
  rewrite Em1, <- Hctx, (pi_len _ _ _ _ _ _ _ HP).
  clear Hch Hctx Em1 HP Hnz Hf m. rename HP1 into HP.
  destruct HP as [P1 P2 P3 P4 P5 P6 P7 P8 P9 P10 P11 P12 P13 P14 P15].
  destruct (adv hk (ms_ctx m1) 0 p) as [[q c1]|e]; [|done].
  rewrite P4.
  set (ao := arr (ms_sap m1) (negb iarr)) in *.
  destruct (store_ok L ao (ms_oseg m1) (ms_ipOut m1) (Some q) HL P6) as (ss & Hst & HWs & Hss); [lia|lia|].
  rewrite Hst. rewrite <- P14 in Hss. rewrite Nat2Z.id in Hss.
  assert (Hlt : (length outs < length (flat ao))%nat).
  { pose proof (wf_flat_length L ao HL P6). nia. }
  assert (Hdiv : Z.of_nat (length outs) / L = ms_oseg m1).
  { symmetry. apply Z.div_unique with (ms_ipOut m1); lia. }
  rewrite Hdiv.
  assert (HPs : Prefix (SArr ss (fnf ao) (fao ao) (cur ao) (nseg ao)) (outs ++ [q])).
  { eapply Prefix_snoc; [exact P7|lia|exact Hss]. }
  eexists. split; [reflexivity|].
  split; [|cbn; repeat split; lia].
  split; cbn [ms_sap ms_oarr ms_oseg ms_ipOut ms_count]; rewrite ?out_set, ?in_set, ?slen_set, ?arr_set_same; cbn [cur fnf fao nseg segs]; try done; try lia; try (eapply Wf_ext; [..|exact P6]; done); try (eapply Prefix_ext; [|exact P7]; done).
  - rewrite arr_set_other by (by destruct iarr). done.
  - rewrite app_length. cbn [length]. lia.
  - rewrite app_length. cbn [length]. rewrite P15, Hdiv.
    destruct (ms_ipOut m1 + 1 =? L) eqn:E.
    + assert (HE : ms_ipOut m1 = L - 1) by lia.
      replace (Z.of_nat (length outs + 1)) with ((ms_oseg m1 + 1) * L) by lia.
      rewrite Z.div_mul by lia. lia.
    + f_equal. apply Z.div_unique with (ms_ipOut m1 + 1); lia.
Qed.

Lemma uniform_segment_sim k iseg m outs ipIn :
  PInv L ain iarr iseg nout0 m outs -> (outs <> [] -> 0 < ms_ipOut m) -> 0 <= iseg < nseg ain -> 0 <= ipIn ->
  ipIn + Z.of_nat k <= L -> iseg * L + ipIn + Z.of_nat k <= Z.of_nat (length xs) ->
  Z.of_nat (length outs) <= iseg * L + ipIn ->
  usim iseg (uniform_segment ops hk iarr iseg m ipIn k)
    (uni_pass hk L outs (ms_oseg m) (ms_ctx m) (take k (drop (Z.to_nat (iseg * L + ipIn)) xs))).
Proof using All.
  revert m outs ipIn. induction k as [|k IH]; intros m outs ipIn HP Hnz Hi Hip HkL Hkn Hle.
  - simpl. exists m. done.
  - destruct (lookup_lt_is_Some_2 xs (Z.to_nat (iseg * L + ipIn))) as [p Hp]; [lia|].
    rewrite (drop_S _ _ _ Hp). cbn [take uniform_segment].
    pose proof (uniform_particle_sim iseg m outs ipIn p HP Hnz Hi ltac:(lia) Hp Hle) as Hs.
    change (p :: take k (drop (S (Z.to_nat (iseg * L + ipIn))) xs))
      with ([p] ++ take k (drop (S (Z.to_nat (iseg * L + ipIn))) xs)).
    rewrite uni_pass_app.
    destruct (uni_pass hk L outs (ms_oseg m) (ms_ctx m) [p]) as [[[o sg] c]|e] eqn:Est.
    + destruct Hs as (m1 & E1 & HP1 & Eo & Ec & Hnz1). rewrite E1.
      apply uni_pass_length in Est. cbn [length] in Est.
      specialize (IH m1 o (ipIn + 1) HP1 Hnz1 Hi ltac:(lia) ltac:(lia) ltac:(lia) ltac:(lia)).
      rewrite Eo, Ec in IH.
      replace (S (Z.to_nat (iseg * L + ipIn))) with (Z.to_nat (iseg * L + (ipIn + 1))) by lia.
      exact IH.
    + simpl in Hs. rewrite Hs. done.
Qed.

Lemma uniform_segments_sim fuel iseg m outs :
  xs <> [] -> PInv L ain iarr iseg nout0 m outs -> (outs <> [] -> 0 < ms_ipOut m) -> 0 <= iseg <= fnf ain -> ms_oseg m <= iseg ->
  Z.of_nat (length outs) <= iseg * L -> fnf ain - iseg < Z.of_nat fuel ->
  usim (fnf ain + 1) (uniform_segments ops hk fuel m iarr iseg (in_count L ain iseg))
    (uni_pass hk L outs (ms_oseg m) (ms_ctx m) (drop (Z.to_nat (iseg * L)) xs)).
Proof using All.
  intros Hx. destruct (fnf_bounds L HL ain xs Hain Hx) as (Hf & Ha & Hsum).
  revert iseg m outs. induction fuel as [|fuel IH]; intros iseg m outs HP Hnz Hi Hos0 Hle Hfuel; [lia|].
  cbn [uniform_segments].
  assert (Hcnt : 1 <= in_count L ain iseg <= L /\ iseg * L + in_count L ain iseg <= Z.of_nat (length xs) /\
     (iseg = fnf ain -> iseg * L + in_count L ain iseg = Z.of_nat (length xs)) /\
     (iseg <> fnf ain -> in_count L ain iseg = L)).
  { unfold in_count. destruct (iseg =? fnf ain) eqn:E.
    - assert (iseg = fnf ain) as -> by lia. lia.
    - repeat split; try lia. nia. }
  destruct Hcnt as (Hc1 & Hc2 & Hc3 & Hc4).
  pose proof (uniform_segment_sim (Z.to_nat (in_count L ain iseg)) iseg m outs 0 HP Hnz ltac:(lia) ltac:(lia)
     ltac:(lia) ltac:(lia) ltac:(lia)) as Hseg.
  rewrite Z.add_0_r in Hseg.
  rewrite <- (take_drop (Z.to_nat (in_count L ain iseg)) (drop (Z.to_nat (iseg * L)) xs)).
  rewrite uni_pass_app.
  destruct (uni_pass hk L outs (ms_oseg m) (ms_ctx m)
     (take (Z.to_nat (in_count L ain iseg)) (drop (Z.to_nat (iseg * L)) xs))) as [[[o sg] c]|e] eqn:Esp.
  2: { simpl in Hseg. rewrite Hseg. done. }
  destruct Hseg as (m1 & E1 & HP1 & Eo & Ec & Hnz1). rewrite E1.
  pose proof Esp as Esp0. apply uni_pass_length in Esp.
  assert (Htl : length (take (Z.to_nat (in_count L ain iseg)) (drop (Z.to_nat (iseg * L)) xs)) = Z.to_nat (in_count L ain iseg)).
  { rewrite take_length, drop_length. lia. }
  rewrite Htl in Esp. rewrite drop_drop.
  replace (Z.to_nat (iseg * L) + Z.to_nat (in_count L ain iseg))%nat with (Z.to_nat (iseg * L + in_count L ain iseg)) by lia.
  assert (Hos : ms_oseg m1 <= iseg).
  { assert (sg * L <= iseg * L + in_count L ain iseg - 1).
    { eapply (uni_pass_seg hk L _ _ _ _ _ _ _ _ HL Esp0); [nia|]. rewrite Htl. lia. }
    nia. }
  destruct (next_in_ok ops hk L N HL agree_next_in agree_next_out ain iarr nout0 xs Hain Hn0 Hnin iseg m1 o Hx HP1 Hi Hos) as (s' & En & HP2).
  rewrite En.
  cbn [ms_sap ms_oarr ms_oseg ms_ipOut ms_count ms_change ms_ctx].
  destruct (iseg + 1 <=? fnf ain) eqn:Emore.
  - assert (Hne : iseg <> fnf ain) by lia. specialize (Hc4 Hne).
    assert (Hc' : 1 <= in_count L ain (iseg + 1)).
    { unfold in_count. destruct (iseg + 1 =? fnf ain); lia. }
    destruct (in_count L ain (iseg + 1) =? 0) eqn:Ez; [lia|].
    specialize (IH (iseg + 1) _ o HP2 Hnz1 ltac:(lia) ltac:(cbn; lia) ltac:(nia) ltac:(lia)).
    cbn [ms_sap ms_oarr ms_oseg ms_ipOut ms_count ms_change ms_ctx] in IH.
    rewrite Eo, Ec in IH.
    assert (Hcur : cur (arr s' iarr) = iseg + 1).
    { pose proof (pi_ain _ _ _ _ _ _ _ HP2) as Ha'. cbn [ms_sap] in Ha'. rewrite Ha'. done. }
    rewrite Hcur, Eo, Ec.
    replace (iseg * L + in_count L ain iseg) with ((iseg + 1) * L) by (rewrite Hc4; lia).
    exact IH.
  - assert (Hlast : iseg = fnf ain) by lia. specialize (Hc3 Hlast).
    rewrite drop_ge by lia. cbn [uni_pass].
    rewrite Z.eqb_refl. eexists. split; [reflexivity|].
    rewrite <- Hlast. cbn. done.
Qed.
End Sim.

Section Whole.
Context {A C : Type} (ops : sap_ops A) (hk : hooks A C) (L N : Z) (HL : 1 <= L).
Implicit Types (s : sap A).
Context (agree_next_in : forall s, Bounded L N s -> op_next_in ops s = op_next_in (py_ops A) s).
Context (agree_next_out : forall s, Bounded L N s -> fnf (arr s (out_sa s)) + 1 < N ->
  op_next_out ops s = op_next_out (py_ops A) s).

Lemma uniform_whole chk s items cursor nin nout c :
  Live L s items cursor nin nout -> items <> [] -> nin <= N -> nout <= N ->
  op_init_inout ops s = init_inout_loop s ->
  match uni_pass hk L [] 0 c items with
  | Raise e => uniform_mover ops hk chk s c = Raise e
  | Ok (outs, seg, c') =>
    let k := Z.of_nat (length outs) in
    exists s1,
      uniform_mover ops hk chk s c =
        Ok (op_set_out_count ops s1 (if negb chk && (0 <? k) && (k mod L =? 0) then k + L else k), c') /\
      slen s1 = L /\ out_sa s1 = negb (out_sa s) /\ in_sa s1 = out_sa s /\
      Wf L (arr s1 (out_sa s1)) /\ Prefix (arr s1 (out_sa s1)) outs /\
      cur (arr s1 (out_sa s1)) = seg /\ nseg (arr s1 (out_sa s1)) = Z.max nin (seg + 1) /\
      segs (arr s1 (in_sa s1)) = segs (arr s (out_sa s)) /\
      nseg (arr s1 (in_sa s1)) = nout
  end.
Proof using All.
  intros HLive Hne Hni Hno Hinit.
  destruct HLive as [S1 S2 S3 S4 S5 S6 S7].
  set (ain := arr s (out_sa s)) in *.
  destruct (fnf_bounds L HL ain items S3 Hne) as (Hf & Ha & Hsum).
  unfold uniform_mover. rewrite Hinit. unfold init_inout_loop. rewrite S2, Bool.negb_involutive, S1.
  set (s3 := set_arr (set_arr (set_arr s false _) true _) (negb (out_sa s)) _).
  assert (Hin3 : arr s3 (out_sa s) = SArr (segs ain) (fnf ain) (fao ain) 0 (nseg ain)).
  { subst s3 ain. destruct (out_sa s); reflexivity. }
  assert (Hout3 : arr s3 (negb (out_sa s)) =
     SArr (segs (arr s (in_sa s))) 0 0 0 (nseg (arr s (in_sa s)))).
  { subst s3 ain. rewrite S2. destruct (out_sa s); reflexivity. }
  assert (Hlen3 : slen s3 = L).
  { subst s3. by rewrite !slen_set. }
  rewrite Hin3. cbn [fnf fao]. rewrite Hlen3.
  destruct ((fnf ain =? 0) && (fao ain =? 0)) eqn:E0; [lia|].
  set (last := if fnf ain =? 0 then fao ain else L).
  assert (Hlast : last = in_count L ain 0).
  { unfold last, in_count. rewrite (Z.eqb_sym 0). done. }
  rewrite (slice_ok L); [|done| |cbn; pose proof (wf_pos _ _ (h_wf _ _ _ S3)); lia|unfold last; destruct (fnf ain =? 0); lia].
  2: { eapply Wf_ext; [..|exact (h_wf _ _ _ S3)]; done. }
  set (s4 := Sap L (arr0 s3) (arr1 s3) (out_sa s) (negb (out_sa s))).
  assert (Harr4 : forall b, arr s4 b = arr s3 b) by (intros []; done).
  rewrite Harr4, Hout3. cbn [segs].
  destruct (seg_lookup L (arr s (in_sa s)) 0 S6) as (v & _ & _ & Hv); [pose proof (wf_pos _ _ S6); lia|].
  rewrite Hv.
  assert (HP0 : PInv L ain (out_sa s) 0 nin (MState s4 (out_sa s4) 0 0 0 false c) []).
  { split; cbn [ms_sap ms_oarr ms_oseg ms_ipOut ms_count]; rewrite ?Harr4, ?Hin3, ?Hout3; cbn [fnf fao cur nseg segs]; try done; try lia.
    - eapply Wf_ext; [..|exact S6]; done.
    - apply Prefix_nil.
    - pose proof (wf_pos _ _ S6). lia. }
  pose proof (uniform_segments_sim ops hk L N HL agree_next_in agree_next_out ain (out_sa s) nin items S3
     ltac:(lia) ltac:(lia) (Z.to_nat (nseg (arr s4 (in_sa s4)) + 1)) 0 _ [] Hne HP0 (fun H => False_ind _ (H eq_refl))) as Hsim.
  cbn [ms_sap ms_oarr ms_oseg ms_ipOut ms_count ms_change ms_ctx] in Hsim.
  rewrite Hlast. change (in_sa s4) with (out_sa s) in *.
  rewrite Harr4, Hin3 in Hsim |- *. cbn [nseg] in Hsim |- *.
  specialize (Hsim ltac:(lia) ltac:(lia) ltac:(simpl; lia) ltac:(lia)).
  change (0 * L) with 0 in Hsim. change (Z.to_nat 0) with 0%nat in Hsim. rewrite drop_0 in Hsim.
  destruct (uni_pass hk L [] 0 c items) as [[[outs seg] c']|e] eqn:Esp.
  2: { unfold usim in Hsim. rewrite Hsim. done. }
  destruct Hsim as (m & Em & HP & Eseg & Ectx & Hnz).
  rewrite Em. destruct HP as [P1 P2 P3 P4 P5 P6 P7 P8 P9 P10 P11 P12 P13 P14 P15].
  exists (ms_sap m).
  split.
  { rewrite Ectx. do 2 f_equal. f_equal.
    set (k := Z.of_nat (length outs)) in *.
    destruct (ms_ipOut m =? L) eqn:Ei.
    - assert (ms_ipOut m = L) as Hi by lia.
      assert (Hk : k = (ms_oseg m + 1) * L) by lia.
      assert (Hm : k mod L = 0) by (rewrite Hk; apply Z.mod_mul; lia).
      assert (Hd : k / L = ms_oseg m + 1) by (rewrite Hk; apply Z.div_mul; lia).
      rewrite Hm, P15, Hi. replace (0 <? k) with true by nia. rewrite Hd.
      destruct chk; cbn [andb negb]; [lia|]. rewrite Z.eqb_refl. lia.
    - assert (Hd : k / L = ms_oseg m) by (symmetry; apply Z.div_unique with (ms_ipOut m); lia).
      assert (Hm : k mod L = ms_ipOut m) by (symmetry; apply Z.mod_unique with (ms_oseg m); lia).
      rewrite Hm, P15, Hd. rewrite Bool.andb_false_r.
      destruct (negb chk && (0 <? k) && (ms_ipOut m =? 0)) eqn:Eb; [|lia].
      exfalso. assert (outs <> []) as Ho by (intros ->; cbn in *; lia). specialize (Hnz Ho). lia. }
  rewrite P2, P3.
  repeat split; rewrite ?P5; cbn [segs nseg]; try done; try lia; by destruct P6.
Qed.
End Whole.
