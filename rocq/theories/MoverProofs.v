(** The mover loop computes a left-to-right pass over the stored items. *)
From Verif Require Import SapModel MoverModel SapProofs.
From Coq Require Import ZifyBool ZifyNat.
Ltac Zify.zify_post_hook ::= Z.div_mod_to_equations.

(** * A pass as a plain fold *)
Section Spec.
Context {A C : Type} (hk : hooks A C) (L : Z).

(** One particle: [i] is its index, [outs] the survivors so far, [ch] whether
    some earlier particle was dropped. *)
Definition spec_step (i : Z) (outs : list A) (ch : bool) (c : C) (p : A)
  : res (list A * bool * C) :=
  let! (q, c1) := adv hk c i p in
  if deleted hk q then let! c2 := on_drop hk c1 i p q in Ok (outs, true, c2)
  else let! c2 := on_keep hk c1 ch i (Z.of_nat (length outs)) q in Ok (outs ++ [q], ch, c2).

(** The pass; [seg] is the out segment in use. *)
Fixpoint spec_pass (i : Z) (outs : list A) (seg : Z) (ch : bool) (c : C) (xs : list A)
  : res (list A * Z * bool * C) :=
  match xs with
  | [] => Ok (outs, seg, ch, c)
  | p :: xs' =>
    let! (outs', ch', c') := spec_step i outs ch c p in
    spec_pass (i + 1) outs' (Z.of_nat (length outs) / L) ch' c' xs'
  end.

Lemma spec_pass_app i outs seg ch c xs ys :
  spec_pass i outs seg ch c (xs ++ ys) =
  match spec_pass i outs seg ch c xs with
  | Ok (outs', seg', ch', c') => spec_pass (i + Z.of_nat (length xs)) outs' seg' ch' c' ys
  | Raise e => Raise e
  end.
Proof.
  revert i outs seg ch c. induction xs as [|p xs IH]; intros i outs seg ch c.
  - simpl. by rewrite Z.add_0_r.
  - cbn [app spec_pass length]. destruct (spec_step i outs ch c p) as [[[o1 h1] c1]|e]; [|done].
    rewrite IH. destruct (spec_pass _ _ _ _ _ xs) as [[[[o2 s2] h2] c2]|e]; [|done].
    f_equal. lia.
Qed.

Lemma spec_step_length i outs ch c p outs' ch' c' :
  spec_step i outs ch c p = Ok (outs', ch', c') ->
  (length outs <= length outs' <= S (length outs))%nat.
Proof.
  unfold spec_step. destruct (adv hk c i p) as [[q c1]|e]; [|done].
  destruct (deleted hk q).
  - destruct (on_drop hk c1 i p q) as [c2|e]; [|done]. intros; simplify_eq. lia.
  - destruct (on_keep hk c1 ch i _ q) as [c2|e]; [|done]. intros; simplify_eq.
    rewrite app_length. simpl. lia.
Qed.

Lemma spec_pass_length i outs seg ch c xs outs' seg' ch' c' :
  spec_pass i outs seg ch c xs = Ok (outs', seg', ch', c') ->
  (length outs <= length outs' <= length outs + length xs)%nat.
Proof.
  revert i outs seg ch c. induction xs as [|p xs IH]; intros i outs seg ch c.
  - simpl. intros; simplify_eq. lia.
  - cbn [spec_pass length]. destruct (spec_step i outs ch c p) as [[[o1 h1] c1]|e] eqn:E; [|done].
    intros H. apply IH in H. apply spec_step_length in E. lia.
Qed.

Lemma spec_pass_seg i outs seg ch c xs outs' seg' ch' c' : 1 <= L ->
  spec_pass i outs seg ch c xs = Ok (outs', seg', ch', c') -> xs <> [] ->
  seg' * L <= Z.of_nat (length outs) + Z.of_nat (length xs) - 1.
Proof.
  intros HL. revert i outs seg ch c. induction xs as [|p xs IH]; intros i outs seg ch c H Hne; [done|].
  cbn [spec_pass length] in *. destruct (spec_step i outs ch c p) as [[[o1 h1] c1]|e] eqn:E; [|done].
  apply spec_step_length in E.
  destruct xs as [|p' xs].
  - cbn in H. simplify_eq. cbn. nia.
  - apply IH in H; [|done]. cbn [length] in *. lia.
Qed.
End Spec.

(** * Simulation *)
Section Sim.
Context {A C : Type} (ops : sap_ops A) (hk : hooks A C) (L N : Z) (HL : 1 <= L).
Implicit Types (m : mstate A C) (s : sap A).

(** Counters in range: what the container calls may rely on. *)
Record Bounded s : Prop := {
  b_len : slen s = L;
  b_wf : forall b, Wf L (arr s b);
  b_n : forall b, nseg (arr s b) <= N;
  b_fnf : forall b, 0 <= fnf (arr s b) < nseg (arr s b);
  b_fao : forall b, 0 <= fao (arr s b) <= L;
  b_cur : forall b, 0 <= cur (arr s b) < N
}.

(** The container calls agree with the Python container when the counters are in
    range.  (Trivial for the Python container itself.) *)
Context (agree_next_in : forall s, Bounded s -> op_next_in ops s = op_next_in (py_ops A) s).
Context (agree_next_out : forall s, Bounded s -> fnf (arr s (out_sa s)) + 1 < N ->
  op_next_out ops s = op_next_out (py_ops A) s).

Record PInv (ain : sarr A) (iarr : bool) (iseg nout0 : Z) m (outs : list A) : Prop := {
  pi_len : slen (ms_sap m) = L;
  pi_in : in_sa (ms_sap m) = iarr;
  pi_out : out_sa (ms_sap m) = negb iarr;
  pi_oarr : ms_oarr m = negb iarr;
  pi_ain : arr (ms_sap m) iarr = SArr (segs ain) (fnf ain) (fao ain) iseg (nseg ain);
  pi_wf : Wf L (arr (ms_sap m) (negb iarr));
  pi_pre : Prefix (arr (ms_sap m) (negb iarr)) outs;
  pi_fnf : fnf (arr (ms_sap m) (negb iarr)) = ms_oseg m;
  pi_fao : fao (arr (ms_sap m) (negb iarr)) = 0;
  pi_cur : cur (arr (ms_sap m) (negb iarr)) = ms_oseg m;
  pi_seg : 0 <= ms_oseg m;
  pi_nseg : nseg (arr (ms_sap m) (negb iarr)) = Z.max nout0 (ms_oseg m + 1);
  pi_ip : 0 <= ms_ipOut m <= L;
  pi_outs : Z.of_nat (length outs) = ms_oseg m * L + ms_ipOut m;
  pi_count : ms_count m = Z.of_nat (length outs) / L * L
}.

Definition simulates (ain : sarr A) iarr iseg nout0 (rm : res (mstate A C))
  (rs : res (list A * Z * bool * C)) : Prop :=
  match rs with
  | Raise e => rm = Raise e
  | Ok (outs, seg, ch, c) =>
    exists m, rm = Ok m /\ PInv ain iarr iseg nout0 m outs /\
      ms_oseg m = seg /\ ms_change m = ch /\ ms_ctx m = c
  end.

Context (ain : sarr A) (iarr : bool) (nout0 : Z) (xs : list A).
Context (Hain : Holds L ain xs) (Hn0 : nout0 <= N) (Hnin : nseg ain <= N).

Lemma PInv_bounded iseg m outs :
  0 <= iseg < nseg ain -> ms_oseg m <= iseg -> PInv ain iarr iseg nout0 m outs -> Bounded (ms_sap m).
Proof using HL Hain Hn0 Hnin.
  intros Hi Ho HP.
  pose proof (canon_nonneg L _ _ _ HL (Nat2Z.is_nonneg _) (h_canon _ _ _ Hain)) as [Hf0 Hfao].
  pose proof (Prefix_le L ain xs HL (h_wf _ _ _ Hain) (h_pre _ _ _ Hain)) as Hxs.
  pose proof (canon_sum L _ _ _ HL (h_canon _ _ _ Hain)) as Hsum.
  assert (Hfin : fnf ain < nseg ain).
  { destruct (h_canon _ _ _ Hain) as [(E1 & E2 & E3)|(E1 & E2 & E3)].
    - pose proof (wf_pos _ _ (h_wf _ _ _ Hain)). lia.
    - rewrite E2. apply Z.div_lt_upper_bound; lia. }
  assert (Hcase : forall b (P : sarr A -> Prop), P (arr (ms_sap m) iarr) -> P (arr (ms_sap m) (negb iarr)) -> P (arr (ms_sap m) b)).
  { intros b P H1 H2. destruct b, iarr; done. }
  destruct HP as [P1 P2 P3 P4 P5 P6 P7 P8 P9 P10 P11 P12 P13 P14 P15].
  split; [done|..]; intros b; pattern (arr (ms_sap m) b); apply Hcase; rewrite ?P5; cbn; try lia.
  - eapply Wf_ext; [..|exact (h_wf _ _ _ Hain)]; done.
  - done.
Qed.

(** Claiming an out slot ([if ipOut == segment_length: get_next_out_segment()]). *)
Lemma claim_slot iseg m outs ipIn :
  PInv ain iarr iseg nout0 m outs -> 0 <= iseg < nseg ain -> 0 <= ipIn < L ->
  Z.of_nat (length outs) <= iseg * L + ipIn ->
  exists m1,
    (if ms_ipOut m =? slen (ms_sap m) then
       let! (s1, seg) := op_next_out ops (ms_sap m) in
       Ok (MState s1 (out_sa s1) seg 0 (ms_count m) (ms_change m) (ms_ctx m))
     else Ok m) = Ok m1 /\ PInv ain iarr iseg nout0 m1 outs /\ ms_ipOut m1 < L /\
     ms_change m1 = ms_change m /\ ms_ctx m1 = ms_ctx m /\ ms_oseg m1 <= iseg.
Proof using HL Hain Hn0 Hnin agree_next_out.
  intros HP Hi Hip Hle.
  rewrite (pi_len _ _ _ _ _ _ HP).
    destruct (ms_ipOut m =? L) eqn:E.
    - assert (Hos : ms_oseg m + 1 <= iseg).
      { pose proof (pi_outs _ _ _ _ _ _ HP). nia. }
      rewrite agree_next_out.
      2: { eapply PInv_bounded; [exact Hi| lia |done]. }
      2: { rewrite (pi_out _ _ _ _ _ _ HP), (pi_fnf _ _ _ _ _ _ HP). lia. }
      destruct HP as [P1 P2 P3 P4 P5 P6 P7 P8 P9 P10 P11 P12 P13 P14 P15].
      cbn [op_next_out py_ops]. unfold get_next_out_segment.
      rewrite P3, P1. cbn [cur fnf fao nseg segs].
      set (ao := arr (ms_sap m) (negb iarr)) in *.
      destruct (cur ao + 1 <? nseg ao) eqn:Elt.
      + destruct (fnf ao + 1 <? nseg ao) eqn:Elt2; [|lia].
        cbn [cur fnf fao nseg segs].
        destruct (fnf ao + 1 =? cur ao + 1) eqn:Eq; [|lia].
        destruct (seg_lookup L ao (cur ao + 1) P6) as (v & _ & _ & Hg); [lia|].
        rewrite Hg. eexists. split; [reflexivity|].
        split; [|cbn; repeat split; lia].
        split; cbn [ms_sap ms_oarr ms_oseg ms_ipOut ms_count]; rewrite ?out_set, ?in_set, ?slen_set, ?arr_set_same; cbn [cur fnf fao nseg segs add_segment]; try done; try lia; try (eapply Wf_ext; [..|exact P6]; done); try (eapply Prefix_ext; [|exact P7]; done).
        * rewrite arr_set_other by (by destruct iarr). done.
      + cbn [add_segment cur fnf fao nseg segs].
        destruct (fnf ao + 1 =? cur ao + 1) eqn:Eq; [|lia].
        pose proof (add_segment_wf L ao HL P6) as HW'.
        destruct (seg_lookup L _ (cur ao + 1) HW') as (v & _ & _ & Hg).
        { unfold add_segment; cbn. pose proof (wf_pos _ _ P6). lia. }
        cbn [add_segment segs] in Hg. rewrite Hg. eexists. split; [reflexivity|].
        split; [|cbn; repeat split; lia].
        split; cbn [ms_sap ms_oarr ms_oseg ms_ipOut ms_count]; rewrite ?out_set, ?in_set, ?slen_set, ?arr_set_same; cbn [cur fnf fao nseg segs add_segment]; try done; try lia; try (eapply Wf_ext; [..|exact P6]; done); try (eapply Prefix_ext; [|exact P7]; done).
        * rewrite arr_set_other by (by destruct iarr). done.
        * eapply Wf_ext; [..|exact HW']; done.
        * destruct P7 as [junk Hj].
          pose proof (add_segment_flat L ao) as Hfl. unfold flat, add_segment in Hfl. cbn [segs] in Hfl.
          exists (junk ++ replicate (Z.to_nat L) None). unfold flat. cbn [segs add_segment].
          rewrite Hfl, app_assoc. f_equal. exact Hj.
    - eexists. split; [reflexivity|]. split; [done|].
      pose proof (pi_ip _ _ _ _ _ _ HP). pose proof (pi_outs _ _ _ _ _ _ HP).
      repeat split; try done; nia.
Qed.

Lemma mover_particle_sim iseg m outs ipIn p :
  PInv ain iarr iseg nout0 m outs -> 0 <= iseg < nseg ain -> 0 <= ipIn < L ->
  xs !! Z.to_nat (iseg * L + ipIn) = Some p ->
  Z.of_nat (length outs) <= iseg * L + ipIn ->
  simulates ain iarr iseg nout0 (mover_particle ops hk iarr iseg m ipIn)
    (match spec_step hk (iseg * L + ipIn) outs (ms_change m) (ms_ctx m) p with
     | Ok (o, h, c) => Ok (o, Z.of_nat (length outs) / L, h, c)
     | Raise e => Raise e end).
Proof using All.
  intros HP Hi Hip Hp Hle.
  destruct (claim_slot iseg m outs ipIn HP Hi Hip Hle) as (m1 & Em1 & HP1 & Hip1 & Hch & Hctx & Hos).
  unfold mover_particle. rewrite Em1. rewrite (pi_len _ _ _ _ _ _ HP).
  rewrite <- Hch, <- Hctx. clear Hch Hctx Em1 HP m. rename HP1 into HP.
  destruct HP as [P1 P2 P3 P4 P5 P6 P7 P8 P9 P10 P11 P12 P13 P14 P15].
  (* read *)
  assert (Hf : fetch (arr (ms_sap m1) iarr) iseg ipIn = Ok (Some p)).
  { rewrite P5. destruct (fetch_ok L (SArr (segs ain) (fnf ain) (fao ain) iseg (nseg ain)) iseg ipIn HL) as (x & Hx & Hfx).
    - eapply Wf_ext; [..|exact (h_wf _ _ _ Hain)]; done.
    - done.
    - done.
    - rewrite Hx. f_equal. pose proof (Prefix_lookup ain xs _ _ (h_pre _ _ _ Hain) Hp) as Hpl.
      unfold flat in *. cbn [segs] in Hfx. congruence. }
  rewrite Hf. clear Hf.
  rewrite P4, P3, P10, Bool.eqb_reflx, Z.eqb_refl. cbn [negb andb].
  unfold get_full_indices. rewrite P2, P3, P10, P5, P1. cbn [cur].
  unfold spec_step.
  destruct (adv hk (ms_ctx m1) (iseg * L + ipIn) p) as [[q c1]|e]; [|done].
  set (ao := arr (ms_sap m1) (negb iarr)) in *.
  destruct (store_ok L ao (ms_oseg m1) (ms_ipOut m1) (Some q) HL P6) as (ss & Hst & HWs & Hss); [lia|lia|].
  rewrite Hst. rewrite <- P14 in Hss. rewrite Nat2Z.id in Hss.
  assert (Hlt : (length outs < length (flat ao))%nat).
  { pose proof (wf_flat_length L ao HL P6). nia. }
  assert (Hdiv : Z.of_nat (length outs) / L = ms_oseg m1).
  { symmetry. apply Z.div_unique with (ms_ipOut m1); lia. }
  rewrite Hdiv.
  destruct (deleted hk q).
  - destruct (on_drop hk c1 (iseg * L + ipIn) p q) as [c2|e]; [|done].
    cbn [ms_ipOut ms_sap ms_oarr ms_oseg ms_count ms_change ms_ctx].
    destruct (ms_ipOut m1 =? L) eqn:E; [lia|].
    cbn. eexists. split; [reflexivity|].
    split; [|cbn; repeat split; lia].
    split; cbn [ms_sap ms_oarr ms_oseg ms_ipOut ms_count]; rewrite ?out_set, ?in_set, ?slen_set, ?arr_set_same; cbn [cur fnf fao nseg segs add_segment]; try done; try lia; try (eapply Wf_ext; [..|exact P6]; done); try (eapply Prefix_ext; [|exact P7]; done).
    + rewrite arr_set_other by (by destruct iarr). done.
    + eapply Prefix_beyond; [exact P7| |exact Hss]. lia.
  - rewrite P14.
    destruct (on_keep hk c1 (ms_change m1) (iseg * L + ipIn) (ms_oseg m1 * L + ms_ipOut m1) q) as [c2|e]; [|done].
    cbn [ms_ipOut ms_sap ms_oarr ms_oseg ms_count ms_change ms_ctx].
    assert (HPs : Prefix (SArr ss (fnf ao) (fao ao) (cur ao) (nseg ao)) (outs ++ [q])).
    { eapply Prefix_snoc; [exact P7|lia|exact Hss]. }
    destruct (ms_ipOut m1 + 1 =? L) eqn:E.
    + assert (HE : ms_ipOut m1 = L - 1) by lia. cbn. eexists. split; [reflexivity|].
      split; [|cbn; repeat split; lia].
      split; cbn [ms_sap ms_oarr ms_oseg ms_ipOut ms_count]; rewrite ?out_set, ?in_set, ?slen_set, ?arr_set_same; cbn [cur fnf fao nseg segs add_segment]; try done; try lia; try (eapply Wf_ext; [..|exact P6]; done); try (eapply Prefix_ext; [|exact P7]; done).
      * rewrite arr_set_other by (by destruct iarr). done.
      * rewrite app_length. cbn [length]. lia.
      * rewrite app_length. cbn [length].
        replace (Z.of_nat (length outs + 1)) with ((ms_oseg m1 + 1) * L) by lia.
        rewrite Z.div_mul by lia. rewrite P15, Hdiv. lia.
    + cbn. eexists. split; [reflexivity|].
      split; [|cbn; repeat split; lia].
      split; cbn [ms_sap ms_oarr ms_oseg ms_ipOut ms_count]; rewrite ?out_set, ?in_set, ?slen_set, ?arr_set_same; cbn [cur fnf fao nseg segs add_segment]; try done; try lia; try (eapply Wf_ext; [..|exact P6]; done); try (eapply Prefix_ext; [|exact P7]; done).
      * rewrite arr_set_other by (by destruct iarr). done.
      * rewrite app_length. cbn [length]. lia.
      * rewrite app_length. cbn [length]. rewrite P15, Hdiv. f_equal.
        apply Z.div_unique with (ms_ipOut m1 + 1); lia.
Qed.


Lemma mover_segment_sim k iseg m outs ipIn :
  PInv ain iarr iseg nout0 m outs -> 0 <= iseg < nseg ain -> 0 <= ipIn ->
  ipIn + Z.of_nat k <= L -> iseg * L + ipIn + Z.of_nat k <= Z.of_nat (length xs) ->
  Z.of_nat (length outs) <= iseg * L + ipIn ->
  simulates ain iarr iseg nout0 (mover_segment ops hk iarr iseg m ipIn k)
    (spec_pass hk L (iseg * L + ipIn) outs (ms_oseg m) (ms_change m) (ms_ctx m)
       (take k (drop (Z.to_nat (iseg * L + ipIn)) xs))).
Proof using All.
  revert m outs ipIn. induction k as [|k IH]; intros m outs ipIn HP Hi Hip HkL Hkn Hle.
  - simpl. exists m. done.
  - destruct (lookup_lt_is_Some_2 xs (Z.to_nat (iseg * L + ipIn))) as [p Hp]; [lia|].
    rewrite (drop_S _ _ _ Hp). cbn [take mover_segment].
    pose proof (mover_particle_sim iseg m outs ipIn p HP Hi ltac:(lia) Hp Hle) as Hs.
    cbn [spec_pass].
    destruct (spec_step hk (iseg * L + ipIn) outs (ms_change m) (ms_ctx m) p) as [[[o h] c]|e] eqn:Est.
    + destruct Hs as (m1 & E1 & HP1 & Eo & Eh & Ec). rewrite E1.
      apply spec_step_length in Est.
      specialize (IH m1 o (ipIn + 1) HP1 Hi ltac:(lia) ltac:(lia) ltac:(lia) ltac:(lia)).
      rewrite Eo, Eh, Ec in IH.
      replace (iseg * L + ipIn + 1) with (iseg * L + (ipIn + 1)) by lia.
      replace (S (Z.to_nat (iseg * L + ipIn))) with (Z.to_nat (iseg * L + (ipIn + 1))) by lia.
      exact IH.
    + simpl in Hs. rewrite Hs. done.
Qed.

Lemma fnf_bounds : xs <> [] -> 0 <= fnf ain < nseg ain /\ 1 <= fao ain <= L /\
  fnf ain * L + fao ain = Z.of_nat (length xs).
Proof using HL Hain.
  intros Hx. pose proof (Prefix_le L ain xs HL (h_wf _ _ _ Hain) (h_pre _ _ _ Hain)) as Hle.
  pose proof (canon_sum L _ _ _ HL (h_canon _ _ _ Hain)).
  assert (0 < length xs)%nat by (destruct xs; [done|simpl; lia]).
  destruct (h_canon _ _ _ Hain) as [(E1 & E2 & E3)|(E1 & E2 & E3)]; [lia|].
  split; [|split; [|done]].
  - split; [rewrite E2; apply Z.div_pos; lia|]. rewrite E2. apply Z.div_lt_upper_bound; [lia|]. nia.
  - rewrite E3. pose proof (Z.mod_pos_bound (Z.of_nat (length xs) - 1) L). lia.
Qed.

(** Number of items in in-segment [seg]. *)
Definition in_count (seg : Z) : Z := if seg =? fnf ain then fao ain else L.

Lemma next_in_ok iseg m outs :
  xs <> [] -> PInv ain iarr iseg nout0 m outs -> 0 <= iseg <= fnf ain -> ms_oseg m <= iseg ->
  exists s', op_next_in ops (ms_sap m) =
     Ok (s', if iseg + 1 <=? fnf ain then in_count (iseg + 1) else 0) /\
   PInv ain iarr (iseg + 1) nout0
     (MState s' (ms_oarr m) (ms_oseg m) (ms_ipOut m) (ms_count m) (ms_change m) (ms_ctx m)) outs.
Proof using All.
  intros Hx HP Hi Ho. destruct (fnf_bounds Hx) as (Hf & Ha & Hsum).
  rewrite agree_next_in by (eapply PInv_bounded; [..|exact HP]; lia).
  destruct HP as [P1 P2 P3 P4 P5 P6 P7 P8 P9 P10 P11 P12 P13 P14 P15].
  set (a1 := SArr (segs ain) (fnf ain) (fao ain) (iseg + 1) (nseg ain)).
  assert (HW : Wf L a1) by (eapply Wf_ext; [..|exact (h_wf _ _ _ Hain)]; done).
  exists (set_arr (ms_sap m) iarr a1). split.
  - cbn [py_ops op_next_in]. unfold get_next_segment, which. rewrite P2, P5, P1.
    cbn [segs fnf fao cur nseg]. fold a1. unfold in_count.
    destruct (iseg + 1 >? fnf ain) eqn:Egt.
    + destruct (iseg + 1 <=? fnf ain) eqn:Ele; [lia|]. done.
    + destruct (iseg + 1 <=? fnf ain) eqn:Ele; [|lia].
      rewrite (Z.eqb_sym (iseg + 1)).
      destruct (fnf ain =? iseg + 1) eqn:Eeq.
      * destruct (fao ain =? 0) eqn:Ez; [lia|].
        rewrite (slice_ok L) by (cbn; (done || lia)). done.
      * rewrite (slice_ok L) by (cbn; (done || lia)). done.
  - split; cbn [ms_sap ms_oarr ms_oseg ms_ipOut ms_count]; rewrite ?out_set, ?in_set, ?slen_set, ?arr_set_same; try done;
      rewrite arr_set_other by (by destruct iarr); done.
Qed.

Lemma mover_segments_sim fuel iseg m outs :
  xs <> [] -> PInv ain iarr iseg nout0 m outs -> 0 <= iseg <= fnf ain ->
  Z.of_nat (length outs) <= iseg * L -> fnf ain - iseg < Z.of_nat fuel ->
  simulates ain iarr (fnf ain + 1) nout0 (mover_segments ops hk fuel m iarr iseg (in_count iseg))
    (spec_pass hk L (iseg * L) outs (ms_oseg m) (ms_change m) (ms_ctx m)
       (drop (Z.to_nat (iseg * L)) xs)).
Proof using All.
  intros Hx. destruct (fnf_bounds Hx) as (Hf & Ha & Hsum).
  revert iseg m outs. induction fuel as [|fuel IH]; intros iseg m outs HP Hi Hle Hfuel; [lia|].
  cbn [mover_segments].
  assert (Hcnt : 1 <= in_count iseg <= L /\ iseg * L + in_count iseg <= Z.of_nat (length xs) /\
     (iseg = fnf ain -> iseg * L + in_count iseg = Z.of_nat (length xs)) /\
     (iseg <> fnf ain -> in_count iseg = L)).
  { unfold in_count. destruct (iseg =? fnf ain) eqn:E.
    - assert (iseg = fnf ain) as -> by lia. lia.
    - repeat split; try lia. nia. }
  destruct Hcnt as (Hc1 & Hc2 & Hc3 & Hc4).
  pose proof (mover_segment_sim (Z.to_nat (in_count iseg)) iseg m outs 0 HP ltac:(lia) ltac:(lia)
     ltac:(lia) ltac:(lia) ltac:(lia)) as Hseg.
  rewrite Z.add_0_r in Hseg.
  rewrite <- (take_drop (Z.to_nat (in_count iseg)) (drop (Z.to_nat (iseg * L)) xs)).
  rewrite spec_pass_app.
  destruct (spec_pass hk L (iseg * L) outs (ms_oseg m) (ms_change m) (ms_ctx m)
     (take (Z.to_nat (in_count iseg)) (drop (Z.to_nat (iseg * L)) xs))) as [[[[o sg] h] c]|e] eqn:Esp.
  2: { simpl in Hseg. rewrite Hseg. done. }
  destruct Hseg as (m1 & E1 & HP1 & Eo & Eh & Ec). rewrite E1.
  pose proof Esp as Esp0. apply spec_pass_length in Esp.
  assert (Htl : length (take (Z.to_nat (in_count iseg)) (drop (Z.to_nat (iseg * L)) xs)) = Z.to_nat (in_count iseg)).
  { rewrite take_length, drop_length. lia. }
  rewrite Htl in Esp |- *. rewrite drop_drop.
  replace (Z.to_nat (iseg * L) + Z.to_nat (in_count iseg))%nat with (Z.to_nat (iseg * L + in_count iseg)) by lia.
  rewrite Z2Nat.id by lia.
  assert (Hos : ms_oseg m1 <= iseg).
  { assert (sg * L <= Z.of_nat (length outs) + in_count iseg - 1).
    { pose proof (spec_pass_seg _ _ _ _ _ _ _ _ _ _ _ _ HL Esp0) as Hsg. rewrite Htl, Z2Nat.id in Hsg by lia.
      apply Hsg. intros E0. rewrite E0 in Htl. simpl in Htl. lia. }
    nia. }
  destruct (next_in_ok iseg m1 o Hx HP1 Hi Hos) as (s' & En & HP2). rewrite En.
  cbn [ms_sap ms_oarr ms_oseg ms_ipOut ms_count ms_change ms_ctx].
  destruct (iseg + 1 <=? fnf ain) eqn:Emore.
  - assert (Hne : iseg <> fnf ain) by lia. specialize (Hc4 Hne).
    assert (Hc' : 1 <= in_count (iseg + 1)).
    { unfold in_count. destruct (iseg + 1 =? fnf ain); lia. }
    destruct (in_count (iseg + 1) =? 0) eqn:Ez; [lia|].
    specialize (IH (iseg + 1) _ o HP2 ltac:(lia) ltac:(nia) ltac:(lia)).
    cbn [ms_sap ms_oarr ms_oseg ms_ipOut ms_count ms_change ms_ctx] in IH.
    rewrite Eo, Eh, Ec in IH.
    assert (Hcur : cur (arr s' iarr) = iseg + 1).
    { pose proof (pi_ain _ _ _ _ _ _ HP2) as Ha'. cbn [ms_sap] in Ha'. rewrite Ha'. done. }
    rewrite Hcur, Eo, Eh, Ec.
    replace (iseg * L + in_count iseg) with ((iseg + 1) * L) by (rewrite Hc4; lia).
    exact IH.
  - assert (Hlast : iseg = fnf ain) by lia. specialize (Hc3 Hlast).
    rewrite drop_ge by lia. cbn [spec_pass].
    rewrite Z.eqb_refl. eexists. split; [reflexivity|].
    rewrite <- Hlast. done.
Qed.
End Sim.

(** * The whole pass *)
Section Whole.
Context {A C : Type} (ops : sap_ops A) (hk : hooks A C) (L N : Z) (HL : 1 <= L).
Implicit Types (s : sap A).
Context (agree_next_in : forall s, Bounded L N s -> op_next_in ops s = op_next_in (py_ops A) s).
Context (agree_next_out : forall s, Bounded L N s -> fnf (arr s (out_sa s)) + 1 < N ->
  op_next_out ops s = op_next_out (py_ops A) s).

Lemma mover_whole s items cursor nin nout c :
  Live L s items cursor nin nout -> items <> [] -> nin <= N -> nout <= N ->
  op_init_inout ops s = init_inout_loop s ->
  match spec_pass hk L 0 [] 0 false c items with
  | Raise e => mover ops hk s c = Raise e
  | Ok (outs, seg, ch, c') =>
    exists s1,
      mover ops hk s c = Ok (op_set_out_count ops s1 (Z.of_nat (length outs)), c') /\
      slen s1 = L /\ out_sa s1 = negb (out_sa s) /\ in_sa s1 = out_sa s /\
      Wf L (arr s1 (out_sa s1)) /\ Prefix (arr s1 (out_sa s1)) outs /\
      cur (arr s1 (out_sa s1)) = seg /\ nseg (arr s1 (out_sa s1)) = Z.max nin (seg + 1) /\
      fnf (arr s1 (out_sa s1)) = seg /\ 0 <= seg < nout /\
      segs (arr s1 (in_sa s1)) = segs (arr s (out_sa s)) /\
      nseg (arr s1 (in_sa s1)) = nout /\
      (seg + 1) * L >= Z.of_nat (length outs)
  end.
Proof using All.
  intros HLive Hne Hni Hno Hinit.
  destruct HLive as [S1 S2 S3 S4 S5 S6 S7].
  set (ain := arr s (out_sa s)) in *.
  destruct (fnf_bounds L HL ain items S3 Hne) as (Hf & Ha & Hsum).
  unfold mover. rewrite Hinit. unfold init_inout_loop. rewrite S2, Bool.negb_involutive, S1.
  set (s3 := set_arr (set_arr (set_arr s false _) true _) (negb (out_sa s)) _).
  assert (Hin3 : arr s3 (out_sa s) = SArr (segs ain) (fnf ain) (fao ain) 0 (nseg ain)).
  { subst s3 ain. destruct (out_sa s); reflexivity. }
  assert (Hout3 : arr s3 (negb (out_sa s)) =
     SArr (segs (arr s (in_sa s))) 0 0 0 (nseg (arr s (in_sa s)))).
  { subst s3 ain. rewrite S2. destruct (out_sa s); reflexivity. }
  assert (Hlen3 : slen s3 = L).
  { subst s3. by rewrite !slen_set. }
  rewrite Hin3. cbn [fnf fao]. rewrite Hlen3.
  destruct ((fnf ain =? 0) && (fao ain =? 0)) eqn:E0; [lia|].
  set (last := if fnf ain =? 0 then fao ain else L).
  assert (Hlast : last = in_count L ain 0).
  { unfold last, in_count. rewrite (Z.eqb_sym 0). done. }
  rewrite (slice_ok L); [|done| |cbn; pose proof (wf_pos _ _ (h_wf _ _ _ S3)); lia|unfold last; destruct (fnf ain =? 0); lia].
  2: { eapply Wf_ext; [..|exact (h_wf _ _ _ S3)]; done. }
  set (s4 := Sap L (arr0 s3) (arr1 s3) (out_sa s) (negb (out_sa s))).
  assert (Harr4 : forall b, arr s4 b = arr s3 b) by (intros []; done).
  rewrite Harr4, Hout3. cbn [segs].
  destruct (seg_lookup L (arr s (in_sa s)) 0 S6) as (v & _ & _ & Hv); [pose proof (wf_pos _ _ S6); lia|].
  rewrite Hv.
  assert (HP0 : PInv L ain (out_sa s) 0 nin (MState s4 (out_sa s4) 0 0 0 false c) []).
  { split; cbn [ms_sap ms_oarr ms_oseg ms_ipOut ms_count]; rewrite ?Harr4, ?Hin3, ?Hout3; cbn [fnf fao cur nseg segs]; try done; try lia.
    - eapply Wf_ext; [..|exact S6]; done.
    - apply Prefix_nil.
    - pose proof (wf_pos _ _ S6). lia. }
  pose proof (mover_segments_sim ops hk L N HL agree_next_in agree_next_out ain (out_sa s) nin items S3
     ltac:(lia) ltac:(lia) (Z.to_nat (nseg (arr s4 (in_sa s4)) + 1)) 0 _ [] Hne HP0) as Hsim.
  cbn [ms_sap ms_oarr ms_oseg ms_ipOut ms_count ms_change ms_ctx] in Hsim.
  rewrite Hlast. change (in_sa s4) with (out_sa s) in *.
  rewrite Harr4, Hin3 in Hsim |- *. cbn [nseg] in Hsim |- *.
  specialize (Hsim ltac:(lia) ltac:(simpl; lia) ltac:(lia)).
  change (0 * L) with 0 in Hsim. change (Z.to_nat 0) with 0%nat in Hsim. rewrite drop_0 in Hsim.
  destruct (spec_pass hk L 0 [] 0 false c items) as [[[[outs seg] ch] c']|e] eqn:Esp.
  2: { unfold simulates in Hsim. rewrite Hsim. done. }
  destruct Hsim as (m & Em & HP & Eseg & Ech & Ectx).
  rewrite Em. destruct HP as [P1 P2 P3 P4 P5 P6 P7 P8 P9 P10 P11 P12 P13 P14 P15].
  exists (ms_sap m).
  assert (Hsegb : seg < nseg ain).
  { pose proof (spec_pass_seg hk L 0 [] 0 false c items outs seg ch c' HL Esp Hne) as Hb. simpl in Hb.
    pose proof (Prefix_le L ain items HL (h_wf _ _ _ S3) (h_pre _ _ _ S3)). nia. }
  split.
  { rewrite Ectx. do 2 f_equal. f_equal.
    destruct (negb (ms_ipOut m =? L)) eqn:Ei.
    - rewrite P15. rewrite P14. rewrite Z.div_add_l, Z.div_small by lia. lia.
    - assert (ms_ipOut m = L) as Hi by lia. rewrite P15, P14, Hi.
      replace (ms_oseg m * L + L) with ((ms_oseg m + 1) * L) by lia. rewrite Z.div_mul; lia. }
  rewrite P2, P3.
  repeat split; rewrite ?P5; cbn [segs nseg]; try done; try lia; by destruct P6.
Qed.
End Whole.

(** * The Python movers *)
Section Py.
Context {A C : Type} (hk : hooks A C) (L : Z) (HL : 1 <= L).
Implicit Types (s : sap A).

Lemma mover_py s items cursor nin nout c :
  Live L s items cursor nin nout -> items <> [] ->
  match spec_pass hk L 0 [] 0 false c items with
  | Raise e => mover (py_ops A) hk s c = Raise e
  | Ok (outs, seg, ch, c') =>
    exists s',
      mover (py_ops A) hk s c = Ok (s', c') /\
      out_sa s' = negb (out_sa s) /\
      segs (arr s' (in_sa s')) = segs (arr s (out_sa s)) /\
      (outs <> [] -> Live L s' outs seg nout (Z.max nin (seg + 1))) /\
      (outs = [] -> Dead L s' seg nout (Z.max nin (seg + 1)))
  end.
Proof using HL.
  intros HLive Hne.
  pose proof (mover_whole (py_ops A) hk L (Z.max nin nout) HL (fun _ _ => eq_refl) (fun _ _ _ => eq_refl)
    s items cursor nin nout c HLive Hne ltac:(lia) ltac:(lia) eq_refl) as H.
  destruct (spec_pass hk L 0 [] 0 false c items) as [[[[outs seg] ch] c']|e]; [|done].
  destruct H as (s1 & E & H1 & H2 & H3 & H4 & H5 & H6 & H7 & H8 & H9 & H10 & H11 & H12).
  rewrite E. cbn [py_ops op_set_out_count]. unfold set_number_of_items, which.
  eexists. split; [reflexivity|].
  assert (Hio : in_sa s1 <> out_sa s1) by (rewrite H2, H3; by destruct (out_sa s)).
  rewrite out_set, in_set. rewrite arr_set_other by (intros E'; by apply Hio).
  split; [done|]. split; [done|].
  assert (HW : forall f o, Wf L (SArr (segs (arr s1 (out_sa s1))) f o (cur (arr s1 (out_sa s1))) (nseg (arr s1 (out_sa s1))))).
  { intros f o. eapply Wf_ext; [..|exact H4]; done. }
  assert (HWin : Wf L (arr s1 (in_sa s1))).
  { eapply Wf_ext; [..|exact (h_wf _ _ _ (l_holds _ _ _ _ _ _ HLive))]; [done|].
    rewrite H11. apply (l_nout _ _ _ _ _ _ HLive). }
  split; intros Ho.
  - split; rewrite ?slen_set, ?in_set, ?out_set, ?arr_set_same; cbn [cur nseg fnf fao segs]; try done.
    + rewrite H2, H3. by destruct (out_sa s).
    + split; cbn [cur nseg fnf fao segs]; [apply HW| |].
      * eapply Prefix_ext; [|exact H5]. done.
      * right. assert (0 < length outs)%nat by (destruct outs; [done|simpl; lia]).
        rewrite H1. split; [lia|done].
    + rewrite arr_set_other by (intros E'; by apply Hio). done.
    + rewrite arr_set_other by (intros E'; by apply Hio). done.
  - subst outs. rewrite H1.
    change (Z.of_nat (length (@nil A))) with 0.
    assert (Hd : (0 - 1) / L = -1) by (symmetry; apply Z.div_unique with (L - 1); lia).
    assert (Hr : (0 - 1) mod L = L - 1) by (symmetry; apply Z.mod_unique with (-1); lia).
    rewrite Hd, Hr.
    split; rewrite ?slen_set, ?in_set, ?out_set, ?arr_set_same; cbn [cur nseg fnf fao segs]; try done; try lia.
    + rewrite H2, H3. by destruct (out_sa s).
    + rewrite arr_set_other by (intros E'; by apply Hio). done.
    + rewrite arr_set_other by (intros E'; by apply Hio). done.
Qed.
End Py.
