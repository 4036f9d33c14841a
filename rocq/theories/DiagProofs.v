(** The loop over the "out" segments, in terms of the stored particles. *)
From Verif Require Import SapModel MoverModel SapProofs MoverProofs SapSpec SapRefine StorageProps.
From Verif Require Import Vec VecProofs DiagModel.

(** The body applied to one segment after the other, each with its own length. *)
Fixpoint fold_blocks {A St} (body : St -> Z -> list (option A) -> res St) (st : St) (bs : list (list (option A))) : res St :=
  match bs with
  | [] => Ok st
  | b :: r => let! st1 := body st (Z.of_nat (length b)) b in fold_blocks body st1 r
  end.

Section OutLoop.
Context {A : Type} (L : Z) (HL : (1 <= L)%Z).

(** The promised length is the length of the slice. *)
Lemma next_len (s : sap A) a s1 n v : Rel L s a -> get_next_segment s false = Ok (s1, (n, Some v)) ->
  n = Z.of_nat (length v) /\ Rel L s1 (AState (a_items a) (a_dead a) (a_cursor a + 1) (a_nin a) (a_nout a)).
Proof.
  intros HR E. pose proof (loopnext_ok L HL s a HR) as H. pose proof HR as [Hcu _].
  destruct a as [items dead cu nin nout]. cbn [py_step a_step a_items a_dead a_cursor a_nin a_nout] in *.
  rewrite E in H. destruct H as (s2 & got & E1 & Hok & HR1). injection E1 as <- <-. split; [|done].
  destruct (_ <? _)%Z eqn:El; [|done]. cbn in Hok. destruct Hok as [<- HF]. apply Forall2_length in HF.
  rewrite fmap_length in HF.
  unfold SapSpec.block in HF.
  rewrite take_length, drop_length in HF.
  set (N := length items) in *. assert (0 <= (cu + 1) * L)%Z by nia. lia.
Qed.
Lemma next_rel (s : sap A) a s1 r : Rel L s a -> get_next_segment s false = Ok (s1, r) -> exists a1, Rel L s1 a1.
Proof.
  intros HR E. pose proof (loopnext_ok L HL s a HR) as H. destruct a as [items dead cu nin nout].
  cbn [py_step a_step] in H. rewrite E in H. destruct r as [n b].
  destruct H as (s2 & got & E1 & Hok & HR1). injection E1 as <- <-. eauto.
Qed.
Lemma rest_reach fuel : forall (s s' : sap A) bs, Reachable L s -> out_loop_rest fuel s = Ok (s', bs) -> Reachable L s'.
Proof.
  induction fuel as [|f IH]; intros s s' bs HR E; cbn [out_loop_rest] in E; [done|].
  destruct (get_next_segment s false) as [[s1 [n b]]|] eqn:En; [|done].
  assert (H1 : Reachable L s1) by (eapply (r_op L s LoopNext); [done|cbn; by rewrite En]).
  destruct b as [v|]; [|by injection E as <- <-].
  destruct (out_loop_rest f s1) as [[s2 vs]|] eqn:Er; [|done]. injection E as <- <-. by eapply IH.
Qed.
Lemma rest_fold {St} (body : St -> Z -> list (option A) -> res St) fuel : forall s s' a bs st, Rel L s a ->
  out_loop_rest fuel s = Ok (s', bs) ->
  for_out_rest body fuel s st = let! st1 := fold_blocks body st bs in Ok (s', st1).
Proof.
  induction fuel as [|f IH]; intros s s' a bs st HR E; cbn [out_loop_rest for_out_rest] in *; [done|].
  destruct (get_next_segment s false) as [[s1 [n b]]|] eqn:En; [|done].
  destruct b as [v|].
  - destruct (next_len _ _ _ _ _ HR En) as [-> HR1].
    destruct (out_loop_rest f s1) as [[s2 vs]|] eqn:Er; [|done]. injection E as <- <-. cbn [fold_blocks].
    destruct (body st _ v) as [st1|]; [|done]. by eapply IH.
  - injection E as <- <-. done.
Qed.

(** What a loop over the "out" segments does.  [blocks] are the slices that it visits.  Normally these are the stored
    items in order; for a species without items there are none, except that for a species whose items were all
    deleted there is one, with [L] slots. *)
Lemma for_out_blocks (s : sap A) xs : Reachable L s -> Stores s xs ->
  exists s' blocks, Reachable L s' /\ Stores s' xs /\
    (forall St (body : St -> Z -> list (option A) -> res St) st,
       for_out body s st = let! st1 := fold_blocks body st blocks in Ok (s', st1)) /\
    (if bool_decide (xs <> []) then concat blocks = map Some xs /\ Forall (fun b => b <> []) blocks
     else blocks = [] \/ exists v, blocks = [v] /\ Z.of_nat (length v) = L).
Proof.
  intros HRe Hs. destruct (reach_rel L HL s HRe) as [a Ha].
  pose proof (rel_stores_eq L HL s a xs Ha Hs) as <-. case_bool_decide as Hne.
  - destruct (out_loop_rel L HL s a Ha Hne) as (s' & bs & E & HR' & Hc & Hn & _).
    exists s', bs. unfold out_loop in E. unfold for_out.
    pose proof (loopstart_ok L HL s a Ha) as H. destruct a as [items dead cu nin nout].
    cbn [py_step a_step a_items] in *. pose proof Ha as [_ Ha']. cbn in Ha'. destruct dead; [by destruct Ha' as [-> _]|].
    destruct (init_out_loop s) as [[s1 [n b]]|] eqn:Ei; [|done].
    destruct H as (s2 & got & E1 & Hok & HR1). injection E1 as <- <-.
    assert (HRe1 : Reachable L s1) by (eapply (r_op L s LoopStart); [done|cbn; by rewrite Ei]).
    destruct (Z.of_nat (length items) =? 0)%Z eqn:E0; [destruct items; [done|cbn in E0; lia]|].
    destruct b as [v|]; [|done]. cbn in Hok. destruct Hok as [Hn0 HF]. apply Forall2_length in HF.
    rewrite fmap_length in HF. unfold SapSpec.block in HF. rewrite take_length, drop_length in HF.
    assert (Hlen : n = Z.of_nat (length v)) by lia.
    destruct (out_loop_rest _ s1) as [[s3 vs]|] eqn:Er; [|done]. injection E as <- <-.
    split; [by eapply rest_reach|]. split; [by apply (rel_stores L HL) in HR'|]. split; [|done].
    intros St body st. cbn [fold_blocks]. rewrite Hlen. destruct (body st _ v) as [st1|]; [|done].
    by eapply rest_fold.
  - assert (Hnil : a_items a = []) by (destruct (a_items a); [done|by destruct Hne]).
    pose proof (loopstart_ok L HL s a Ha) as H. destruct a as [items dead cu nin nout].
    cbn [py_step a_step a_items] in *. subst items.
    destruct (init_out_loop s) as [[s1 [n b]]|] eqn:Ei; [|by destruct H as (? & ? & ? & _)].
    destruct H as (s2 & got & E1 & Hok & HR1). injection E1 as <- <-.
    assert (HRe1 : Reachable L s1) by (eapply (r_op L s LoopStart); [done|cbn; by rewrite Ei]).
    destruct dead.
    + cbn in Hok. destruct b as [v|]; [|done]. destruct Hok as [<- HF]. apply Forall2_length in HF.
      rewrite replicate_length in HF. assert (Hlen : L = Z.of_nat (length v)) by lia.
      pose proof (loopnext_ok L HL s1 _ HR1) as H2. cbn [py_step a_step a_items] in H2.
      replace ((0 + 1) * L <? Z.of_nat (length []))%Z with false in H2 by (cbn; lia).
      destruct (get_next_segment s1 false) as [[s3 [n3 b3]]|] eqn:En; [|by destruct H2 as (? & ? & ? & _)].
      destruct H2 as (s4 & got & E4 & Hok4 & HR4). injection E4 as <- <-. cbn in Hok4. destruct b3 as [|]; [done|].
      assert (HRe3 : Reachable L s3) by (eapply (r_op L s1 LoopNext); [done|cbn; by rewrite En]).
      exists s3, [v]. split; [done|]. split; [by apply (rel_stores L HL) in HR4|]. split; [|right; by exists v].
      intros St body st. unfold for_out. rewrite Ei. cbn [fold_blocks]. rewrite Hlen.
      destruct (body st _ v) as [st1|]; [|done].
      assert (Hf : (1 <= Z.to_nat (nseg (arr s (out_sa s)) + 1))%nat).
      { destruct Ha as [_ [_ HD]]. destruct (d_wf _ _ _ _ _ HD). lia. }
      destruct (Z.to_nat (nseg (arr s (out_sa s)) + 1)) as [|f]; [lia|]. cbn [for_out_rest]. by rewrite En.
    + cbn in Hok. destruct b as [v|]; [done|]. exists s1, []. split; [done|].
      split; [by apply (rel_stores L HL) in HR1|]. split; [|by left].
      intros St body st. unfold for_out. by rewrite Ei.
Qed.

(** A container in which nothing was ever stored. *)
Inductive NeverPushed : sap A -> Prop :=
| np_new : NeverPushed (sap_init L)
| np_op s o s' r : NeverPushed s -> (forall x, o <> Push x) -> py_step s o = Ok (s', r) -> NeverPushed s'.
(** The container holds the items [xs], and did not lose its last item in a pass. *)
Definition Counted (s : sap A) (xs : list A) : Prop := Reachable L s /\ Stores s xs /\ (xs = [] -> NeverPushed s).

Lemma never_pushed_rel s : NeverPushed s -> exists a, Rel L s a /\ a_items a = [] /\ a_dead a = false.
Proof.
  induction 1 as [|s o s' r H (a & HR & Hi & Hd) Hno E]; [exists a_init; split; [apply Rel_init; exact HL|done]|].
  pose proof (step_refines L HL s a o HR) as Hs. destruct a as [items dead cu nin nout]. cbn in Hi, Hd. subst items dead.
  destruct (a_step L (AState [] false cu nin nout) o) as [[a' w]|e] eqn:Ea; [|congruence].
  destruct Hs as (s2 & got & E2 & _ & HR'). rewrite E in E2. injection E2 as <- <-. exists a'. split; [done|].
  destruct o; cbn in Ea; try (injection Ea as <- <-; done).
  - by destruct (Hno x).
  - destruct (slot_of _ i); [|done]. injection Ea as <- <-. done.
  - destruct (slot_of _ i); [|done]. injection Ea as <- <-. done.
Qed.

(** The loop over the "out" segments of such a container visits its items. *)
Lemma counted_loop (s : sap A) xs : Counted s xs ->
  exists s' blocks, Counted s' xs /\
    (forall St (body : St -> Z -> list (option A) -> res St) st,
       for_out body s st = let! st1 := fold_blocks body st blocks in Ok (s', st1)) /\
    concat blocks = map Some xs /\ Forall (fun b => b <> []) blocks.
Proof.
  intros (HRe & Hs & Hnp). destruct xs as [|x xs].
  - specialize (Hnp eq_refl). destruct (never_pushed_rel s Hnp) as (a & Ha & Hi & Hd).
    pose proof (loopstart_ok L HL s a Ha) as H. destruct a as [items dead cu nin nout].
    cbn [py_step a_step a_items a_dead] in *. subst items dead.
    destruct (init_out_loop s) as [[s1 [n b]]|] eqn:Ei; [|by destruct H as (? & ? & ? & _)].
    destruct H as (s2 & got & E1 & Hok & HR1). injection E1 as <- <-.
    cbn in Hok. destruct b as [v|]; [done|]. exists s1, []. split; [|split; [|done]].
    + split; [eapply (r_op L s LoopStart); [done|cbn; by rewrite Ei]|].
      split; [by apply (rel_stores L HL) in HR1|]. intros _. apply (np_op s LoopStart _ (OBlock n None) Hnp); [done|].
      cbn. by rewrite Ei.
    + intros St body st. unfold for_out. by rewrite Ei.
  - destruct (for_out_blocks s (x :: xs) HRe Hs) as (s' & bs & H1 & H2 & H3 & H4).
    rewrite bool_decide_eq_true_2 in H4 by done. exists s', bs. split; [|by split].
    split; [done|]. by split.
Qed.
End OutLoop.

(** Sums over the visited slices. *)
Lemma Rsum_app l1 l2 : Rsum (l1 ++ l2) = Rsum l1 + Rsum l2.
Proof.
  unfold Rsum. induction l1 as [|x l IH]; cbn [fold_right app]; [by rewrite Rplus_0_l|]. rewrite IH. by rewrite Rplus_assoc.
Qed.
Lemma fold_blocks_sum {A} (F : list (option A) -> R) bs : F [] = 0 -> (forall a b, F (a ++ b) = F a + F b) ->
  forall st, fold_blocks (fun st _ v => Ok (st + F v)) st bs = Ok (st + F (concat bs)).
Proof.
  intros H0 Ha. induction bs as [|b bs IH]; intros st; cbn [fold_blocks concat]; [by rewrite H0, Rplus_0_r|].
  rewrite IH, Ha. by rewrite Rplus_assoc.
Qed.
