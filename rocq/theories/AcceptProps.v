(** C46 and C47: when a species goes on accepting particles, and the first point of a new trajectory. *)
From Coq Require Import String.
From stdpp Require Import strings list_numbers.
From Verif Require Import SapModel MoverModel MoverProofs SapProofs SapSpec SapRefine StorageProps.
From Verif Require Import Vec VecProofs TrackModel TrajModel TrajProofs TrajProps DiagModel DiagProofs SumProps.
Local Open Scope Z_scope.
Ltac Zify.zify_post_hook ::= idtac.

(** The container accepts any number of further items. *)
Definition Accepts {A} (s : sap A) : Prop := forall ys, exists s' rs, push_all s ys = Ok (s', rs).

Section Accept.
Context {A : Type} (L : Z) (HL : 1 <= L).
Implicit Types (s : sap A) (a : astate A).

(** The segment that holds the last item (0 when there is none). *)
Definition last_segment (n : Z) : Z := Z.max 0 ((n - 1) / L).
(** Free slots in that segment. *)
Definition free_slots (n : Z) : Z := (last_segment n + 1) * L - n.

Lemma div_full n : 0 < n -> n mod L = 0 -> (n - 1) / L = n / L - 1 /\ n = L * (n / L) /\ 1 <= n / L.
Proof using HL.
  intros Hn Hm. pose proof (Z.div_mod n L ltac:(lia)) as E. rewrite Hm, Z.add_0_r in E.
  split; [symmetry; apply Z.div_unique with (L - 1); nia|]. split; [exact E|]. nia.
Qed.
Lemma div_part n : 0 < n -> n mod L <> 0 -> (n - 1) / L = n / L.
Proof using HL.
  intros Hn Hm. pose proof (Z.div_mod n L ltac:(lia)). pose proof (Z.mod_pos_bound n L ltac:(lia)).
  symmetry; apply Z.div_unique with (n mod L - 1); lia.
Qed.
Lemma div_minus : (0 - 1) / L = -1.
Proof using HL. symmetry. apply Z.div_unique with (L - 1); lia. Qed.

Lemma push_live s a x : Rel L s a -> a_dead a = false ->
  let n := Z.of_nat (length (a_items a)) in
  if (0 <? n) && (n mod L =? 0) && negb (a_cursor a + 1 =? n / L) then push_back s x = Raise AssertionError
  else exists s' nout, push_back s x = Ok (s', (n mod L, n)) /\
    Rel L s' (AState (a_items a ++ [x]) false (if (0 <? n) && (n mod L =? 0) then n / L else a_cursor a) (a_nin a) nout).
Proof using HL.
  intros HR Hd n. pose proof (push_ok L HL s a x HR) as H. destruct a as [items dead cu nin nout]. cbn in Hd. subst dead.
  unfold py_step, a_step, push_refused in H. cbn [a_items a_dead a_cursor a_nin orb] in *. fold n in H.
  destruct ((0 <? n) && (n mod L =? 0)) eqn:E; cbn [andb] in *.
  - destruct (negb _).
    + cbn in H. destruct (push_back s x) as [[s1 [o i]]|]; [discriminate|]. congruence.
    + destruct H as (s1 & got & E1 & Hok & HR1). destruct (push_back s x) as [[s2 [o i]]|]; [|discriminate].
      injection E1 as <- <-. destruct Hok as [<- <-]. eexists _, _. split; [|exact HR1]. do 3 f_equal. lia.
  - destruct H as (s1 & got & E1 & Hok & HR1). destruct (push_back s x) as [[s2 [o i]]|]; [|discriminate].
    injection E1 as <- <-. destruct Hok as [<- <-]. eexists _, _. split; [reflexivity|exact HR1].
Qed.

(** With the cursor on the last segment everything is accepted; otherwise only what fits into that segment. *)
Lemma push_all_good ys : forall s a, Rel L s a -> a_dead a = false ->
  a_cursor a = last_segment (Z.of_nat (length (a_items a))) ->
  exists s' rs a', push_all s ys = Ok (s', rs) /\ Rel L s' a' /\ a_items a' = a_items a ++ ys /\ a_dead a' = false /\
    a_cursor a' = last_segment (Z.of_nat (length (a_items a'))).
Proof using HL.
  unfold last_segment. induction ys as [|y ys IH]; intros s a HR Hd Hc; cbn [push_all].
  - exists s, [], a. rewrite app_nil_r. by repeat split; try apply HR.
  - pose proof (push_live s a y HR Hd) as H. cbv zeta in H. set (n := Z.of_nat (length (a_items a))) in *.
    assert (Href : (0 <? n) && (n mod L =? 0) && negb (a_cursor a + 1 =? n / L) = false).
    { destruct ((0 <? n) && (n mod L =? 0)) eqn:E; [|done]. cbn [andb].
      destruct (div_full n ltac:(lia) ltac:(lia)) as (? & ? & ?). lia. }
    rewrite Href in H. destruct H as (s1 & nout & E1 & HR1). rewrite E1.
    destruct (IH s1 _ HR1 eq_refl) as (s2 & rs & a2 & E2 & HR2 & Hi & Hd2 & Hc2).
    { cbn [a_cursor a_items]. rewrite app_length. cbn [length].
      replace (Z.of_nat (length (a_items a) + 1)) with (n + 1) by lia. replace (n + 1 - 1) with n by lia.
      pose proof (Z.div_pos n L ltac:(lia) ltac:(lia)). destruct ((0 <? n) && (n mod L =? 0)) eqn:E; [lia|].
      destruct (Z.eq_dec n 0) as [E0|E0]; [rewrite Hc, E0, Z.div_0_l, div_minus by lia; reflexivity|].
      pose proof (div_part n ltac:(lia) ltac:(lia)). lia. }
    rewrite E2. exists s2, ((n mod L, n) :: rs), a2. split; [reflexivity|]. split; [exact HR2|].
    split; [rewrite Hi; cbn [a_items]; by rewrite <- app_assoc|]. by split.
Qed.
Lemma push_all_bad ys : forall s a, Rel L s a -> a_dead a = false ->
  a_cursor a <> last_segment (Z.of_nat (length (a_items a))) ->
  if Z.of_nat (length ys) <=? free_slots (Z.of_nat (length (a_items a)))
  then exists s' rs a', push_all s ys = Ok (s', rs) /\ Rel L s' a' /\ a_items a' = a_items a ++ ys
  else push_all s ys = Raise AssertionError.
Proof using HL.
  unfold free_slots, last_segment. induction ys as [|y ys IH]; intros s a HR Hd Hc; cbn [push_all].
  - set (n := Z.of_nat (length (a_items a))) in *. cbn [length].
    replace (Z.of_nat 0 <=? _) with true.
    + exists s, [], a. rewrite app_nil_r. by repeat split; try apply HR.
    + symmetry. apply Z.leb_le. assert (n - 1 = L * ((n - 1) / L) + (n - 1) mod L) by (apply Z.div_mod; lia).
      pose proof (Z.mod_pos_bound (n - 1) L). nia.
  - pose proof (push_live s a y HR Hd) as H. cbv zeta in H. set (n := Z.of_nat (length (a_items a))) in *.
    assert (Hn : 0 <= n) by lia.
    assert (Hdm : n - 1 = L * ((n - 1) / L) + (n - 1) mod L) by (apply Z.div_mod; lia).
    pose proof (Z.mod_pos_bound (n - 1) L).
    destruct ((0 <? n) && (n mod L =? 0)) eqn:E; cbn [andb] in H.
    + destruct (div_full n ltac:(lia) ltac:(lia)) as (? & ? & ?).
      replace (negb (a_cursor a + 1 =? n / L)) with true in H by lia. rewrite H.
      replace (Z.of_nat (length (y :: ys)) <=? _) with false; [reflexivity|]. cbn [length]. nia.
    + destruct H as (s1 & nout & E1 & HR1). rewrite E1.
      assert (Hls : Z.max 0 ((n + 1 - 1) / L) = Z.max 0 ((n - 1) / L)).
      { replace (n + 1 - 1) with n by lia. destruct (Z.eq_dec n 0) as [E0|E0].
        - rewrite E0, Z.div_0_l, div_minus by lia. reflexivity.
        - pose proof (div_part n ltac:(lia) ltac:(lia)). lia. }
      specialize (IH s1 _ HR1 eq_refl). cbn [a_cursor a_items] in IH. rewrite app_length in IH. cbn [length] in IH.
      replace (Z.of_nat (length (a_items a) + 1)) with (n + 1) in IH by lia. rewrite Hls in IH. specialize (IH Hc).
      cbn [length].
      replace (Z.of_nat (S (length ys)) <=? (Z.max 0 ((n - 1) / L) + 1) * L - n)
        with (Z.of_nat (length ys) <=? (Z.max 0 ((n - 1) / L) + 1) * L - (n + 1)) by lia.
      destruct (_ <=? _).
      * destruct IH as (s2 & rs & a2 & E2 & HR2 & Hi). rewrite E2. exists s2, ((n mod L, n) :: rs), a2.
        split; [reflexivity|]. split; [exact HR2|]. rewrite Hi. by rewrite <- app_assoc.
      * rewrite IH. reflexivity.
Qed.
Lemma accepts_cursor s a (x : A) : Rel L s a -> Accepts s ->
  a_dead a = false /\ a_cursor a = last_segment (Z.of_nat (length (a_items a))).
Proof using HL.
  intros HR HA. destruct (a_dead a) eqn:Hd.
  - exfalso. destruct (HA [x]) as (s' & rs & E). cbn in E. pose proof (push_ok L HL s a x HR) as H.
    destruct a as [items dead cu nin nout]. cbn in Hd. subst dead. unfold py_step, a_step, push_refused in H. cbn in H.
    destruct (push_back s x) as [[? [? ?]]|]; discriminate.
  - split; [reflexivity|]. destruct (Z.eq_dec (a_cursor a) (last_segment (Z.of_nat (length (a_items a))))) as [|Hn]; [assumption|].
    exfalso. set (k := S (Z.to_nat (free_slots (Z.of_nat (length (a_items a)))))).
    pose proof (push_all_bad (replicate k x) s a HR Hd Hn) as H. rewrite replicate_length in H.
    replace (Z.of_nat k <=? _) with false in H by lia. destruct (HA (replicate k x)) as (s' & rs & E). congruence.
Qed.

(** Reading through the current "out" segment right after [push_back]. *)
Lemma current_item s a (k : nat) x : Rel L s a -> a_dead a = false -> a_cursor a = Z.of_nat k / L ->
  a_items a !! k = Some x -> current_out_item s (Z.of_nat k mod L) = Ok (Some x).
Proof using HL.
  intros HR Hd Hc Hk. pose proof (rel_get L HL s a k x HR Hk) as G. destruct HR as [_ HLv]. rewrite Hd in HLv.
  unfold get_item in G. rewrite (l_len _ _ _ _ _ _ HLv) in G. unfold current_out_item.
  by rewrite (l_cur _ _ _ _ _ _ HLv), Hc.
Qed.
Lemma push_current s xs x : Reachable L s -> Stores s xs -> Accepts s ->
  let n := Z.of_nat (length xs) in
  exists s', push_back s x = Ok (s', (n mod L, n)) /\ Reachable L s' /\ Stores s' (xs ++ [x]) /\ Accepts s' /\
    current_out_item s' (n mod L) = Ok (Some x).
Proof using HL.
  intros HRe HS HA n. destruct (reach_rel L HL s HRe) as [a HR]. pose proof (rel_stores_eq L HL s a xs HR HS) as Hi.
  destruct (accepts_cursor s a x HR HA) as [Hd Hc].
  destruct (push_all_good [x] s a HR Hd Hc) as (s1 & rs & a1 & E & HR1 & Hi1 & Hd1 & Hc1). cbn in E.
  pose proof (push_live s a x HR Hd) as H. cbv zeta in H. rewrite Hi in *. fold n in H.
  destruct ((0 <? n) && (n mod L =? 0) && _).
  { rewrite H in E. discriminate. }
  destruct H as (s2 & nout & E2 & _). rewrite E2 in E. injection E as <- _. exists s2.
  assert (HRe2 : Reachable L s2).
  { eapply (r_op L s (SapSpec.Push x)); [exact HRe|]. unfold py_step. rewrite E2. reflexivity. }
  split; [exact E2|]. split; [exact HRe2|].
  split; [rewrite <- Hi1; by apply (rel_stores L HL)|]. split.
  - intros ys. destruct (push_all_good ys s2 a1 HR1 Hd1 Hc1) as (s3 & rs3 & _ & E3 & _). eauto.
  - apply (current_item s2 a1 (length xs) x HR1 Hd1).
    + rewrite Hc1, Hi1, app_length. unfold last_segment. cbn [length].
      replace (Z.of_nat (length xs + 1) - 1) with n by lia. fold n. pose proof (Z.div_pos n L ltac:(lia) ltac:(lia)). lia.
    + rewrite Hi1. rewrite lookup_app_r, Nat.sub_diag by lia. reflexivity.
Qed.
End Accept.

(** ** C47: which containers accept further items *)

(** A new container does, and goes on doing so while items are stored. *)
Theorem C47_new_accepts {A} (L : Z) : 1 <= L -> Accepts (sap_init (A:=A) L).
Proof.
  intros HL ys. destruct (push_all_good L HL ys _ _ (Rel_init L HL) eq_refl) as (s & rs & _ & E & _); [|eauto].
  unfold last_segment. cbn [a_cursor a_items a_init length]. change (Z.of_nat 0) with 0. rewrite (div_minus L HL). reflexivity.
Qed.
Theorem C47_push_accepts {A} (L : Z) (s : sap A) x s' r : Accepts s -> push_back s x = Ok (s', r) -> Accepts s'.
Proof.
  intros HA E ys. destruct (HA (x :: ys)) as (s2 & rs & E2). cbn in E2. rewrite E in E2.
  destruct (push_all s' ys) as [[s3 rs3]|]; [eauto|discriminate].
Qed.

(** After a mover pass over [ys ++ [z]] that leaves [k > 0] items, it does unless [L] divides [k] and [z] was deleted. *)
Theorem C47_pass_accepts {A} (L : Z) (s : sap A) ys z g del s' : 1 <= L ->
  Reachable L s -> Stores s (ys ++ [z]) -> py_step s (Pass g del) = Ok (s', ODone) -> 0 < get_number_of_items s' ->
  (Accepts s' <-> ~ (get_number_of_items s' mod L = 0 /\ del (g z) = true)).
Proof.
  intros HL HR Hs Ep Hpos. destruct (reach_rel L HL s HR) as [a Ha]. pose proof (rel_stores_eq L HL s a _ Ha Hs) as Ei.
  pose proof (C06_push_after_pass L s ys z g del s' z HL HR Hs Ep Hpos) as H6.
  split.
  - intros HA Hb. apply H6 in Hb. destruct (HA [z]) as (s2 & rs & E). cbn in E. rewrite Hb in E. discriminate.
  - intros Hnb. pose proof (pass_ok L HL s a g del Ha) as H. rewrite Ep in H. destruct a as [items dead cu nin nout].
    cbn [a_step a_items] in *. subst items.
    destruct (Z.of_nat (length (ys ++ [z])) =? 0) eqn:E0; [rewrite app_length in E0; cbn in E0; lia|].
    destruct H as (s1 & got & E & Hok & HR'). injection E as <- <-.
    pose proof (rel_count L HL _ _ HR') as Hcnt. cbn [a_items] in Hcnt. rewrite removelast_last in HR'.
    assert (Hsp : SapSpec.survivors g del (ys ++ [z]) = SapSpec.survivors g del ys ++ (if del (g z) then [] else [g z])).
    { unfold SapSpec.survivors. rewrite map_app, List.filter_app. cbn. by destruct (del (g z)). }
    intros vs. edestruct (push_all_good L HL vs _ _ HR') as (s2 & rs & _ & E2 & _).
    + cbn [a_dead]. destruct (SapSpec.survivors g del (ys ++ [z])); [cbn in Hcnt; lia|reflexivity].
    + cbn [a_cursor a_items]. rewrite Hsp, app_length. unfold last_segment. rewrite Hsp, app_length in Hcnt.
      set (m := Z.of_nat (length (SapSpec.survivors g del ys))) in *. pose proof (Z.div_pos m L ltac:(lia) ltac:(lia)).
      destruct (del (g z)).
      * cbn [length] in *. rewrite Nat.add_0_r in *. fold m. fold m in Hcnt. rewrite Hcnt in Hnb, Hpos.
        pose proof (div_part L HL m ltac:(lia) ltac:(lia)). lia.
      * cbn [length] in *. replace (Z.of_nat (length (SapSpec.survivors g del ys) + 1) - 1) with m by lia. lia.
    + eauto.
Qed.

(** The fates of the particles of a pass, for contexts that satisfy an invariant [I] of the mover. *)
Definition Keeps {A C} (I : C -> Prop) (hk : hooks A C) : Prop :=
  (forall c i p q c1, I c -> adv hk c i p = Ok (q, c1) -> I c1) /\
  (forall c ch i j q c1, I c -> on_keep hk c ch i j q = Ok c1 -> I c1) /\
  (forall c i p q c1, I c -> on_drop hk c i p q = Ok c1 -> I c1).
Lemma seq_pass_fate_inv {A C} (I : C -> Prop) (hk : hooks A C) xs : Keeps I hk -> forall i kept ch c ys c', I c ->
  seq_pass hk i kept ch c xs = Ok (ys, c') ->
  exists fate, ys = kept ++ TrajProofs.survivors fate /\ I c' /\
    Forall2 (fun p r => exists c i q c1, I c /\ adv hk c i p = Ok (q, c1) /\ r = if deleted hk q then None else Some q) xs fate.
Proof.
  intros (K1 & K2 & K3). induction xs as [|p xs IH]; intros i kept ch c ys c' Hc E; cbn [seq_pass] in E.
  - injection E as <- <-. exists []. rewrite app_nil_r. split; [reflexivity|]. split; [exact Hc|constructor].
  - destruct (adv hk c i p) as [[q c1]|] eqn:Ea; [|discriminate]. pose proof (K1 _ _ _ _ _ Hc Ea) as Hc1. destruct (deleted hk q) eqn:Ed.
    + destruct (on_drop hk c1 i p q) as [c2|] eqn:E2; [|discriminate]. apply IH in E as (fate & -> & Hc' & HF); [|by eapply K3].
      exists (None :: fate). split; [reflexivity|]. split; [exact Hc'|]. constructor; [|exact HF]. exists c, i, q, c1. by rewrite Ed.
    + destruct (on_keep hk c1 ch i _ q) as [c2|] eqn:E2; [|discriminate]. apply IH in E as (fate & -> & Hc' & HF); [|by eapply K2].
      exists (Some q :: fate). split; [by rewrite <- app_assoc|]. split; [exact Hc'|]. constructor; [|exact HF]. exists c, i, q, c1. by rewrite Ed.
Qed.

(** The same for any mover, with the fates of the particles: the container refuses the next particle exactly when the segment
    length divides the number of survivors (in particular when there is none) and the last particle was deleted. *)
Theorem C47_mover_accepts {A C} (L : Z) (I : C -> Prop) (hk : hooks A C) (s : sap A) ys z c s' c' : 1 <= L ->
  Keeps I hk -> I c -> Reachable L s -> Stores s (ys ++ [z]) -> guarded_mover (py_ops A) hk s c = Ok (s', c') ->
  exists fate r,
    Forall2 (fun p r => exists c i q c1, I c /\ adv hk c i p = Ok (q, c1) /\ r = if deleted hk q then None else Some q) (ys ++ [z]) (fate ++ [r]) /\
    Stores s' (TrajProofs.survivors (fate ++ [r])) /\
    if (Z.of_nat (length (TrajProofs.survivors (fate ++ [r]))) mod L =? 0) && (match r with None => true | Some _ => false end)
    then forall x, push_back s' x = Raise AssertionError
    else Accepts s'.
Proof.
  intros HL HK HI HR Hs E. destruct (reach_rel L HL s HR) as [a Ha]. pose proof (rel_stores_eq L HL s a _ Ha Hs) as Ei.
  destruct a as [items dead cu nin nout]. cbn [a_items] in Ei. subst items.
  destruct Ha as [Hc Hl]. cbn in Hc, Hl. destruct dead; [destruct Hl as [Hl _]; by destruct ys|].
  assert (Hne : ys ++ [z] <> []) by (by destruct ys). pose proof (mover_py hk L HL s _ cu nin nout c Hl Hne) as HM.
  unfold guarded_mover in E. destruct Hs as [Hn _]. rewrite Hn in E.
  destruct (Z.of_nat (length (ys ++ [z])) =? 0) eqn:E0; [rewrite app_length in E0; cbn in E0; lia|]. clear E0 Hn.
  destruct (spec_pass hk L 0 [] 0 false c (ys ++ [z])) as [[[[outs seg] ch] c2]|e] eqn:Esp; [|congruence].
  destruct HM as (s1 & Em & _ & _ & HLv & HD). rewrite E in Em. injection Em as <- <-.
  rewrite spec_pass_app in Esp. destruct (spec_pass hk L 0 [] 0 false c ys) as [[[[o1 sg1] h1] c1]|e] eqn:E1; [|discriminate].
  cbn [spec_pass] in Esp. destruct (spec_step hk _ o1 h1 c1 z) as [[[o2 h2] c3]|e] eqn:E2; [|discriminate]. injection Esp as -> <- -> ->.
  assert (E1' : seq_pass hk 0 [] false c ys = Ok (o1, c1)) by (rewrite (spec_pass_seq L hk ys 0 [] 0 false c), E1; reflexivity).
  apply (seq_pass_fate_inv I) in E1' as (fate & -> & HI1 & HF); [|exact HK|exact HI]. cbn [app] in *.
  assert (Hr : exists r, (exists c i q c1, I c /\ adv hk c i z = Ok (q, c1) /\ r = if deleted hk q then None else Some q) /\
    outs = TrajProofs.survivors (fate ++ [r])).
  { unfold spec_step in E2. destruct (adv hk c1 _ z) as [[q c4]|] eqn:Ea; [|discriminate].
    exists (if deleted hk q then None else Some q). split; [by eexists _, _, q, c4|]. rewrite TrajProofs.survivors_app.
    destruct (deleted hk q).
    - destruct (on_drop _ _ _ _ _); [|discriminate]. injection E2 as <- <- <-. cbn. by rewrite app_nil_r.
    - destruct (on_keep _ _ _ _ _ _); [|discriminate]. injection E2 as <- <- <-. reflexivity. }
  destruct Hr as (r & Hr & Ho). exists fate, r. split; [apply Forall2_app; [exact HF|by constructor]|].
  rewrite <- Ho. set (m := Z.of_nat (length (TrajProofs.survivors fate))) in *.
  assert (Hk : Z.of_nat (length outs) = m + match r with None => 0 | Some _ => 1 end).
  { rewrite Ho, TrajProofs.survivors_app, app_length. destruct r; cbn; lia. }
  pose proof (Z.div_pos m L ltac:(lia) ltac:(lia)).
  destruct outs as [|y outs].
  - assert (HR' : Rel L s' (AState [] true (m / L) nout (Z.max nin (m / L + 1)))).
    { split; [done|]. cbn. split; [done|]. by apply HD. }
    split; [by apply (rel_stores L HL) in HR'|]. change (Z.of_nat (length [])) with 0 in *.
    destruct r; [lia|]. rewrite Zmod_0_l. cbn [Z.eqb andb]. intros x. pose proof (push_ok L HL _ _ x HR') as H0.
    cbn [py_step a_step] in H0. unfold push_refused in H0. cbn in H0. destruct (push_back s' x) as [[s2 [o i]]|e]; [done|congruence].
  - assert (HR' : Rel L s' (AState (y :: outs) false (m / L) nout (Z.max nin (m / L + 1)))).
    { split; [done|]. cbn. by apply HLv. }
    split; [by apply (rel_stores L HL) in HR'|]. set (ls := y :: outs) in *.
    assert (Hpos : 0 < Z.of_nat (length ls)) by (subst ls; cbn; lia).
    destruct ((Z.of_nat (length ls) mod L =? 0) && _) eqn:Eb.
    + intros x. pose proof (push_live L HL s' _ x HR' eq_refl) as H0. cbv zeta in H0. cbn [a_items a_cursor] in H0.
      destruct r; [rewrite andb_false_r in Eb; discriminate|]. rewrite andb_true_r in Eb.
      replace (m / L + 1 =? Z.of_nat (length ls) / L) with false in H0 by (rewrite Hk, Z.add_0_r; lia).
      replace ((0 <? Z.of_nat (length ls)) && (Z.of_nat (length ls) mod L =? 0) && negb false) with true in H0 by (rewrite Eb; lia).
      exact H0.
    + intros vs. edestruct (push_all_good L HL vs _ _ HR' eq_refl) as (s2 & rs & _ & E3 & _); [|eauto].
      cbn [a_cursor a_items]. unfold last_segment. destruct r.
      * rewrite Hk. replace (m + 1 - 1) with m by lia. lia.
      * rewrite andb_true_r in Eb. pose proof (div_part L HL _ Hpos ltac:(lia)). rewrite Hk, Z.add_0_r in *. lia.
Qed.

(** After a complete loop over the "out" segments of a species with particles (a sum, a density, an output file) it does
    not: only the free slots of the last segment can be filled; one item more is an AssertionError. *)
Theorem C47_loop_stops_accepting {A} (L : Z) (s : sap A) xs s' blocks : 1 <= L ->
  Reachable L s -> Stores s xs -> xs <> [] -> out_loop s = Ok (s', blocks) ->
  forall ys, let free := - Z.of_nat (length xs) mod L in
    if Z.of_nat (length ys) <=? free
    then exists s'' rs, push_all s' ys = Ok (s'', rs) /\ Stores s'' (xs ++ ys)
    else push_all s' ys = Raise AssertionError.
Proof.
  intros HL HR Hs Hne E ys free. destruct (reach_rel L HL s HR) as [a Ha].
  pose proof (rel_stores_eq L HL s a xs Ha Hs) as <-.
  destruct (out_loop_rel L HL s a Ha Hne) as (s1 & bs & E1 & HR' & _). rewrite E in E1. injection E1 as <- <-.
  set (n := Z.of_nat (length (a_items a))) in *.
  assert (Hn : 0 < n) by (subst n; destruct (a_items a); [done|cbn; lia]).
  pose proof (push_all_bad L HL ys s' _ HR' eq_refl) as H. cbn [a_items a_cursor] in H. fold n in H.
  unfold free_slots, last_segment in H. subst free.
  assert (Hdm : n - 1 = L * ((n - 1) / L) + (n - 1) mod L) by (apply Z.div_mod; lia).
  pose proof (Z.mod_pos_bound (n - 1) L ltac:(lia)). pose proof (Z.div_pos (n - 1) L ltac:(lia) ltac:(lia)).
  assert (Hq : (n + L - 1) / L = (n - 1) / L + 1).
  { replace (n + L - 1) with (n - 1 + 1 * L) by lia. rewrite Z.div_add by lia. reflexivity. }
  assert (Hf : - n mod L = (Z.max 0 ((n - 1) / L) + 1) * L - n).
  { symmetry. apply Z.mod_unique with (- ((n - 1) / L) - 1); nia. }
  rewrite Hf. specialize (H ltac:(lia)).
  destruct (_ <=? _); [|exact H]. destruct H as (s2 & rs & a2 & E2 & HR2 & Hi). exists s2, rs. split; [exact E2|].
  rewrite <- Hi. by apply (rel_stores L HL).
Qed.
Example C47_example :
  let s := snd (run py_step (sap_init 4) [Push 1; Push 2; Push 3; Push 4; Push 5; Push 6]) in
  match out_loop s with
  | Ok (s', _) =>
    (exists s'', push_all s' [7; 8] = Ok (s'', [(2, 6); (3, 7)])) /\ push_all s' [7; 8; 9] = Raise AssertionError /\
    (exists s'', push_all s [7; 8; 9] = Ok (s'', [(2, 6); (3, 7); (0, 8)])) /\
    (* a mover pass makes it accept again *)
    match py_step s' (Pass (Z.add 10) (fun _ => false)) with
    | Ok (s2, _) => exists s'', push_all s2 [7; 8; 9] = Ok (s'', [(2, 6); (3, 7); (0, 8)])
    | Raise _ => False
    end
  | Raise _ => False
  end.
Proof. vm_compute. split; [eexists; reflexivity|]. split; [reflexivity|]. split; eexists; reflexivity. Qed.

(** Segments of two items; a mover that deletes the negative items: 1, 2 and -3 are stored and the last is deleted, so nothing
    more can be stored; if the first of -1, 2 and 3 is deleted there is room. *)
Example C47_mover_example :
  let hk := Hooks (fun (c : unit) (_ x : Z) => Ok (x, c)) (fun x => x <? 0) (fun c _ _ _ _ => Ok c) (fun c _ _ _ => Ok c) in
  let s l := snd (run py_step (sap_init 2) (map Push l)) in
  (exists s', guarded_mover (py_ops Z) hk (s [1; 2; -3]) tt = Ok (s', tt) /\ Stores s' [1; 2] /\ push_back s' 4 = Raise AssertionError) /\
  (exists s', guarded_mover (py_ops Z) hk (s [-1; 2; 3]) tt = Ok (s', tt) /\ Stores s' [2; 3] /\ exists s'', push_all s' [4; 5; 6] = Ok (s'', [(0, 2); (1, 3); (0, 4)])).
Proof.
  intros hk s.
  split.
  - destruct (guarded_mover (py_ops Z) hk (s [1; 2; -3]) tt) as [[s' []]|] eqn:E; [|vm_compute in E; discriminate E]. exists s'. split; [reflexivity|].
    vm_compute in E. injection E as <-. split; [|reflexivity]. split; [reflexivity|]. intros [|[|k]] x Hk; cbn in Hk; try discriminate Hk; injection Hk as <-; reflexivity.
  - destruct (guarded_mover (py_ops Z) hk (s [-1; 2; 3]) tt) as [[s' []]|] eqn:E; [|vm_compute in E; discriminate E]. exists s'. split; [reflexivity|].
    vm_compute in E. injection E as <-. split; [|eexists; vm_compute; reflexivity]. split; [reflexivity|]. intros [|[|k]] x Hk; cbn in Hk; try discriminate Hk; injection Hk as <-; reflexivity.
Qed.

(** ** C46: the first point of a new trajectory *)

(** The first point of a new flagged particle shows that particle, if the container accepts further items.  ([t_npoints] is
    the room of a trajectory; the entries of the species refer to stored particles or to none.) *)
Theorem C46_first_point (L : Z) sn step time E Eext s xs T p : 1 <= L ->
  Reachable L s -> Stores s xs -> Accepts s -> is_traj p = true -> 1 <= t_npoints T ->
  (forall e, e ∈ t_sp T sn -> e_index e < Z.of_nat (length xs)) ->
  exists s' T' e, add_particle true sn step time E Eext s (Some T) p = Ok (s', Some T') /\
    Stores s' (xs ++ [p]) /\ Accepts s' /\
    t_sp T' sn = t_sp T sn ++ [e] /\ (forall sn', sn' <> sn -> t_sp T' sn' = t_sp T sn') /\
    e_index e = Z.of_nat (length xs) /\ e_uid e = puid p /\ e_len e = 1 /\
    e_data e !! 0%nat = Some (Some (Datum step time (px p) p E Eext)).
Proof.
  intros HL HR HS HA Ht Hnp Hold. destruct (push_current L HL s xs p HR HS HA) as (s' & Ep & HR' & HS' & HA' & Hcur).
  cbv zeta in *. set (n := Z.of_nat (length xs)) in *. unfold add_particle. rewrite Ep, Ht, Hcur.
  set (T1 := create_trajectory T sn n (puid p)).
  set (e0 := Entry n (puid p) 0 (replicate (Z.to_nat (t_npoints T)) None)).
  assert (Hes : t_sp T1 sn = t_sp T sn ++ [e0]) by apply set_sp_same.
  unfold record_datum. rewrite Hes.
  assert (Hix : list_index (map e_index (t_sp T sn ++ [e0])) n = Ok (length (t_sp T sn))).
  { clear - Hold. induction (t_sp T sn) as [|e l IH]; cbn.
    - rewrite Z.eqb_refl. reflexivity.
    - replace (e_index e =? n) with false by (pose proof (Hold e ltac:(left)); lia). rewrite IH; [reflexivity|].
      intros e' He'. apply Hold. by right. }
  rewrite Hix. rewrite lookup_app_r, Nat.sub_diag by lia. cbn [lookup list_lookup].
  change (t_npoints T1) with (t_npoints T). replace (t_npoints T - 1 <? e_len e0) with false by (cbn; lia).
  unfold write_point. cbn [e_data e_len e0]. unfold py_set. rewrite replicate_length.
  rewrite py_pos_in by lia. change (Z.to_nat 0) with 0%nat.
  eexists s', _, _. split; [reflexivity|]. split; [exact HS'|]. split; [exact HA'|].
  rewrite set_sp_same. split; [rewrite insert_app_r_alt, Nat.sub_diag by lia; reflexivity|].
  split.
  - intros sn' Hne. unfold T1, create_trajectory, set_sp. cbn [t_sp]. destruct (String.eqb_spec sn' sn); [done|reflexivity].
  - cbn. split; [reflexivity|]. split; [reflexivity|]. split; [reflexivity|].
    destruct (Z.to_nat (t_npoints T)) as [|k] eqn:Ek; [lia|]. reflexivity.
Qed.

(** After a loop over the "out" segments the current segment is the one after the last: unless the container owns such a
    segment from earlier, recording the first point is an IndexError. *)
Theorem C46_after_loop_refuted (L : Z) sn step time E Eext s xs s' blocks T p : 1 <= L ->
  Reachable L s -> Stores s xs -> Z.of_nat (length xs) mod L <> 0 -> out_loop s = Ok (s', blocks) -> is_traj p = true ->
  snd (get_number_of_segments s) * L < Z.of_nat (length xs) + L ->
  add_particle true sn step time E Eext s' (Some T) p = Raise IndexError.
Proof.
  intros HL HR HS Hm Eo Ht Hns. assert (Hne : xs <> []) by (intros ->; cbn in Hm; rewrite Z.mod_0_l in Hm by lia; done).
  destruct (reach_rel L HL s HR) as [a Ha]. pose proof (rel_stores_eq L HL s a xs Ha HS) as <-.
  destruct (out_loop_rel L HL s a Ha Hne) as (s1 & bs & E1 & HR' & _). rewrite Eo in E1. injection E1 as <- <-.
  assert (Hnout : snd (get_number_of_segments s) = a_nout a).
  { destruct Ha as [_ Ha]. destruct (a_dead a); [destruct Ha as [? _]; done|]. apply (l_nout _ _ _ _ _ _ Ha). }
  rewrite Hnout in Hns. set (n := Z.of_nat (length (a_items a))) in *.
  assert (Hn : 0 < n) by (subst n; destruct (a_items a); [done|cbn; lia]).
  pose proof (push_ok L HL s' _ p HR') as H. unfold py_step, a_step, push_refused in H. cbn [a_items a_dead a_cursor orb] in H. fold n in H.
  replace ((0 <? n) && (n mod L =? 0)) with false in H by lia. cbn [andb] in H.
  destruct H as (s2 & got & E2 & Hok & HR2). unfold add_particle.
  destruct (push_back s' p) as [[s3 [o i]]|]; [|discriminate]. injection E2 as <- <-. destruct Hok as [<- <-]. rewrite Ht.
  enough (Hc : current_out_item s3 (n mod L) = Raise IndexError) by (rewrite Hc; reflexivity).
  destruct HR2 as [_ HLv]. cbn [a_dead a_items a_cursor a_nin a_nout] in HLv. unfold current_out_item.
  rewrite (l_cur _ _ _ _ _ _ HLv). destruct (l_holds _ _ _ _ _ _ HLv) as [W _ _].
  apply (fetch_seg_out L _ _ _ W). rewrite (l_nout _ _ _ _ _ _ HLv).
  pose proof (Z.div_mod (n + L - 1) L ltac:(lia)). pose proof (Z.mod_pos_bound (n + L - 1) L ltac:(lia)). nia.
Qed.

(** Segment length 2.  With four particles stored, a flagged fifth one gets its first point.  With one particle left and a
    sum taken, the first point of the new particle 9 is the record of particle 4, which was deleted.  In a container
    without a spare segment it is an IndexError. *)
Definition c46_p (k : Z) : particle := Particle [IZR k] [IZR k] [0%R] 1%R TRAJECTORY_FLAG 0 k 0.
Definition c46_T : traj := Traj 2 None (fun _ => []).
Example C46_example :
  let s := snd (run py_step (sap_init 2) [Push (c46_p 1); Push (c46_p 2); Push (c46_p 3); Push (c46_p 4)]) in
  let s2 := snd (run py_step s [Pass (fun p => p) (fun p => false); Pass (fun p => p) (fun p => 1 <? puid p)]) in
  let s3 := snd (run py_step (sap_init 2) [Push (c46_p 1)]) in
  (exists s' T', add_particle true "e" 7 0%R [] [] s (Some c46_T) (c46_p 9) = Ok (s', Some T') /\
    t_sp T' "e" = [Entry 4 9 1 [Some (Datum 7 0%R [9%R] (c46_p 9) [] []); None]]) /\
  match out_loop s2 with
  | Ok (s', _) => exists s'' T', add_particle true "e" 7 0%R [] [] s' (Some c46_T) (c46_p 9) = Ok (s'', Some T') /\
      t_sp T' "e" = [Entry 1 9 1 [Some (Datum 7 0%R [4%R] (c46_p 4) [] []); None]]
  | Raise _ => False
  end /\
  match out_loop s3 with
  | Ok (s', _) => add_particle true "e" 7 0%R [] [] s' (Some c46_T) (c46_p 9) = Raise IndexError
  | Raise _ => False
  end.
Proof.
  split; [eexists _, _; cbv -[IZR]; split; reflexivity|].
  split; [cbv -[IZR]; eexists _, _; split; reflexivity|]. cbv -[IZR]. reflexivity.
Qed.

Print Assumptions C46_first_point.
Print Assumptions C46_after_loop_refuted.
Print Assumptions C47_new_accepts.
Print Assumptions C47_push_accepts.
Print Assumptions C47_pass_accepts.
Print Assumptions C47_mover_accepts.
Print Assumptions C47_loop_stops_accepting.
