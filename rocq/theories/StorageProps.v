(** Storage properties: C01, C02, C03, C04, C05, C06, C07, C08, C10, C11.

    Vocabulary of the statements, all in terms of the public operations:
    - [Stores s xs]: the container reports [length xs] items and reading index
      [k] returns the [k]-th element of [xs];
    - [Reachable L s]: [s] is the state after some history of public operations
      on a new container with segment length [L];
    - [run], [a_step]: a history, and the plain-list specification (SapSpec.v). *)
From Verif Require Import SapModel MoverModel SapProofs MoverProofs SapSpec SapRefine UniformProofs.
From Coq Require Import ZifyBool ZifyNat.
Ltac Zify.zify_post_hook ::= Z.div_mod_to_equations.

Section Defs.
Context {A : Type}.

(** Observable contents: Particle_Module.py reads particles through
    [get_number_of_items] (line 775) and [get_item]/[__getitem__]. *)
Definition Stores (s : sap A) (xs : list A) : Prop :=
  get_number_of_items s = Z.of_nat (length xs) /\
  forall (k : nat) x, xs !! k = Some x -> get_item s (Z.of_nat k) = Ok (Some x).

(** States met in any use of the public operations, with mover passes that do any
    per-particle work and any bookkeeping. *)
Inductive Reachable (L : Z) : sap A -> Prop :=
| r_new : Reachable L (sap_init L)
| r_op s o s' r : Reachable L s -> py_step s o = Ok (s', r) -> Reachable L s'
| r_pass {C : Type} (hk : hooks A C) s c s' c' :
    Reachable L s -> guarded_mover (py_ops A) hk s c = Ok (s', c') -> Reachable L s'.

(** A pass as a plain left-to-right loop over a list: [i] counts the particles,
    [kept] are the survivors so far, [ch] tells whether one was dropped before. *)
Fixpoint seq_pass {C : Type} (hk : hooks A C) (i : Z) (kept : list A) (ch : bool) (c : C) (xs : list A)
  : res (list A * C) :=
  match xs with
  | [] => Ok (kept, c)
  | p :: xs' =>
    let! (q, c1) := adv hk c i p in
    if deleted hk q
    then let! c2 := on_drop hk c1 i p q in seq_pass hk (i + 1) kept true c2 xs'
    else let! c2 := on_keep hk c1 ch i (Z.of_nat (length kept)) q in
         seq_pass hk (i + 1) (kept ++ [q]) ch c2 xs'
  end.

(** [for i in range(n): sap.push_back(item)], Particle_Module.py lines 620-622. *)
Fixpoint push_all (s : sap A) (xs : list A) : res (sap A * list (Z * Z)) :=
  match xs with
  | [] => Ok (s, [])
  | x :: xs' =>
    let! (s1, r) := push_back s x in
    let! (s2, rs) := push_all s1 xs' in
    Ok (s2, r :: rs)
  end.

(** [(npSeg, pseg) = sap.init_out_loop(); while isinstance(pseg, ndarray): ...;
    (npSeg, pseg) = sap.get_next_segment("out")], Particle_Module.py lines
    797-803.  The result is the list of slices; [fuel] bounds the recursion. *)
Fixpoint out_loop_rest (fuel : nat) (s : sap A) : res (sap A * list (list (option A))) :=
  match fuel with
  | O => Raise OutOfFuel
  | S f =>
    let! (s1, (n, b)) := get_next_segment s false in
    match b with
    | None => Ok (s1, [])
    | Some v => let! (s2, vs) := out_loop_rest f s1 in Ok (s2, v :: vs)
    end
  end.
Definition out_loop (s : sap A) : res (sap A * list (list (option A))) :=
  let! (s1, (n, b)) := init_out_loop s in
  match b with
  | None => Ok (s1, [])
  | Some v =>
    let! (s2, vs) := out_loop_rest (Z.to_nat (nseg (arr s (out_sa s)) + 1)) s1 in Ok (s2, v :: vs)
  end.
End Defs.

(** * From the simulation relation to observables *)
Section Bridge.
Context {A : Type} (L : Z) (HL : 1 <= L).
Implicit Types (s : sap A).

Lemma rel_count s a : Rel L s a -> get_number_of_items s = Z.of_nat (length (a_items a)).
Proof using HL.
  intros HR. pose proof (count_ok L HL s a HR) as H. destruct a. cbn in H.
  destruct H as (s' & got & E & Hok & _). cbn in *. simplify_eq. done.
Qed.

Lemma rel_get s a (k : nat) x : Rel L s a -> a_items a !! k = Some x -> get_item s (Z.of_nat k) = Ok (Some x).
Proof using HL.
  intros HR Hk. pose proof (get_ok L HL s a (Z.of_nat k) HR) as H.
  destruct a as [items dead cu nin nout]. cbn [py_step a_step] in H. cbn in Hk.
  destruct HR as [Hc HR]. cbn in HR, Hc. destruct dead; [destruct HR as [-> _]; done|].
  pose proof (l_holds _ _ _ _ _ _ HR) as [W P K]. pose proof (Prefix_le L _ _ HL W P) as Hle.
  rewrite (l_nout _ _ _ _ _ _ HR) in Hle.
  pose proof (lookup_lt_Some _ _ _ Hk).
  assert (Hs : slot_of (nout * L) (Z.of_nat k) = Some (Z.of_nat k)).
  { unfold slot_of. destruct (Z.of_nat k <? 0) eqn:E; [lia|]. destruct (_ && _) eqn:E2; [done|lia]. }
  rewrite Hs in H. destruct H as (s' & got & E & Hok & _).
  destruct (get_item s (Z.of_nat k)) as [y|]; [|done]. simplify_eq. rewrite Nat2Z.id, Hk in Hok. cbn in Hok. by subst.
Qed.

Lemma rel_stores s a : Rel L s a -> Stores s (a_items a).
Proof using HL. intros HR. split; [by apply rel_count|]. intros k x Hk. by eapply rel_get. Qed.

Lemma stores_inj s (xs ys : list A) : Stores s xs -> Stores s ys -> xs = ys.
Proof using.
  intros [Hn Hg] [Hm Hh]. apply list_eq_same_length with (length xs); [lia|done|].
  intros i x y Hi Hx Hy. specialize (Hg i x Hx). specialize (Hh i y Hy). congruence.
Qed.

Lemma rel_stores_eq s a xs : Rel L s a -> Stores s xs -> a_items a = xs.
Proof using HL. intros HR Hs. eapply stores_inj; [by apply rel_stores|done]. Qed.

Lemma spec_pass_seq {C} (hk : hooks A C) xs i outs seg ch c :
  seq_pass hk i outs ch c xs =
  match spec_pass hk L i outs seg ch c xs with
  | Ok (o, _, _, c') => Ok (o, c')
  | Raise e => Raise e
  end.
Proof using.
  revert i outs seg ch c. induction xs as [|p xs IH]; intros i outs seg ch c; [done|].
  cbn [seq_pass spec_pass]. unfold spec_step.
  destruct (adv hk c i p) as [[q c1]|e]; [|done].
  destruct (deleted hk q).
  - destruct (on_drop hk c1 i p q) as [c2|e]; [|done]. apply IH.
  - destruct (on_keep hk c1 ch i _ q) as [c2|e]; [|done]. apply IH.
Qed.

(** A pass from a related state. *)
Lemma rel_pass {C} (hk : hooks A C) s a c : Rel L s a ->
  match seq_pass hk 0 [] false c (a_items a) with
  | Raise e => guarded_mover (py_ops A) hk s c = Raise e
  | Ok (ys, c') => exists s' a', guarded_mover (py_ops A) hk s c = Ok (s', c') /\ Rel L s' a' /\ a_items a' = ys
  end.
Proof using HL.
  intros HR0. pose proof (rel_count s a HR0) as Hcnt. destruct a as [items dead cu nin nout]. cbn in *.
  unfold guarded_mover. rewrite Hcnt. destruct (Z.of_nat (length items) =? 0) eqn:E0.
  { destruct items; [|done]. cbn. exists s, (AState [] dead cu nin nout). done. }
  destruct HR0 as [Hc HR]. cbn in Hc, HR. destruct dead; [destruct HR as [-> _]; done|].
  assert (Hne : items <> []) by (intros ->; done).
  pose proof (mover_py hk L HL s items cu nin nout c HR Hne) as HM.
  rewrite (spec_pass_seq hk items 0 [] 0 false c).
  destruct (spec_pass hk L 0 [] 0 false c items) as [[[[outs seg] ch] c']|e] eqn:Esp; [|done].
  destruct HM as (s' & Em & _ & _ & HLv & HD).
  assert (Hseg : 0 <= seg).
  { assert (Hgen : forall xs i o sg h cc o' sg' h' cc', spec_pass hk L i o sg h cc xs = Ok (o', sg', h', cc') -> 0 <= sg -> 0 <= sg').
    { clear - HL. induction xs as [|p xs IH]; intros i o sg h cc o' sg' h' cc' E Hs; cbn in E; [by simplify_eq|].
      destruct (spec_step hk i o h cc p) as [[[o1 h1] c1]|]; [|done].
      eapply IH; [exact E|]. apply Z.div_pos; lia. }
    eapply Hgen; [exact Esp|done]. }
  destruct outs as [|y outs].
  - exists s', (AState [] true seg nout (Z.max nin (seg + 1))). split; [done|]. split; [|done].
    split; [done|]. cbn. split; [done|]. by apply HD.
  - exists s', (AState (y :: outs) false seg nout (Z.max nin (seg + 1))). split; [done|]. split; [|done].
    split; [done|]. cbn. by apply HLv.
Qed.

Lemma reach_rel s : Reachable L s -> exists a, Rel L s a.
Proof using HL.
  induction 1 as [|s o s' r _ [a HR] E|C hk s c s' c' _ [a HR] E].
  - exists a_init. by apply Rel_init.
  - pose proof (step_refines L HL s a o HR) as H.
    destruct (a_step L a o) as [[a1 w]|e]; [|cbn in H; congruence].
    destruct H as (s1 & got & E1 & _ & HR1). exists a1. congruence.
  - pose proof (rel_pass hk s a c HR) as H.
    destruct (seq_pass hk 0 [] false c (a_items a)) as [[ys c1]|e]; [|congruence].
    destruct H as (s1 & a' & E1 & HR1 & _). exists a'. congruence.
Qed.

Lemma run_reach h : forall s obs s', Reachable L s -> run py_step s h = (obs, None, s') -> Reachable L s'.
Proof using.
  induction h as [|o h IH]; intros s obs s' HR E; cbn in E; [by simplify_eq|].
  destruct (py_step s o) as [[s1 r]|e] eqn:Es; [|done].
  destruct (run py_step s1 h) as [[rs e] s2] eqn:Er. simplify_eq.
  eapply IH; [|exact Er]. by eapply r_op.
Qed.

(** Appending. *)
Lemma push_all_rel xs : forall s a,
  Rel L s a -> a_dead a = false ->
  (a_items a = [] -> a_nout a = 1) ->
  (0 < Z.of_nat (length (a_items a)) -> a_cursor a = (Z.of_nat (length (a_items a)) - 1) / L /\ a_nout a = (Z.of_nat (length (a_items a)) - 1) / L + 1) ->
  (a_items a = [] -> a_cursor a = 0) ->
  exists s' a', push_all s xs = Ok (s', map (fun k => (Z.of_nat k mod L, Z.of_nat k)) (seq (length (a_items a)) (length xs))) /\
    Rel L s' a' /\ a_items a' = a_items a ++ xs /\ a_dead a' = false /\ a_nin a' = a_nin a /\
    a_nout a' = Z.max 1 ((Z.of_nat (length (a_items a ++ xs)) + L - 1) / L) /\
    arr s' (in_sa s') = arr s (in_sa s).
Proof using HL.
  induction xs as [|x xs IH]; intros s a HR Hd H0 Hpos Hc0.
  - exists s, a. cbn. rewrite app_nil_r. split; [done|]. split; [done|]. split; [done|]. split; [done|].
    split; [done|]. split; [|done].
    destruct (a_items a) as [|y l] eqn:Ei.
    + rewrite (H0 eq_refl). cbn [length]. replace (Z.of_nat 0 + L - 1) with (L - 1) by lia. rewrite Z.div_small by lia. done.
    + destruct Hpos as [_ ->]; [cbn; lia|]. set (n := Z.of_nat (length (y :: l))).
      assert (0 < n) by (subst n; cbn; lia).
      replace (n + L - 1) with (n - 1 + 1 * L) by lia. rewrite Z.div_add by lia.
      pose proof (Z.div_pos (n - 1) L). lia.
  - pose proof (push_ok L HL s a x HR) as H.
    destruct a as [items dead cu nin nout]. cbn in Hd, H0, Hpos, Hc0. subst dead.
    set (n := Z.of_nat (length items)) in *.
    assert (Href : push_refused L (AState items false cu nin nout) = false).
    { unfold push_refused. cbn [a_dead a_items a_cursor orb]. fold n.
      destruct ((0 <? n) && (n mod L =? 0)) eqn:E; [|done]. cbn [andb].
      destruct Hpos as [-> _]; [lia|].
      assert (n = L * (n / L)) as E' by lia.
      rewrite <- (Z.div_unique (n-1) L (n/L - 1) (L - 1)) by lia. lia. }
    cbn [py_step a_step] in H. rewrite Href in H. fold n in H.
    cbn [push_all]. cbn [a_items] in *.
    assert (Hgoal : exists s1 a1, push_back s x = Ok (s1, (n mod L, n)) /\ Rel L s1 a1 /\ a_dead a1 = false /\
       a_items a1 = items ++ [x] /\ a_nin a1 = nin /\ a_cursor a1 = n / L /\ a_nout a1 = n / L + 1).
    { assert (Hn : 0 <= n) by lia.
      destruct ((0 <? n) && (n mod L =? 0)) eqn:E.
      - destruct H as (s1 & got & E1 & Hok & HR1).
        destruct (push_back s x) as [[s2 [o i]]|]; [|done]. simplify_eq.
        destruct Hok as [<- <-].
        eexists _, _. split; [|split; [exact HR1|]].
        + do 3 f_equal. lia.
        + cbn. repeat split; try done. destruct Hpos as [_ ->]; [lia|].
          assert (n = L * (n / L)) as E' by lia.
          rewrite <- (Z.div_unique (n-1) L (n/L - 1) (L - 1)) by lia. lia.
      - destruct H as (s1 & got & E1 & Hok & HR1).
        destruct (push_back s x) as [[s2 [o i]]|]; [|done]. simplify_eq.
        destruct Hok as [<- <-].
        eexists _, _. split; [done|split; [exact HR1|]].
        cbn. destruct (decide (n = 0)) as [E0|E0].
        + assert (items = []) as -> by (destruct items; [done|subst n; cbn in E0; lia]).
          rewrite E0, Z.div_0_l by lia. rewrite H0, Hc0 by done. done.
        + destruct Hpos as [-> ->]; [lia|].
          assert (Hd : (n - 1) / L = n / L) by (symmetry; apply Z.div_unique with (n mod L - 1); lia).
          rewrite Hd. done. }
    destruct Hgoal as (s1 & a1 & E1 & HR1 & D1 & I1 & N1 & C1 & O1). rewrite E1.
    destruct (IH s1 a1 HR1 D1) as (s2 & a2 & E2 & HR2 & I2 & D2 & N2 & O2 & Harr).
    + rewrite I1. by destruct items.
    + rewrite I1, app_length, C1, O1. cbn [length]. intros _.
      replace (Z.of_nat (length items + 1) - 1) with n by lia. done.
    + rewrite I1. by destruct items.
    + rewrite E2. exists s2, a2. split.
      { rewrite I1, app_length. cbn [length seq map]. replace (length items + 1)%nat with (S (length items)) by lia. done. }
      split; [done|]. rewrite I2, I1, <- app_assoc. split; [done|]. split; [done|]. split; [by rewrite N2|].
      split; [by rewrite O2, I1, <- app_assoc|].
      rewrite Harr. unfold push_back in E1.
      destruct HR as [_ HR]. cbn in HR. pose proof (l_pair _ _ _ _ _ _ HR) as Hpair.
      revert E1. destruct (if fao _ =? _ then _ else _) as [a1'|]; [|done].
      destruct (store a1' _ _ _) as [a3|]; [|done]. intros E1. simplify_eq.
      rewrite in_set, arr_set_other; [done|]. rewrite Hpair. by destruct (out_sa s).
Qed.

(** The complete out-loop. *)
Lemma out_loop_rest_rel fuel : forall s a,
  Rel L s a -> a_dead a = false -> (1 <= fuel)%nat ->
  Z.of_nat (length (a_items a)) <= (a_cursor a + Z.of_nat fuel) * L ->
  exists s' blocks, out_loop_rest fuel s = Ok (s', blocks) /\
    Rel L s' (AState (a_items a) false (Z.max (a_cursor a + 1) ((Z.of_nat (length (a_items a)) + L - 1) / L)) (a_nin a) (a_nout a)) /\
    concat blocks = Some <$> drop (Z.to_nat ((a_cursor a + 1) * L)) (a_items a) /\
    Forall (fun b => b <> []) blocks /\
    (forall j b, blocks !! j = Some b -> (S j < length blocks)%nat -> Z.of_nat (length b) = L).
Proof using HL.
  induction fuel as [|fuel IH]; intros s a HR Hd Hf1 Hf; [lia|].
  pose proof (loopnext_ok L HL s a HR) as H. destruct a as [items dead cu nin nout]. cbn in Hd. subst dead.
  cbn [a_items a_cursor a_nin a_nout] in *. pose proof HR as [Hcu _]. cbn in Hcu.
  cbn [py_step a_step] in H. destruct H as (s1 & got & E & Hok & HR1).
  cbn [out_loop_rest]. destruct (get_next_segment s false) as [[s2 [n b]]|]; [|done].
  simplify_eq. set (N := Z.of_nat (length items)) in *.
  destruct ((cu + 1) * L <? N) eqn:Elt.
  - cbn in Hok. destruct b as [v|]; [|done]. destruct Hok as [Hn Hv].
    assert (Hv' : v = Some <$> block L (cu + 1) items).
    { clear - Hv. remember (block L (cu + 1) items) as w. clear Heqw. revert w Hv.
      induction v as [|y v IH]; intros w Hv.
      - apply Forall2_nil_inv_r in Hv. by destruct w.
      - apply Forall2_cons_inv_r in Hv as (x & w' & Hx & Hw & E). destruct w as [|x' w]; [done|].
        cbn in E. simplify_eq. cbn in Hx. cbn. f_equal; [done|]. by apply IH. }
    assert (Hbl : Z.of_nat (length (block L (cu + 1) items)) = Z.min L (N - (cu + 1) * L)).
    { unfold block. rewrite take_length, drop_length. nia. }
    destruct (IH s1 _ HR1 eq_refl) as (s' & bs & Eb & HRb & Hc & Hne & Hlen).
    { nia. }
    { cbn [a_items a_cursor]. lia. }
    cbn [a_items a_cursor a_nin a_nout] in *.
    rewrite Eb. exists s', (v :: bs). split; [done|]. split.
    { replace (Z.max (cu + 1) ((N + L - 1) / L)) with (Z.max (cu + 1 + 1) ((N + L - 1) / L)); [done|].
      assert (cu + 1 + 1 <= (N + L - 1) / L) by (apply Z.div_le_lower_bound; lia). lia. }
    split.
    { cbn [concat]. rewrite Hc, Hv', <- fmap_app. f_equal. unfold block.
      replace (Z.to_nat ((cu + 1 + 1) * L)) with (Z.to_nat ((cu + 1) * L) + Z.to_nat L)%nat by nia.
      rewrite <- drop_drop. apply take_drop. }
    split.
    { constructor; [|done]. rewrite Hv'. intros E0. apply (f_equal length) in E0. rewrite fmap_length in E0. cbn in E0. lia. }
    intros j b Hj Hlt. destruct j as [|j].
    + cbn in Hj. injection Hj as <-. rewrite Hv', fmap_length, Hbl.
      destruct bs as [|b2 bs]; [cbn in Hlt; lia|].
      assert (Hnb : (length (concat (b2 :: bs)) > 0)%nat).
      { apply Forall_cons_1 in Hne as [Hb2 _]. cbn. rewrite app_length. destruct b2; [done|cbn; lia]. }
      rewrite Hc, fmap_length, drop_length in Hnb. nia.
    + cbn in Hj, Hlt. apply (Hlen j b Hj). lia.
  - cbn in Hok. destruct b as [v|]; [done|]. exists s1, []. split; [done|]. split.
    { replace (Z.max (cu + 1) ((N + L - 1) / L)) with (cu + 1); [done|].
      assert ((N + L - 1) / L < cu + 1 + 1) by (apply Z.div_lt_upper_bound; lia). lia. }
    split; [rewrite drop_ge by nia; done|]. split; [constructor|done].
Qed.

Lemma out_loop_rel s a :
  Rel L s a -> a_items a <> [] ->
  exists s' blocks, out_loop s = Ok (s', blocks) /\
    Rel L s' (AState (a_items a) false ((Z.of_nat (length (a_items a)) + L - 1) / L) (a_nin a) (a_nout a)) /\
    concat blocks = Some <$> a_items a /\
    Forall (fun b => b <> []) blocks /\
    (forall j b, blocks !! j = Some b -> (S j < length blocks)%nat -> Z.of_nat (length b) = L).
Proof using HL.
  intros HR Hne. pose proof (loopstart_ok L HL s a HR) as H.
  destruct a as [items dead cu nin nout]. cbn [a_items a_nin a_nout] in *.
  pose proof HR as [Hcu HR']. cbn in Hcu, HR'. destruct dead; [by destruct HR' as [-> _]|].
  pose proof (l_holds _ _ _ _ _ _ HR') as [W P K]. pose proof (Prefix_le L _ _ HL W P) as Hle.
  cbn [py_step a_step] in H. destruct H as (s1 & got & E & Hok & HR1).
  unfold out_loop. destruct (init_out_loop s) as [[s2 [n b]]|]; [|done]. simplify_eq.
  set (N := Z.of_nat (length items)) in *.
  assert (HN : 0 < N) by (destruct items; [done|subst N; cbn; lia]).
  destruct (N =? 0) eqn:E0; [lia|].
  cbn in Hok. destruct b as [v|]; [|done]. destruct Hok as [Hn Hv].
  assert (Hv' : v = Some <$> block L 0 items).
  { clear - Hv. remember (block L 0 items) as w. clear Heqw. revert w Hv.
    induction v as [|y v IH]; intros w Hv.
    - apply Forall2_nil_inv_r in Hv. by destruct w.
    - apply Forall2_cons_inv_r in Hv as (x & w' & Hx & Hw & E). destruct w as [|x' w]; [done|].
      cbn in E. simplify_eq. cbn in Hx. cbn. f_equal; [done|]. by apply IH. }
  assert (Hbl : Z.of_nat (length (block L 0 items)) = Z.min L N).
  { unfold block. rewrite take_length, drop_length. lia. }
  rewrite (l_nout _ _ _ _ _ _ HR') in Hle |- *.
  destruct (out_loop_rest_rel (Z.to_nat (nout + 1)) s1 _ HR1 eq_refl)
    as (s' & bs & Eb & HRb & Hc & Hnb & Hlen).
  { lia. }
  { cbn [a_items a_cursor]. fold N. nia. }
  cbn [a_items a_cursor a_nin a_nout] in *. rewrite Eb. exists s', (v :: bs). split; [done|]. split.
  { fold N in HRb. replace (Z.max (0 + 1) ((N + L - 1) / L)) with ((N + L - 1) / L) in HRb; [done|].
    assert (1 <= (N + L - 1) / L) by (apply Z.div_le_lower_bound; lia). lia. }
  split.
  { cbn [concat]. rewrite Hc, Hv', <- fmap_app. f_equal. unfold block.
    rewrite drop_0. replace ((0 + 1) * L) with L by lia. apply take_drop. }
  split.
  { constructor; [|done]. rewrite Hv'. intros E1. apply (f_equal length) in E1. rewrite fmap_length in E1. cbn in E1. lia. }
  intros j b Hj Hlt. destruct j as [|j].
  + cbn in Hj. injection Hj as <-. rewrite Hv', fmap_length, Hbl.
    destruct bs as [|b2 bs]; [cbn in Hlt; lia|].
    assert (Hnb2 : (length (concat (b2 :: bs)) > 0)%nat).
    { apply Forall_cons_1 in Hnb as [Hb2 _]. cbn. rewrite app_length. destruct b2; [done|cbn; lia]. }
    rewrite Hc, fmap_length, drop_length in Hnb2. lia.
  + cbn in Hj, Hlt. apply (Hlen j b Hj). lia.
Qed.
End Bridge.

(** * C01 *)
Theorem C01_push_keeps_place {A} (L : Z) (xs : list A) : 1 <= L ->
  exists s, push_all (sap_init L) xs =
      Ok (s, map (fun k : nat => (Z.of_nat k mod L, Z.of_nat k)) (seq 0 (length xs))) /\
    Stores s xs.
Proof.
  intros HL.
  destruct (push_all_rel L HL xs (sap_init L) a_init (Rel_init L HL)) as (s & a & E & HR & HI & _);
    try (cbn; done || lia).
  exists s. split; [exact E|]. change xs with (a_items (@a_init A) ++ xs). rewrite <- HI. by apply (rel_stores L HL).
Qed.
Example C01_case : exists s, push_all (sap_init 3) [10; 11; 12; 13; 14; 15; 16] =
  Ok (s, [(0,0); (1,1); (2,2); (0,3); (1,4); (2,5); (0,6)]) /\ get_item s 5 = Ok (Some 15).
Proof. eexists. vm_compute. done. Qed.

(** * C02 *)
Theorem C02_storage_grows_as_needed {A} (L : Z) (xs : list A) s rs : 1 <= L ->
  push_all (sap_init L) xs = Ok (s, rs) ->
  let n := Z.of_nat (length xs) in
  let m := Z.max 1 ((n + L - 1) / L) in
  get_number_of_segments s = (1, m) /\ get_capacity s = (1 * L, m * L) /\
  get_number_of_items s = n /\ n <= m * L /\ (n <= (m - 1) * L -> n = 0) /\
  arr s (in_sa s) = arr (sap_init L) true.
Proof.
  intros HL E. cbv zeta.
  destruct (push_all_rel L HL xs (sap_init L) a_init (Rel_init L HL)) as (s' & a & E' & HR & HI & Hd & Hni & Hno & Harr);
    try (cbn; done || lia).
  rewrite E in E'. simplify_eq. cbn [a_items a_init app] in *.
  destruct a as [items dead cu nin nout]. cbn in *. subst.
  pose proof (rel_count L HL _ _ HR) as Hc. cbn in Hc.
  destruct HR as [_ HR]. cbn in HR. destruct HR as [H1 H2 _ H4 H5 H6 H7].
  unfold get_number_of_segments, get_capacity. rewrite H5, H7, H1.
  repeat split; try done.
  - assert (Z.of_nat (length xs) <= (Z.of_nat (length xs) + L - 1) / L * L) by nia. nia.
  - nia.
Qed.
Example C02_case : match push_all (sap_init 3) [10; 11; 12; 13] with
  | Ok (s, _) => get_number_of_segments s = (1, 2) /\ get_capacity s = (3, 6)
  | Raise _ => False end.
Proof. vm_compute. done. Qed.

(** * C03 *)
Theorem C03_out_loop_visits_all {A} (L : Z) (s : sap A) xs : 1 <= L ->
  Reachable L s -> Stores s xs -> xs <> [] ->
  exists s' blocks, out_loop s = Ok (s', blocks) /\
    concat blocks = map Some xs /\
    Forall (fun b => b <> []) blocks /\
    (forall j b, blocks !! j = Some b -> (S j < length blocks)%nat -> Z.of_nat (length b) = L) /\
    Stores s' xs.
Proof.
  intros HL HR Hs Hne. destruct (reach_rel L HL s HR) as [a Ha].
  pose proof (rel_stores_eq L HL s a xs Ha Hs) as <-.
  destruct (out_loop_rel L HL s a Ha Hne) as (s' & bs & E & HR' & Hc & Hn & Hl).
  exists s', bs. repeat split; try done.
  - by apply (rel_count L HL _ _ HR').
  - intros k x Hk. by eapply (rel_get L HL _ _ _ _ HR').
Qed.

(** * C04 *)
Theorem C04_pass_keeps_survivors {A} (L : Z) (s : sap A) xs g del : 1 <= L ->
  Reachable L s -> Stores s xs ->
  exists s', py_step s (Pass g del) = Ok (s', ODone) /\
    Stores s' (List.filter (fun y => negb (del y)) (map g xs)) /\ Reachable L s'.
Proof.
  intros HL HR Hs. destruct (reach_rel L HL s HR) as [a Ha].
  pose proof (rel_stores_eq L HL s a xs Ha Hs) as <-.
  pose proof (pass_ok L HL s a g del Ha) as H. destruct a as [items dead cu nin nout].
  cbn [a_step a_items] in *.
  destruct (Z.of_nat (length items) =? 0) eqn:E0.
  - destruct items; [|done]. destruct H as (s' & got & E & Hok & HR').
    destruct got; try done. exists s'. split; [done|]. split; [|by eapply r_op].
    apply (rel_stores L HL _ _ HR').
  - destruct H as (s' & got & E & Hok & HR').
    destruct got; try done. exists s'. split; [done|]. split; [|by eapply r_op].
    apply (rel_stores L HL _ _ HR').
Qed.

(** The same with arbitrary bookkeeping: the mover loop over the two segmented
    arrays computes the plain left-to-right loop [seq_pass], with the same
    exceptions. *)
Theorem C04_pass_is_sequential {A C} (L : Z) (s : sap A) xs (hk : hooks A C) c : 1 <= L ->
  Reachable L s -> Stores s xs ->
  match seq_pass hk 0 [] false c xs with
  | Raise e => guarded_mover (py_ops A) hk s c = Raise e
  | Ok (ys, c') => exists s', guarded_mover (py_ops A) hk s c = Ok (s', c') /\ Stores s' ys /\ Reachable L s'
  end.
Proof.
  intros HL HR Hs. destruct (reach_rel L HL s HR) as [a Ha].
  pose proof (rel_stores_eq L HL s a xs Ha Hs) as <-.
  pose proof (rel_pass L HL hk s a c Ha) as H.
  destruct (seq_pass hk 0 [] false c (a_items a)) as [[ys c']|e]; [|done].
  destruct H as (s' & a' & E & Ha' & <-). exists s'. split; [done|]. split; [by apply (rel_stores L HL)|].
  by eapply r_pass.
Qed.

(** A history with two passes at segment length 2, storing numbers; the pass
    adds 1 and removes multiples of 3. *)
Definition demo_history : list (op Z) :=
  [Push 1; Push 2; Push 3; Push 4; Push 5; Push 6; Push 7;
   Pass (Z.add 1) (fun x => x mod 3 =? 0); Push 100; LoopStart; LoopNext; LoopNext;
   Pass (Z.add 1) (fun x => x mod 3 =? 0); Count; Get 0; Get 1].
Definition demo_state : sap Z := snd (run py_step (sap_init 2) demo_history).
Example demo_reachable : Reachable 2 demo_state /\ Stores demo_state [5; 8; 101].
Proof.
  split.
  - apply (run_reach 2 demo_history (sap_init 2) (fst (fst (run py_step (sap_init 2) demo_history)))); [constructor|].
    vm_compute. done.
  - split; [vm_compute; done|]. intros k x Hk.
    destruct k as [|[|[|k]]]; cbn in Hk; simplify_eq; vm_compute; done.
Qed.
Example C03_case : exists s', out_loop demo_state = Ok (s', [[Some 5; Some 8]; [Some 101]]).
Proof. eexists. vm_compute. done. Qed.
Example C04_case : exists s', py_step demo_state (Pass (Z.add 2) (fun x => x =? 7)) = Ok (s', ODone) /\
  get_number_of_items s' = 2 /\ get_item s' 0 = Ok (Some 10) /\ get_item s' 1 = Ok (Some 103).
Proof. eexists. vm_compute. done. Qed.

(** * C05 *)
Theorem C05_history_refines_list {A} (L : Z) (h : list (op A)) : 1 <= L ->
  let '(got, e, s) := run py_step (sap_init L) h in
  let '(want, e', a) := run (a_step L) a_init h in
  Forall2 obs_ok want got /\ e = e' /\ Stores s (a_items a).
Proof.
  intros HL. pose proof (run_refines L HL h _ _ (Rel_init L HL)) as H.
  destruct (run py_step (sap_init L) h) as [[g e1] s']. destruct (run (a_step L) a_init h) as [[w e2] a'].
  destruct H as (F & Ee & HR). split; [done|]. split; [done|]. by apply (rel_stores L HL).
Qed.
Example C05_case : fst (run py_step (sap_init 2) demo_history) =
  ([OPos 0 0; OPos 1 1; OPos 0 2; OPos 1 3; OPos 0 4; OPos 1 5; OPos 0 6; ODone; OPos 1 5;
    OBlock 2 (Some [Some 2; Some 4]); OBlock 2 (Some [Some 5; Some 7]); OBlock 2 (Some [Some 8; Some 100]);
    ODone; ONum 3; OItem (Some 5); OItem (Some 8)], None).
Proof. vm_compute. done. Qed.

(** * C06 *)
Theorem C06_push_refused_exactly {A} (L : Z) (h : list (op A)) want a obs s x : 1 <= L ->
  run (a_step L) a_init h = (want, None, a) -> run py_step (sap_init L) h = (obs, None, s) ->
  let n := Z.of_nat (length (a_items a)) in
  if a_dead a || ((0 <? n) && (n mod L =? 0) && negb (a_cursor a + 1 =? n / L))
  then push_back s x = Raise AssertionError
  else exists s', push_back s x = Ok (s', (n mod L, n)) /\ Stores s' (a_items a ++ [x]).
Proof.
  intros HL Ea Es. cbv zeta.
  pose proof (run_refines L HL h _ _ (Rel_init L HL)) as H. rewrite Ea, Es in H.
  destruct H as (_ & _ & HR). pose proof (push_ok L HL s a x HR) as H.
  destruct a as [items dead cu nin nout]. cbn [py_step a_step] in H.
  unfold push_refused in H. cbn [a_items a_dead a_cursor] in *.
  set (n := Z.of_nat (length items)) in *.
  destruct (dead || _).
  - cbn in H. destruct (push_back s x) as [[s1 [o i]]|e]; [done|]. congruence.
  - destruct ((0 <? n) && (n mod L =? 0)) eqn:E.
    + destruct H as (s1 & got & E1 & Hok & HR1).
      destruct (push_back s x) as [[s2 [o i]]|]; [|done]. simplify_eq. destruct Hok as [<- <-].
      exists s1. split; [do 3 f_equal; lia|]. apply (rel_stores L HL _ _ HR1).
    + destruct H as (s1 & got & E1 & Hok & HR1).
      destruct (push_back s x) as [[s2 [o i]]|]; [|done]. simplify_eq. destruct Hok as [<- <-].
      exists s1. split; [done|]. apply (rel_stores L HL _ _ HR1).
Qed.

(** In every reachable state [push_back] stores the item or raises
    [AssertionError]; it cannot fail unless the count is a multiple of [L]. *)
Theorem C06_push_or_assert {A} (L : Z) (s : sap A) xs x : 1 <= L ->
  Reachable L s -> Stores s xs ->
  (exists s', push_back s x = Ok (s', (Z.of_nat (length xs) mod L, Z.of_nat (length xs))) /\ Stores s' (xs ++ [x]))
  \/ (push_back s x = Raise AssertionError /\ Z.of_nat (length xs) mod L = 0).
Proof.
  intros HL HR Hs. destruct (reach_rel L HL s HR) as [a Ha].
  pose proof (rel_stores_eq L HL s a xs Ha Hs) as <-.
  pose proof (push_ok L HL s a x Ha) as H.
  destruct a as [items dead cu nin nout]. cbn [py_step a_step] in H.
  unfold push_refused in H. cbn [a_items a_dead a_cursor] in *.
  set (n := Z.of_nat (length items)) in *.
  destruct (dead || _) eqn:Er.
  - right. cbn in H. split; [destruct (push_back s x) as [[s1 [o i]]|e]; [done|congruence]|].
    destruct dead; [destruct Ha as [_ Ha]; cbn in Ha; destruct Ha as [-> _]; subst n; cbn; by rewrite Z.mod_0_l by lia|]. lia.
  - left. destruct ((0 <? n) && (n mod L =? 0)) eqn:E.
    + destruct H as (s1 & got & E1 & Hok & HR1).
      destruct (push_back s x) as [[s2 [o i]]|]; [|done]. simplify_eq. destruct Hok as [<- <-].
      exists s1. split; [do 3 f_equal; lia|]. apply (rel_stores L HL _ _ HR1).
    + destruct H as (s1 & got & E1 & Hok & HR1).
      destruct (push_back s x) as [[s2 [o i]]|]; [|done]. simplify_eq. destruct Hok as [<- <-].
      exists s1. split; [done|]. apply (rel_stores L HL _ _ HR1).
Qed.

(** After a complete loop over full segments (a density or energy sum, say) the
    next [push_back] fails. *)
Theorem C06_push_fails_after_full_loop {A} (L : Z) (s : sap A) xs s' blocks x : 1 <= L ->
  Reachable L s -> Stores s xs -> xs <> [] -> Z.of_nat (length xs) mod L = 0 ->
  out_loop s = Ok (s', blocks) -> push_back s' x = Raise AssertionError.
Proof.
  intros HL HR Hs Hne Hm E. destruct (reach_rel L HL s HR) as [a Ha].
  pose proof (rel_stores_eq L HL s a xs Ha Hs) as <-.
  destruct (out_loop_rel L HL s a Ha Hne) as (s1 & bs & E1 & HR' & _).
  rewrite E in E1. simplify_eq.
  pose proof (push_ok L HL _ _ x HR') as H. cbn [py_step a_step] in H.
  unfold push_refused in H. cbn [a_items a_dead a_cursor] in H.
  set (n := Z.of_nat (length (a_items a))) in *.
  assert (0 < n) by (subst n; destruct (a_items a); [done|cbn; lia]).
  assert (Hd : (n + L - 1) / L = n / L).
  { symmetry. apply Z.div_unique with (L - 1); [lia|]. lia. }
  rewrite Hd in H. replace (n / L + 1 =? n / L) with false in H by lia.
  replace ((0 <? n) && (n mod L =? 0)) with true in H by lia. cbn in H.
  destruct (push_back s1 x) as [[s2 [o i]]|e]; [done|congruence].
Qed.

(** After a mover pass with [k] survivors, [k > 0], the next [push_back] fails
    exactly when [L] divides [k] and the last stored particle was deleted. *)
Theorem C06_push_after_pass {A} (L : Z) (s : sap A) ys z g del s' x : 1 <= L ->
  Reachable L s -> Stores s (ys ++ [z]) ->
  py_step s (Pass g del) = Ok (s', ODone) -> 0 < get_number_of_items s' ->
  (push_back s' x = Raise AssertionError <->
   get_number_of_items s' mod L = 0 /\ del (g z) = true).
Proof.
  intros HL HR Hs Ep Hpos. destruct (reach_rel L HL s HR) as [a Ha].
  pose proof (rel_stores_eq L HL s a _ Ha Hs) as Ei.
  pose proof (pass_ok L HL s a g del Ha) as H. rewrite Ep in H. destruct a as [items dead cu nin nout].
  cbn [a_step a_items] in *. subst items.
  destruct (Z.of_nat (length (ys ++ [z])) =? 0) eqn:E0; [rewrite app_length in E0; cbn in E0; lia|].
  destruct H as (s1 & got & E & Hok & HR'). simplify_eq.
  pose proof (rel_count L HL _ _ HR') as Hcnt. cbn [a_items] in Hcnt.
  pose proof (push_ok L HL _ _ x HR') as H. cbn [py_step a_step] in H.
  unfold push_refused in H. cbn [a_items a_dead a_cursor] in H.
  rewrite <- Hcnt in H. set (k := get_number_of_items s1) in *.
  rewrite removelast_last in H, HR'.
  assert (Hsp : survivors g del (ys ++ [z]) = survivors g del ys ++ (if del (g z) then [] else [g z])).
  { unfold survivors. rewrite map_app, List.filter_app. cbn. by destruct (del (g z)). }
  assert (Hdead : (match survivors g del (ys ++ [z]) with [] => true | _ => false end) = false).
  { destruct (survivors g del (ys ++ [z])); [cbn in Hcnt; lia|done]. }
  rewrite Hdead in H. cbn [orb] in H.
  rewrite Hsp, app_length in Hcnt.
  set (m := Z.of_nat (length (survivors g del ys))) in *.
  assert (Hkm : k = m + (if del (g z) then 0 else 1)).
  { destruct (del (g z)); cbn in Hcnt; lia. }
  assert (Hiff : (0 <? k) && (k mod L =? 0) && negb (m / L + 1 =? k / L) = true <-> k mod L = 0 /\ del (g z) = true).
  { destruct (del (g z)).
    - assert (m = k) as -> by lia. lia.
    - assert (m = k - 1) as -> by lia. split; [|intros [_ ?]; done]. intros Hb.
      assert (k = L * (k / L)) as E' by lia.
      rewrite <- (Z.div_unique (k-1) L (k/L - 1) (L - 1)) in Hb by lia. lia. }
  destruct ((0 <? k) && (k mod L =? 0) && negb (m / L + 1 =? k / L)).
  - cbn in H. split; [intros _; by apply Hiff|]. intros _.
    destruct (push_back s1 x) as [[s2 [o i]]|e]; [done|congruence].
  - split; [|intros Hx; apply Hiff in Hx; done]. intros Ex. rewrite Ex in H.
    destruct ((0 <? k) && (k mod L =? 0)); destruct H as (s2 & got2 & E1 & _); done.
Qed.
Example C06_case :
  let s := snd (run py_step (sap_init 2) [Push 1; Push 2; Push 3]) in
  Stores s ([1; 2] ++ [3]) /\
  match py_step s (Pass (fun x => x) (fun x => x =? 3)) with
  | Ok (s', ODone) => get_number_of_items s' = 2 /\ push_back s' 9 = Raise AssertionError
  | _ => False
  end.
Proof.
  split.
  - split; [vm_compute; done|]. intros k x Hk.
    destruct k as [|[|[|k]]]; cbn in Hk; simplify_eq; vm_compute; done.
  - vm_compute. done.
Qed.
Example C06_loop_case :
  let s := snd (run py_step (sap_init 2) [Push 1; Push 2; Push 3; Push 4]) in
  match out_loop s with
  | Ok (s', _) => push_back s' 9 = Raise AssertionError
  | _ => False
  end.
Proof. vm_compute. done. Qed.

(** * C07 *)
Theorem C07_died_out_species {A} (L : Z) (s : sap A) xs g del : 1 <= L ->
  Reachable L s -> Stores s xs -> xs <> [] -> (forall x, x ∈ xs -> del (g x) = true) ->
  exists s', py_step s (Pass g del) = Ok (s', ODone) /\
    get_number_of_items s' = 0 /\
    (exists s'' v, init_out_loop s' = Ok (s'', (L, Some v)) /\ Z.of_nat (length v) = L) /\
    (forall x, push_back s' x = Raise AssertionError) /\
    (forall g' del', py_step s' (Pass g' del') = Ok (s', ODone)).
Proof.
  intros HL HR Hs Hne Hdel. destruct (reach_rel L HL s HR) as [a Ha].
  pose proof (rel_stores_eq L HL s a xs Ha Hs) as <-.
  pose proof (pass_ok L HL s a g del Ha) as H. destruct a as [items dead cu nin nout].
  cbn [a_step a_items] in *.
  assert (Hno : survivors g del items = []).
  { unfold survivors. clear - Hdel. induction items as [|x l IH]; [done|]. cbn.
    rewrite Hdel by left. cbn. apply IH. intros y Hy. apply Hdel. by right. }
  destruct (Z.of_nat (length items) =? 0) eqn:E0; [destruct items; done|].
  rewrite Hno in H. destruct H as (s' & got & E & Hok & HR').
  destruct got; try done. exists s'. split; [done|].
  pose proof (rel_count L HL _ _ HR') as Hc. cbn in Hc. split; [done|]. split; [|split].
  - pose proof (loopstart_ok L HL _ _ HR') as H. cbn [py_step a_step] in H.
    destruct H as (s'' & got & E1 & Hok1 & _). destruct (init_out_loop s') as [[s2 [n b]]|]; [|done].
    simplify_eq. cbn in Hok1. destruct b as [v|]; [|done]. destruct Hok1 as [<- Hv].
    exists s'', v. split; [done|]. apply Forall2_length in Hv. rewrite replicate_length in Hv. lia.
  - intros x. pose proof (push_ok L HL _ _ x HR') as H. cbn [py_step a_step] in H.
    unfold push_refused in H. cbn in H. destruct (push_back s' x) as [[s2 [o i]]|e]; [done|congruence].
  - intros g' del'. cbn. unfold guarded_mover. by rewrite Hc.
Qed.
Example C07_case :
  let s := snd (run py_step (sap_init 2) [Push 1; Push 2; Push 3]) in
  match py_step s (Pass (fun x => x) (fun x => 0 <? x)) with
  | Ok (s', ODone) => get_number_of_items s' = 0 /\
      (exists s'', init_out_loop s' = Ok (s'', (2, Some [Some 3; None])) ) /\ push_back s' 9 = Raise AssertionError
  | _ => False
  end.
Proof. vm_compute. split; [done|]. split; [|done]. eexists. done. Qed.

(** * C08 *)
Theorem C08_indexed_access {A} (L : Z) (s : sap A) xs : 1 <= L ->
  Reachable L s -> Stores s xs ->
  (forall (i : nat) x, (i < length xs)%nat ->
     exists s', set_item s (Z.of_nat i) x = Ok s' /\ Stores s' (<[i:=x]> xs) /\
       in_sa s' = in_sa s /\ arr s' (in_sa s') = arr s (in_sa s) /\ Reachable L s') /\
  (forall i x, snd (get_capacity s) <= i ->
     get_item s i = Raise IndexError /\ set_item s i x = Raise IndexError).
Proof.
  intros HL HR Hs. destruct (reach_rel L HL s HR) as [a Ha].
  pose proof (rel_stores_eq L HL s a xs Ha Hs) as <-. split.
  - intros i x Hi. pose proof (set_ok L HL s a (Z.of_nat i) x Ha) as H.
    destruct a as [items dead cu nin nout]. cbn [py_step a_step a_items] in *.
    destruct dead; [destruct Ha as [_ Ha]; cbn in Ha; destruct Ha as [-> _]; cbn in Hi; lia|].
    pose proof Ha as [_ Hl]. cbn in Hl.
    pose proof (l_holds _ _ _ _ _ _ Hl) as [W P K]. pose proof (Prefix_le L _ _ HL W P) as Hle.
    rewrite (l_nout _ _ _ _ _ _ Hl) in Hle.
    assert (Hsl : slot_of (nout * L) (Z.of_nat i) = Some (Z.of_nat i)).
    { unfold slot_of. destruct (Z.of_nat i <? 0) eqn:E; [lia|]. destruct (_ && _) eqn:E2; [done|lia]. }
    rewrite Hsl, Nat2Z.id in H. destruct H as (s' & got & E & Hok & HR').
    destruct (set_item s (Z.of_nat i) x) as [s1|] eqn:Es; [|done]. simplify_eq.
    exists s'. split; [done|]. split; [apply (rel_stores L HL _ _ HR')|].
    assert (Reachable L s').
    { eapply r_op with (o := SetAt (Z.of_nat i) x); [exact HR|]. cbn [py_step]. by rewrite Es. }
    unfold set_item in Es. destruct (store _ _ _ _) as [a1|]; [|done]. injection Es as <-.
    rewrite in_set. split; [done|]. split; [|done].
    rewrite arr_set_other; [done|]. rewrite (l_pair _ _ _ _ _ _ Hl). by destruct (out_sa s).
  - intros i x Hi. 
    pose proof (get_ok L HL s a i Ha) as H1. pose proof (set_ok L HL s a i x Ha) as H2.
    pose proof (capacity_ok L HL s a Ha) as H3.
    destruct a as [items dead cu nin nout]. cbn [py_step a_step a_items] in *.
    assert (Hcap : snd (get_capacity s) = nout * L).
    { cbn in H3. destruct H3 as (s' & got & E & Hok & _). simplify_eq. cbn in Hok. destruct Hok as [_ ->]. done. }
    assert (0 <= nout * L).
    { destruct Ha as [_ Ha]; cbn in Ha. destruct dead.
      - destruct Ha as [_ Hd]. pose proof (wf_pos _ _ (d_wf _ _ _ _ _ Hd)). rewrite (d_nout _ _ _ _ _ Hd) in *. nia.
      - pose proof (wf_pos _ _ (h_wf _ _ _ (l_holds _ _ _ _ _ _ Ha))). rewrite (l_nout _ _ _ _ _ _ Ha) in *. nia. }
    assert (Hsl : slot_of (nout * L) i = None).
    { unfold slot_of. destruct (i <? 0) eqn:E; [lia|]. destruct (_ && _) eqn:E2; [lia|done]. }
    rewrite Hsl in H1, H2. cbn in H1, H2.
    destruct (get_item s i); [done|]. destruct (set_item s i x); [done|]. by simplify_eq.
Qed.
Example C08_case : snd (get_capacity demo_state) = 8 /\
  match set_item demo_state 1 77 with
  | Ok s' => get_item s' 1 = Ok (Some 77) /\ get_item s' 0 = Ok (Some 5) /\ get_item s' 8 = Raise IndexError
  | Raise _ => False
  end.
Proof. vm_compute. done. Qed.

(** * C10 *)
Theorem C10_segment_length_invisible {A C} (L1 L2 : Z) (s1 s2 : sap A) xs (hk : hooks A C) c :
  1 <= L1 -> 1 <= L2 -> Reachable L1 s1 -> Reachable L2 s2 -> Stores s1 xs -> Stores s2 xs ->
  match guarded_mover (py_ops A) hk s1 c, guarded_mover (py_ops A) hk s2 c with
  | Ok (t1, c1), Ok (t2, c2) => c1 = c2 /\ exists ys, Stores t1 ys /\ Stores t2 ys
  | Raise e1, Raise e2 => e1 = e2
  | _, _ => False
  end.
Proof.
  intros H1 H2 R1 R2 S1 S2.
  pose proof (C04_pass_is_sequential L1 s1 xs hk c H1 R1 S1) as P1.
  pose proof (C04_pass_is_sequential L2 s2 xs hk c H2 R2 S2) as P2.
  destruct (seq_pass hk 0 [] false c xs) as [[ys c']|e].
  - destruct P1 as (t1 & -> & ? & _), P2 as (t2 & -> & ? & _). split; [done|]. by exists ys.
  - by rewrite P1, P2.
Qed.
Example C10_case :
  let hk := pure_hooks (Z.add 1) (fun x => x mod 3 =? 0) in
  let s1 := snd (run py_step (sap_init 2) [Push 1; Push 2; Push 3; Push 4; Push 5]) in
  let s2 := snd (run py_step (sap_init 100) [Push 1; Push 2; Push 3; Push 4; Push 5]) in
  match guarded_mover (py_ops Z) hk s1 tt, guarded_mover (py_ops Z) hk s2 tt with
  | Ok (t1, _), Ok (t2, _) => get_number_of_items t1 = 3 /\ get_number_of_items t2 = 3 /\
     get_item t1 1 = Ok (Some 4) /\ get_item t2 1 = Ok (Some 4)
  | _, _ => False
  end.
Proof. vm_compute. done. Qed.

(** * C11 *)

(** The hooks of the uniform-field mover: update [g] (acceleration and move,
    lines 2259-2270), delete flag [del]. *)
Definition uniform_hooks {A} (g : A -> A) (del : A -> bool) : hooks A unit := pure_hooks g del.

Theorem C11_uniform_mover_count {A} (L : Z) (s : sap A) xs g del chk : 1 <= L ->
  Reachable L s -> Stores s xs -> xs <> [] ->
  let ys := map g (List.filter (fun x => negb (del x)) xs) in
  let k := Z.of_nat (length ys) in
  exists s', uniform_mover (py_ops A) (uniform_hooks g del) chk s tt = Ok (s', tt) /\
    get_number_of_items s' = (if negb chk && (0 <? k) && (k mod L =? 0) then k + L else k) /\
    (forall (i : nat) y, ys !! i = Some y -> get_item s' (Z.of_nat i) = Ok (Some y)).
Proof.
  intros HL HR Hs Hne. cbv zeta.
  destruct (reach_rel L HL s HR) as [a Ha].
  pose proof (rel_stores_eq L HL s a xs Ha Hs) as <-.
  destruct a as [items dead cu nin nout]. cbn [a_items] in *.
  destruct Ha as [Hcu Ha]. cbn in Hcu, Ha. destruct dead; [by destruct Ha as [-> _]|].
  pose proof (uniform_whole (py_ops A) (uniform_hooks g del) L (Z.max nin nout) HL (fun _ _ => eq_refl)
    (fun _ _ _ => eq_refl) chk s items cu nin nout tt Ha Hne ltac:(lia) ltac:(lia) eq_refl) as H.
  assert (Hup : forall l o sg, exists sg', uni_pass (uniform_hooks g del) L o sg tt l =
    Ok (o ++ map g (List.filter (fun x => negb (del x)) l), sg', tt)).
  { induction l as [|p l IH]; intros o sg; cbn.
    - exists sg. by rewrite app_nil_r.
    - destruct (del p); cbn.
      + apply IH.
      + destruct (IH (o ++ [g p]) (Z.of_nat (length o) / L)) as [sg' E]. exists sg'. rewrite E.
        by rewrite <- app_assoc. }
  destruct (Hup items [] 0) as [sg' E]. rewrite E in H. cbn [app] in H.
  set (ys := map g (List.filter (fun x => negb (del x)) items)) in *.
  cbv zeta in H. destruct H as (s1 & Em & H1 & H2 & H3 & H4 & H5 & H6 & H7 & H8 & H9).
  eexists. split; [exact Em|]. cbn [py_ops op_set_out_count].
  set (K := if _ && _ && _ then _ else _).
  split.
  - unfold get_number_of_items, set_number_of_items, which.
    rewrite out_set, arr_set_same, slen_set. cbn [fnf fao]. rewrite H1. nia.
  - intros i y Hy. clearbody K. unfold get_item, set_number_of_items, which.
    rewrite out_set, arr_set_same, slen_set, H1.
    pose proof (fetch_slot L HL (arr s1 (out_sa s1)) (Z.of_nat i) H4) as Hf.
    pose proof (Prefix_le L _ _ HL H4 H5) as Hle. pose proof (lookup_lt_Some _ _ _ Hy) as Hlt.
    assert (Hsl : slot_of (nseg (arr s1 (out_sa s1)) * L) (Z.of_nat i) = Some (Z.of_nat i)).
    { unfold slot_of. destruct (Z.of_nat i <? 0) eqn:E1; [lia|]. match goal with |- (if ?b then _ else _) = _ => replace b with true by lia end; done. }
    rewrite Hsl in Hf. destruct Hf as (x & Hx & Hfl). rewrite Nat2Z.id in Hfl.
    pose proof (Prefix_lookup _ _ _ _ H5 Hy) as Hp. rewrite Hp in Hfl. simplify_eq.
    unfold fetch in *. cbn [segs]. exact Hx.
Qed.

(** The count is right exactly when the number of survivors is zero or not a
    multiple of the segment length (Python); always right with the C++ test. *)
Theorem C11_uniform_mover_count_iff {A} (L : Z) (s : sap A) xs g del s' : 1 <= L ->
  Reachable L s -> Stores s xs -> xs <> [] ->
  uniform_mover (py_ops A) (uniform_hooks g del) false s tt = Ok (s', tt) ->
  let k := Z.of_nat (length (List.filter (fun x => negb (del x)) xs)) in
  (get_number_of_items s' = k <-> k = 0 \/ k mod L <> 0) /\
  (k <> 0 -> k mod L = 0 -> get_number_of_items s' = k + L).
Proof.
  intros HL HR Hs Hne E. cbv zeta.
  destruct (C11_uniform_mover_count L s xs g del false HL HR Hs Hne) as (s1 & E1 & Hn & _).
  rewrite E in E1. simplify_eq. rewrite map_length in Hn. rewrite Hn. cbn [negb andb].
  destruct ((0 <? _) && _) eqn:Eb; lia.
Qed.
Example C11_case :
  let s := snd (run py_step (sap_init 2) [Push 1; Push 2; Push 3; Push 4; Push 5]) in
  match uniform_mover (py_ops Z) (uniform_hooks (Z.add 10) (fun x => x =? 3)) false s tt with
  | Ok (s', _) => get_number_of_items s' = 6 /\ get_item s' 3 = Ok (Some 15)
  | Raise _ => False
  end.
Proof. vm_compute. done. Qed.

Print Assumptions C01_push_keeps_place.
Print Assumptions C02_storage_grows_as_needed.
Print Assumptions C03_out_loop_visits_all.
Print Assumptions C04_pass_keeps_survivors.
Print Assumptions C04_pass_is_sequential.
Print Assumptions C05_history_refines_list.
Print Assumptions C06_push_refused_exactly.
Print Assumptions C06_push_or_assert.
Print Assumptions C06_push_fails_after_full_loop.
Print Assumptions C06_push_after_pass.
Print Assumptions C07_died_out_species.
Print Assumptions C08_indexed_access.
Print Assumptions C10_segment_length_invisible.
Print Assumptions C11_uniform_mover_count.
Print Assumptions C11_uniform_mover_count_iff.
