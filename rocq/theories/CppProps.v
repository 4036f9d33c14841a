(** Properties of the C++ container: C09, the C++ halves of C07 and C11, and C42.

    Histories and the plain-list specification are those of SapSpec.v; [c_step ck] runs
    one operation on the C++ model, [ck] selecting the [push_back] overload (array, or
    tuple/list).  All statements bound the history by the range of the 32-bit counters. *)
From Verif Require Import SapModel MoverModel SapProofs MoverProofs SapSpec SapRefine UniformProofs
  StorageProps SapCpp SapCppProofs.
From Coq Require Import ZifyBool ZifyNat.
Ltac Zify.zify_post_hook ::= Z.div_mod_to_equations.

(** The range of the C++ counters. *)
Definition in_range {A} (L : Z) (h : list (op A)) : Prop :=
  1 <= L < 4294967296 /\ Z.of_nat (length h) + 2 < 4294967296.

(** A history that reads and writes only existing items and never removes all of them.
    [xs] are the items at that moment. *)
Fixpoint well_used {A} (xs : list A) (h : list (op A)) : Prop :=
  match h with
  | [] => True
  | Push x :: h' => well_used (xs ++ [x]) h'
  | Get i :: h' => 0 <= i < Z.of_nat (length xs) /\ well_used xs h'
  | SetAt i x :: h' => 0 <= i < Z.of_nat (length xs) /\ well_used (<[Z.to_nat i := x]> xs) h'
  | Pass g del :: h' => (xs = [] \/ survivors g del xs <> []) /\ well_used (survivors g del xs) h'
  | _ :: h' => well_used xs h'
  end.

(** * Agreement with the Python container *)

Definition full_obs {A} (o : obs A) : Prop :=
  match o with
  | OItem None => False
  | OBlock _ (Some v) => Forall is_Some v
  | _ => True
  end.

Lemma full_unique {A} (w g1 g2 : obs A) : full_obs w -> obs_ok w g1 -> obs_ok w g2 -> g1 = g2.
Proof.
  destruct w as [|? ?|[x|]|?|? ?|? [v|]]; intros Hf H1 H2; destruct g1 as [|? ?|?|?|? ?|? []], g2 as [|? ?|?|?|? ?|? []];
    cbn in *; try done; try (destruct H1, H2; congruence); try congruence.
  destruct H1 as [<- F1], H2 as [<- F2]. do 2 f_equal.
  revert dependent l. revert dependent l0. induction Hf as [|y v [z ->] Hf IH]; intros l0 F1 l F2.
  - inversion F1; inversion F2; done.
  - inversion F1 as [|? ? ? ? E1 F1']; inversion F2 as [|? ? ? ? E2 F2']; subst. cbn in E1, E2. subst.
    f_equal. by apply IH.
Qed.

Lemma full_self {A} (w : obs A) : full_obs w -> obs_ok w w.
Proof.
  destruct w as [|? ?|[x|]|?|? ?|? [v|]]; cbn; try done. intros Hf. split; [done|].
  induction Hf as [|y v [z ->] Hf IH]; constructor; done.
Qed.

Lemma full_list {A} (w g : list (obs A)) : Forall full_obs w -> Forall2 obs_ok w g -> g = w.
Proof.
  intros Hf F. induction F as [|o o' w g Ho F IH]; [done|]. apply Forall_cons_1 in Hf as [H1 H2].
  f_equal; [|by apply IH]. eapply full_unique; [exact H1|exact Ho|by apply full_self].
Qed.

Lemma full_fmap {A} (l : list A) : Forall is_Some (Some <$> l).
Proof. apply Forall_fmap, Forall_true. intros x. by exists x. Qed.

Lemma Rel_bounds {A} L (HL : 1 <= L) (s : sap A) xs cu nin nout :
  Rel L s (AState xs false cu nin nout) ->
  Z.of_nat (length xs) <= nout * L /\ 1 <= nin /\ 1 <= nout.
Proof.
  intros [_ HR]. cbn in HR. destruct HR as [? ? [W P K] ? <- W' <-].
  split; [by apply Prefix_le|]. split; [apply (wf_pos _ _ W')|apply (wf_pos _ _ W)].
Qed.

Lemma well_used_agree {A} L (HL : 1 <= L) (xs : list A) cu nin nout h :
  forall s1, Rel L s1 (AState xs false cu nin nout) -> well_used xs h ->
  c_pres true L (AState xs false cu nin nout) h /\
  run (a_step_cpp true L) (AState xs false cu nin nout) h = run (a_step L) (AState xs false cu nin nout) h /\
  Forall full_obs (run (a_step L) (AState xs false cu nin nout) h).1.1.
Proof.
  revert xs cu nin nout. induction h as [|o h IH]; intros xs cu nin nout s1 HR Hw; [by cbn|].
  assert (Hcap : Z.of_nat (length xs) <= nout * L).
  { by destruct (Rel_bounds L HL _ _ _ _ _ HR). }
  pose proof (step_refines L HL s1 _ o HR) as Hst.
  assert (Hgo : forall a' r, a_step_cpp true L (AState xs false cu nin nout) o = Ok (a', r) ->
     a_step L (AState xs false cu nin nout) o = Ok (a', r) -> a_dead a' = false -> full_obs r ->
     c_pre L (AState xs false cu nin nout) o -> well_used (a_items a') h ->
     c_pres true L (AState xs false cu nin nout) (o :: h) /\
     run (a_step_cpp true L) (AState xs false cu nin nout) (o :: h) = run (a_step L) (AState xs false cu nin nout) (o :: h) /\
     Forall full_obs (run (a_step L) (AState xs false cu nin nout) (o :: h)).1.1).
  { intros [xs' dd cu' nin' nout'] r E1 E2 Hd Hf Hp Hw'. cbn in Hd, Hw'. subst dd.
    rewrite E2 in Hst. destruct Hst as (s' & got & _ & _ & HR').
    destruct (IH _ _ _ _ _ HR' Hw') as (I1 & I2 & I3).
    cbn [c_pres run]. rewrite E1, E2. split; [done|]. rewrite I2.
    destruct (run (a_step L) (AState xs' false cu' nin' nout') h) as [[rs e] a2] eqn:Er. cbn in I3 |- *.
    split; [done|]. by constructor. }
  destruct o as [x|i|i x| | | | | |g del].
  - destruct (push_refused L (AState xs false cu nin nout)) eqn:Er.
    + unfold push_refused in Er. cbn in Er.
      assert (E1 : a_step_cpp true L (AState xs false cu nin nout) (Push x) = Raise AssertionError).
      { cbn. replace ((0 <? Z.of_nat (length xs)) && (Z.of_nat (length xs) mod L =? 0)) with true by lia.
        replace (cu + 1 =? Z.of_nat (length xs) / L) with false by lia. done. }
      assert (E2 : a_step L (AState xs false cu nin nout) (Push x) = Raise AssertionError).
      { cbn. unfold push_refused. cbn. rewrite Er. done. }
      cbn [c_pres run]. rewrite E1, E2. split; [done|]. split; [done|]. constructor.
    + unfold push_refused in Er. cbn in Er. cbn in Hw.
      destruct ((0 <? Z.of_nat (length xs)) && (Z.of_nat (length xs) mod L =? 0)) eqn:Eb.
      * eapply Hgo; cbn; unfold push_refused; cbn; rewrite ?Eb; cbn.
        { replace (cu + 1 =? Z.of_nat (length xs) / L) with true by lia. reflexivity. }
        { replace (cu + 1 =? Z.of_nat (length xs) / L) with true by lia. reflexivity. }
        all: done.
      * eapply Hgo; cbn; unfold push_refused; cbn; rewrite ?Eb; cbn; try reflexivity; done.
  - destruct Hw as [Hi Hw]. eapply Hgo; cbn.
    + replace ((0 <=? i) && (i <? nout * L)) with true by lia. reflexivity.
    + unfold slot_of. replace (i <? 0) with false by lia.
      replace ((0 <=? i) && (i <? nout * L)) with true by lia. reflexivity.
    + done.
    + cbn. destruct (lookup_lt_is_Some_2 xs (Z.to_nat i)) as [y ->]; [lia|done].
    + done.
    + done.
  - destruct Hw as [Hi Hw]. eapply Hgo; cbn.
    + replace ((0 <=? i) && (i <? nout * L)) with true by lia. reflexivity.
    + unfold slot_of. replace (i <? 0) with false by lia.
      replace ((0 <=? i) && (i <? nout * L)) with true by lia. reflexivity.
    + done.
    + done.
    + cbn. lia.
    + done.
  - by eapply Hgo.
  - by eapply Hgo.
  - by eapply Hgo.
  - eapply Hgo; try reflexivity; [|done]. cbn. destruct (_ =? _); [done|]. apply full_fmap.
  - eapply Hgo; try reflexivity; [|done]. cbn. destruct (_ <? _); [|done]. apply full_fmap.
  - destruct Hw as [Hi Hw].
    destruct (Z.of_nat (length xs) =? 0) eqn:E0.
    + assert (xs = []) as -> by (destruct xs; [done|cbn in E0; lia]).
      eapply Hgo; try reflexivity; [by right; left|done].
    + destruct Hi as [->|Hi]; [done|].
      eapply Hgo; cbn [a_step a_step_cpp]; rewrite ?E0.
      * reflexivity.
      * by destruct (survivors g del xs).
      * done.
      * done.
      * by right; right.
      * done.
Qed.

(** C09: for every such history the two containers return the same values, and fail with
    the same exception at the same operation. *)
Theorem C09_cpp_agrees_with_python {A} (L : Z) (h : list (op A)) :
  in_range L h -> well_used [] h ->
  fst (run (c_step true) (c_init L) h) = fst (run py_step (sap_init L) h).
Proof.
  intros [HL Hlen] Hw. assert (HL1 : 1 <= L) by lia.
  destruct (well_used_agree L HL1 [] 0 1 1 h _ (Rel_init L HL1) Hw) as (Hp & Eq & Hf).
  pose proof (run_refines L HL1 h _ _ (Rel_init L HL1)) as Hpy.
  pose proof (c_run_refines true L HL h 1 _ _ ltac:(lia) (CRel_init L HL) Hp) as Hc.
  fold (@a_init A) in Eq, Hf. rewrite Eq in Hc.
  destruct (run py_step (sap_init L) h) as [[g1 e1] s1].
  destruct (run (c_step true) (c_init L) h) as [[g2 e2] s2].
  destruct (run (a_step L) a_init h) as [[w e] a]. cbn in Hf.
  destruct Hpy as (F1 & -> & _). destruct Hc as (F2 & -> & _). cbn. f_equal.
  clear - F1 F2 Hf. revert g1 g2 F1 F2. induction Hf as [|o w Ho Hf IH]; intros g1 g2 F1 F2.
  - inversion F1; inversion F2; done.
  - inversion F1; inversion F2; subst. f_equal; [by eapply full_unique|by apply IH].
Qed.

(** C09, in full: every history on the C++ container, with either overload of
    [push_back], returns what the specification promises; out-of-range indices, the
    all-deleted pass and the unchecked overload included. *)
Theorem C09_cpp_history_refines_list {A} (ck : bool) (L : Z) (h : list (op A)) :
  in_range L h -> c_pres ck L a_init h ->
  let '(got, e1, _) := run (c_step ck) (c_init L) h in
  let '(want, e2, _) := run (a_step_cpp ck L) a_init h in
  Forall2 obs_ok want got /\ e1 = e2.
Proof.
  intros [HL Hlen] Hp.
  pose proof (c_run_refines ck L HL h 1 _ _ ltac:(lia) (CRel_init L HL) Hp) as Hc.
  destruct (run (c_step ck) (c_init L) h) as [[g2 e2] s2].
  destruct (run (a_step_cpp ck L) a_init h) as [[w e] a]. by destruct Hc as (? & ? & _).
Qed.

Definition c09_history : list (op Z) :=
  [Push 1; Push 2; Push 3; Push 4; Push 5; Get 4; LoopStart; LoopNext; Count;
   Pass (Z.add 10) (fun x => x =? 13); Get 2; SetAt 1 99; LoopStart; LoopNext; Capacity; Push 6; Count].
Example C09_case :
  well_used [] c09_history /\
  fst (run (c_step true) (c_init 2) c09_history) =
   ([OPos 0 0; OPos 1 1; OPos 0 2; OPos 1 3; OPos 0 4; OItem (Some 5);
     OBlock 2 (Some [Some 1; Some 2]); OBlock 2 (Some [Some 3; Some 4]); ONum 5; ODone;
     OItem (Some 14); ODone; OBlock 2 (Some [Some 11; Some 99]); OBlock 2 (Some [Some 14; Some 15]);
     OPair 6 4; OPos 0 4; ONum 5], None).
Proof. vm_compute. repeat split; try done; by right. Qed.

(** * C07: a pass that deletes everything *)

Definition sets_ok {A} (h : list (op A)) : Prop :=
  Forall (fun o => match o with SetAt i _ => 0 <= i | _ => True end) h.

Lemma sets_pres {A} ck L (h : list (op A)) : 2 <= L -> sets_ok h -> forall a, c_pres ck L a h.
Proof.
  intros HL Hs. induction Hs as [|o h Ho Hs IH]; intros a; cbn; [done|]. split.
  - destruct o; try done. by left.
  - destruct (a_step_cpp ck L a o) as [[a' r]|]; [apply IH|done].
Qed.

Lemma run_app {A S} (step : S -> op A -> res (S * obs A)) s h1 h2 r1 s1 :
  run step s h1 = (r1, None, s1) ->
  run step s (h1 ++ h2) = let '(r2, e2, s2) := run step s1 h2 in (r1 ++ r2, e2, s2).
Proof.
  revert s r1. induction h1 as [|o h1 IH]; intros s r1; cbn.
  - intros; simplify_eq. by destruct (run step s1 h2) as [[? ?] ?].
  - destruct (step s o) as [[s' r]|]; [|done].
    destruct (run step s' h1) as [[rs e] s2] eqn:E. intros; simplify_eq.
    rewrite (IH _ _ E). by destruct (run step s1 h2) as [[? ?] ?].
Qed.

(** With a segment length of at least 2, a species of the C++ container that has lost all
    its particles is empty and takes new ones like a new container. *)
Theorem C07_cpp_died_out_recovers {A} (ck : bool) (L : Z) (h : list (op A)) rs s g x :
  2 <= L -> in_range L (h ++ [Pass g (fun _ => true); Count; Push x; Count; Get 0]) -> sets_ok h ->
  run (c_step ck) (c_init L) h = (rs, None, s) -> 0 < c_get_number_of_items s ->
  fst (run (c_step ck) s [Pass g (fun _ => true); Count; Push x; Count; Get 0]) =
    ([ODone; ONum 0; OPos 0 0; ONum 1; OItem (Some x)], None).
Proof.
  intros HL2 [HL Hlen] Hs Er Hpos. rewrite app_length in Hlen. cbn [length] in Hlen.
  pose proof (c_run_refines ck L HL h 1 _ _ ltac:(lia) (CRel_init L HL) (sets_pres ck L h HL2 Hs _)) as Hc.
  rewrite Er in Hc. destruct (run (a_step_cpp ck L) a_init h) as [[w e] a].
  destruct Hc as (_ & _ & HR).
  pose proof HR as (HR0 & Hd & _). destruct a as [items dead cu nin nout]. cbn in Hd. subst dead.
  assert (Hcnt : c_get_number_of_items s = Z.of_nat (length items)).
  { pose proof (count_ok L ltac:(lia) s _ HR0) as (s' & got & E & Hok & _). cbn in E. simplify_eq. cbn in Hok. done. }
  set (h2 := [Pass g (fun _ => true); Count; Push x; Count; Get 0]).
  assert (Hp2 : c_pres ck L (AState items false cu nin nout) h2).
  { apply sets_pres; [done|]. unfold h2. repeat constructor. }
  pose proof (c_run_refines ck L HL h2 (1 + Z.of_nat (length h)) _ _ ltac:(unfold h2; cbn [length]; lia) HR Hp2) as Hc.
  assert (Hsurv : survivors g (fun _ => true) items = []).
  { unfold survivors. induction (map g items); done. }
  assert (Hsurv' : survivors g (fun _ => true) (removelast items) = []).
  { unfold survivors. induction (map g (removelast items)); done. }
  assert (Hw : exists af, run (a_step_cpp ck L) (AState items false cu nin nout) h2 =
    ([ODone; ONum 0; OPos 0 0; ONum 1; OItem (Some x)], None, af)).
  { unfold h2. cbn [run a_step_cpp]. replace (Z.of_nat (length items) =? 0) with false by lia.
    rewrite Hsurv, Hsurv'. cbn [length]. change (Z.of_nat 0) with 0. rewrite Z.div_0_l by lia.
    cbn -[Z.mul]. rewrite Z.mod_0_l by lia.
    assert (Hni : 1 <= nin). { by destruct (Rel_bounds L ltac:(lia) _ _ _ _ _ HR0) as (_ & ? & _). }
    change (Z.of_nat 0) with 0. change (0 <? 0) with false. cbn [andb a_step_cpp a_step length].
    change (Z.of_nat 1) with 1. change (0 <=? 0) with true. cbn [andb].
    replace (0 <? nin `max` (0 + 1) * L) with true by nia. eexists. reflexivity. }
  destruct Hw as [af Hw]. rewrite Hw in Hc.
  destruct (run (c_step ck) s h2) as [[g2 e2] s2]. destruct Hc as (F & -> & _). cbn. f_equal.
  apply full_list in F; [done|]. repeat constructor.
Qed.
Example C07_cpp_case :
  fst (run (c_step true) (c_init 2)
    [Push 1; Push 2; Push 3; Pass (Z.add 1) (fun _ => true); Count; Push 7; Count; Get 0]) =
  ([OPos 0 0; OPos 1 1; OPos 0 2; ODone; ONum 0; OPos 0 0; ONum 1; OItem (Some 7)], None).
Proof. vm_compute. done. Qed.

(** The Python container refuses in the same situation. *)
Example C07_cpp_python_differs :
  fst (run py_step (sap_init 2)
    [Push 1; Push 2; Push 3; Pass (Z.add 1) (fun _ => true); Count; Push 7; Count; Get 0]) =
  ([OPos 0 0; OPos 1 1; OPos 0 2; ODone; ONum 0], Some AssertionError).
Proof. vm_compute. done. Qed.

(** With segment length 1 the C++ container reports 2^32 particles instead of none. *)
Theorem C07_cpp_length_one_refuted :
  fst (run (c_step true) (c_init 1) [Push 1; Push 2; Pass (Z.add 1) (fun _ => true); Count]) =
  ([OPos 0 0; OPos 0 1; ODone; ONum 4294967296], None).
Proof. vm_compute. done. Qed.

(** * C11: the C++ uniform-field mover counts correctly *)

Theorem C11_cpp_uniform_mover_count {A} (ck : bool) (L : Z) (h : list (op A)) rs s g xs :
  2 <= L -> in_range L h -> sets_ok h ->
  run (c_step ck) (c_init L) h = (rs, None, s) ->
  c_get_number_of_items s = Z.of_nat (length xs) -> xs <> [] ->
  (forall (i : nat) x, xs !! i = Some x -> c_get_item s (Z.of_nat i) = Ok (Some x)) ->
  exists s', uniform_mover (cpp_ops A) (uniform_hooks g (fun _ => false)) true s tt = Ok (s', tt) /\
    c_get_number_of_items s' = Z.of_nat (length xs) /\
    (forall (i : nat) x, xs !! i = Some x -> c_get_item s' (Z.of_nat i) = Ok (Some (g x))).
Proof.
  intros HL2 [HL Hlen] Hs Er Hn Hne Hx. assert (HL1 : 1 <= L) by lia.
  pose proof (c_run_refines ck L HL h 1 _ _ ltac:(lia) (CRel_init L HL) (sets_pres ck L h HL2 Hs _)) as Hc.
  rewrite Er in Hc. destruct (run (a_step_cpp ck L) a_init h) as [[w e] a].
  destruct Hc as (_ & _ & HR).
  pose proof HR as (HR0 & Hd & Hb1 & Hb2 & Hb3). destruct a as [items dead cu nin nout]. cbn in Hd, Hb1, Hb2, Hb3. subst dead.
  assert (Hcnt : c_get_number_of_items s = Z.of_nat (length items)).
  { pose proof (count_ok L HL1 s _ HR0) as (s' & got & E & Hok & _). cbn in E. simplify_eq. cbn in Hok. done. }
  assert (Hread : forall B (s : sap A) items cu nin nout, CRel L B s (AState items false cu nin nout) -> forall (i : nat) x, items !! i = Some x ->
     c_get_item s (Z.of_nat i) = Ok (Some x)).
  { clear - HL HL1. intros B s items cu nin nout HR i x Hi. pose proof (c_get_ok false L HL B s _ (Z.of_nat i) HR) as Hg.
    cbn [c_step a_step_cpp c_ok] in Hg.
    assert (Hcap : Z.of_nat (length items) <= nout * L).
    { by destruct (Rel_bounds L HL1 _ _ _ _ _ (proj1 HR)). }
    pose proof (lookup_lt_Some _ _ _ Hi) as Hilt.
    replace ((0 <=? Z.of_nat i) && (Z.of_nat i <? nout * L)) with true in Hg by lia.
    destruct Hg as (s' & got & E & Hok & _).
    destruct (c_get_item s (Z.of_nat i)) as [y|]; [|done]. injection E as <- <-.
    rewrite Nat2Z.id, Hi in Hok. cbn in Hok. by rewrite Hok. }
  assert (items = xs) as ->.
  { apply list_eq. intros i. destruct (items !! i) as [x|] eqn:Ei.
    - destruct (xs !! i) as [y|] eqn:Ey.
      + pose proof (Hread _ _ _ _ _ _ HR i x Ei). pose proof (Hx i y Ey). congruence.
      + apply lookup_ge_None in Ey. apply lookup_lt_Some in Ei. lia.
    - apply lookup_ge_None in Ei. rewrite lookup_ge_None_2; [done|lia]. }
  destruct HR0 as [Hc0 HLive]. cbn in Hc0, HLive.
  set (N := Z.max nin nout).
  pose proof (uniform_whole (cpp_ops A) (uniform_hooks g (fun _ => false)) L N HL1
    (fun s => cpp_next_in L HL N s ltac:(lia)) (fun s => cpp_next_out L HL N s ltac:(lia))
    true s xs cu nin nout tt HLive Hne ltac:(lia) ltac:(lia) (cpp_init_inout L HL _ _ _ _ _ HLive)) as H.
  assert (Hup : forall l o sg, exists sg', uni_pass (uniform_hooks g (fun _ => false)) L o sg tt l =
    Ok (o ++ map g l, sg', tt)).
  { induction l as [|p l IH]; intros o sg; cbn.
    - exists sg. by rewrite app_nil_r.
    - destruct (IH (o ++ [g p]) (Z.of_nat (length o) / L)) as [sg' E]. exists sg'. rewrite E.
      by rewrite <- app_assoc. }
  destruct (Hup xs [] 0) as [sg' E]. rewrite E in H. cbn [app] in H.
  cbv zeta in H. cbn [negb andb] in H. destruct H as (s1 & Em & H1 & H2 & H3 & H4 & H5 & H6 & H7 & H8 & H9).
  eexists. split; [exact Em|]. rewrite map_length. cbn [cpp_ops op_set_out_count].
  pose proof (Prefix_le L _ _ HL1 H4 H5) as Hcap. rewrite map_length in Hcap.
  set (k := Z.of_nat (length xs)) in *.
  assert (Hk : 1 <= k) by (destruct xs; [done|cbn in k; lia]).
  set (s2 := c_set_number_of_items s1 false k).
  assert (Hq : k <= nout * L).
  { destruct HLive as [? ? [W P K] ? <- ? ?]. by apply Prefix_le. }
  assert (Hs2 : fnf (arr s2 (out_sa s2)) = (k - 1) / L /\ fao (arr s2 (out_sa s2)) = (k - 1) mod L + 1 /\
     slen s2 = L /\ segs (arr s2 (out_sa s2)) = segs (arr s1 (out_sa s1))).
  { subst s2. unfold c_set_number_of_items, which. rewrite out_set, arr_set_same, slen_set. cbn [fnf fao segs].
    rewrite H1. destruct (quot_rem_nonneg L HL (k - 1)) as [-> ->]; [lia|].
    rewrite !u32_id; [done|lia|]. split; [apply Z.div_pos; lia|].
    apply Z.lt_le_trans with nout; [apply Z.div_lt_upper_bound; lia|lia]. }
  destruct Hs2 as (S1 & S2 & S3 & S4).
  split.
  - unfold c_get_number_of_items. rewrite S1, S2, S3. lia.
  - intros i x Hi. unfold c_get_item. rewrite S3, S4.
    destruct (quot_rem_nonneg L HL (Z.of_nat i)) as [-> ->]; [lia|].
    pose proof (lookup_lt_Some _ _ _ Hi) as Hilt.
    assert (Hd : 0 <= Z.of_nat i / L < nseg (arr s1 (out_sa s1))).
    { split; [apply Z.div_pos; lia|apply Z.div_lt_upper_bound; lia]. }
    destruct (fetch_ok L (arr s1 (out_sa s1)) (Z.of_nat i / L) (Z.of_nat i mod L) HL1 H4 Hd ltac:(lia)) as (y & Hy & Hfy).
    unfold fetch in Hy. destruct (py_get (segs (arr s1 (out_sa s1))) (Z.of_nat i / L)) as [v|] eqn:Ev; [|done].
    rewrite (c_get_py _ _ v) by (done || lia). apply c_get_py; [lia|]. rewrite Hy. f_equal.
    replace (Z.to_nat (Z.of_nat i / L * L + Z.of_nat i mod L)) with i in Hfy by lia.
    assert (Hg : map g xs !! i = Some (g x)) by (rewrite list_lookup_fmap, Hi; done).
    pose proof (Prefix_lookup _ _ _ _ H5 Hg). congruence.
Qed.
Example C11_cpp_case :
  let s := snd (run (c_step true) (c_init 2) [Push 1; Push 2; Push 3; Push 4]) in
  match uniform_mover (cpp_ops Z) (uniform_hooks (Z.add 10) (fun _ => false)) true s tt with
  | Ok (s', _) => c_get_number_of_items s' = 4 /\ c_get_item s' 3 = Ok (Some 14)
  | Raise _ => False
  end.
Proof. vm_compute. done. Qed.

(** * C42: the unchecked overloads *)

(** After any history, the tuple and list overloads of [push_back] append the item at the
    next index without ever failing an assertion, except that they write outside the
    segment list exactly when every slot of the out array is taken and the loop cursor
    ([cursor], the number of loop steps since the loop was started) is not on the last
    segment or beyond. *)
Theorem C42_unchecked_push {A} (L : Z) (h : list (op A)) rs s x :
  2 <= L -> in_range L (h ++ [Push x]) -> sets_ok h ->
  run (c_step false) (c_init L) h = (rs, None, s) ->
  let n := c_get_number_of_items s in
  let nout := snd (c_get_number_of_segments s) in
  let cursor := cur (arr s (out_sa s)) in
  (n = nout * L /\ cursor + 1 < nout -> c_push_back false s x = Raise UndefinedBehaviour) /\
  (~ (n = nout * L /\ cursor + 1 < nout) ->
    exists s', c_push_back false s x = Ok (s', (n mod L, n)) /\
      c_get_number_of_items s' = n + 1 /\ c_get_item s' n = Ok (Some x) /\
      forall i, 0 <= i < n -> c_get_item s' i = c_get_item s i).
Proof.
  intros HL2 [HL Hlen] Hs Er. cbv zeta. assert (HL1 : 1 <= L) by lia.
  rewrite app_length in Hlen. cbn [length] in Hlen.
  pose proof (c_run_refines false L HL h 1 _ _ ltac:(lia) (CRel_init L HL) (sets_pres false L h HL2 Hs _)) as Hc.
  rewrite Er in Hc. destruct (run (a_step_cpp false L) a_init h) as [[w e] a].
  destruct Hc as (_ & _ & HR).
  pose proof HR as (HR0 & Hd & Hb1 & Hb2 & Hb3). destruct a as [items dead cu nin nout]. cbn in Hd, Hb1, Hb2, Hb3. subst dead.
  assert (Hread : forall B (s : sap A) items cu nin nout, CRel L B s (AState items false cu nin nout) -> forall (i : nat) x, items !! i = Some x ->
     c_get_item s (Z.of_nat i) = Ok (Some x)).
  { clear - HL HL1. intros B s items cu nin nout HR i x Hi. pose proof (c_get_ok false L HL B s _ (Z.of_nat i) HR) as Hg.
    cbn [c_step a_step_cpp c_ok] in Hg.
    assert (Hcap : Z.of_nat (length items) <= nout * L).
    { by destruct (Rel_bounds L HL1 _ _ _ _ _ (proj1 HR)). }
    pose proof (lookup_lt_Some _ _ _ Hi) as Hilt.
    replace ((0 <=? Z.of_nat i) && (Z.of_nat i <? nout * L)) with true in Hg by lia.
    destruct Hg as (s' & got & E & Hok & _).
    destruct (c_get_item s (Z.of_nat i)) as [y|]; [|done]. injection E as <- <-.
    rewrite Nat2Z.id, Hi in Hok. cbn in Hok. by rewrite Hok. }
  assert (Hcount : forall B (s : sap A) items cu nin nout, CRel L B s (AState items false cu nin nout) ->
     c_get_number_of_items s = Z.of_nat (length items)).
  { clear - HL HL1. intros B s items cu nin nout [HR0 _].
    pose proof (count_ok L HL1 s _ HR0) as (s' & got & E & Hok & _). cbn in E. simplify_eq. cbn in Hok. done. }
  rewrite (Hcount _ _ _ _ _ _ HR).
  assert (Hcur : cur (arr s (out_sa s)) = cu /\ snd (c_get_number_of_segments s) = nout).
  { destruct HR0 as [_ HR1]. cbn in HR1. by destruct HR1 as [? ? ? <- <- ? ?]. }
  destruct Hcur as [-> ->].
  pose proof (c_push_ok false L HL (1 + Z.of_nat (length h)) s _ x ltac:(lia) HR) as Hpush.
  cbn [c_step a_step_cpp] in Hpush. set (n := Z.of_nat (length items)) in *.
  assert (Hcap : n <= nout * L).
  { by destruct (Rel_bounds L HL1 _ _ _ _ _ HR0). }
  assert (Hno : 1 <= nout). { by destruct (Rel_bounds L HL1 _ _ _ _ _ HR0) as (_ & _ & ?). }
  split.
  - intros [En Ec]. replace ((0 <? n) && (n mod L =? 0)) with true in Hpush.
    2: { rewrite En. rewrite Z.mod_mul by lia. nia. }
    replace (cu + 1 <? nout) with true in Hpush by lia. replace (n =? nout * L) with true in Hpush by lia.
    cbn in Hpush. destruct (c_push_back false s x) as [[s1 [o1 i1]]|]; [done|]. congruence.
  - intros Hno2.
    assert (Hfin : forall a', a_items a' = items ++ [x] -> a_dead a' = false ->
      (exists s' (got : obs A), (match c_push_back false s x with Ok (s1, (off, i)) => Ok (s1, OPos off i) | Raise er => Raise er end) = Ok (s', got) /\
        obs_ok (OPos (n mod L) n) got /\ CRel L (1 + Z.of_nat (length h) + 1) s' a') ->
      exists s', c_push_back false s x = Ok (s', (n mod L, n)) /\
      c_get_number_of_items s' = n + 1 /\ c_get_item s' n = Ok (Some x) /\
      forall i, 0 <= i < n -> c_get_item s' i = c_get_item s i).
    { intros [it dd cu' nin' nout'] E1 E2 (s' & got & Es & Hok & HR'). cbn in E1, E2. subst it dd.
      destruct (c_push_back false s x) as [[s1 [o1 i1]]|]; [|done]. injection Es as -> <-.
      cbn in Hok. destruct Hok as [<- <-]. exists s'. split; [done|].
      split; [rewrite (Hcount _ _ _ _ _ _ HR'), app_length; cbn; lia|]. split.
      - apply (Hread _ _ _ _ _ _ HR'). rewrite lookup_app_r, Nat.sub_diag by lia. done.
      - intros i Hi. destruct (lookup_lt_is_Some_2 items (Z.to_nat i)) as [y Hy]; [lia|].
        rewrite <- (Z2Nat.id i) by lia.
        rewrite (Hread _ _ _ _ _ _ HR _ _ Hy). apply (Hread _ _ _ _ _ _ HR').
        by apply lookup_app_l_Some. }
    destruct ((0 <? n) && (n mod L =? 0)) eqn:Eb.
    + assert (Hm : n mod L = 0) by lia. rewrite Hm in Hfin |- *.
      destruct (cu + 1 <? nout) eqn:Ec.
      * replace (n =? nout * L) with false in Hpush by lia. cbn [c_ok] in Hpush. by eapply Hfin; [..|exact Hpush].
      * cbn [c_ok] in Hpush. by eapply Hfin; [..|exact Hpush].
    + cbn [c_ok] in Hpush. by eapply Hfin; [..|exact Hpush].
Qed.
(** Four particles in two full segments, a loop over the particles has just been started,
    and one more particle is added. *)
Example C42_case :
  let s := snd (run (c_step false) (c_init 2) [Push 1; Push 2; Push 3; Push 4; LoopStart]) in
  c_push_back false s 5 = Raise UndefinedBehaviour /\
  c_push_back true s 5 = Raise AssertionError /\
  match c_push_back false (snd (run (c_step false) (c_init 2) [Push 1; Push 2; Push 3; Push 4; LoopStart; LoopNext; LoopNext])) 5 with
  | Ok (s', r) => r = (0, 4) /\ c_get_item s' 4 = Ok (Some 5)
  | Raise _ => False
  end.
Proof. vm_compute. done. Qed.

Print Assumptions C09_cpp_agrees_with_python.
Print Assumptions C09_cpp_history_refines_list.
Print Assumptions C07_cpp_died_out_recovers.
Print Assumptions C07_cpp_length_one_refuted.
Print Assumptions C11_cpp_uniform_mover_count.
Print Assumptions C42_unchecked_push.
