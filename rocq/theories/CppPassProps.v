(** The C++ half of C04: a pass of a C++ mover with any work per particle and any bookkeeping is the plain left-to-right loop. *)
From Verif Require Import SapModel MoverModel SapProofs MoverProofs SapSpec SapRefine StorageProps SapCpp SapCppProofs.
From Coq Require Import ZifyBool ZifyNat.
Ltac Zify.zify_post_hook ::= Z.div_mod_to_equations.

(** What the C++ container holds, through [get_number_of_items] and [get_item]. *)
Definition CStores {A} (s : sap A) (xs : list A) : Prop :=
  c_get_number_of_items s = Z.of_nat (length xs) /\
  forall (k : nat) x, xs !! k = Some x -> c_get_item s (Z.of_nat k) = Ok (Some x).

(** States of the C++ container after [n] operations: any operation, with either version of [push_back] and no negative index for
    [set_item] (which has none), and mover passes with any work per particle and any bookkeeping. *)
Inductive CReach {A} (L : Z) : nat -> sap A -> Prop :=
| cr_new : CReach L 0 (c_init L)
| cr_op n ck s o s' r : CReach L n s -> (forall i x, o = SetAt i x -> 0 <= i) -> c_step ck s o = Ok (s', r) -> CReach L (S n) s'
| cr_pass {C : Type} (hk : hooks A C) n s c s' c' :
    CReach L n s -> guarded_mover (cpp_ops A) hk s c = Ok (s', c') -> CReach L (S n) s'.

Section CPass.
Context {A : Type} (L : Z) (HL : 2 <= L < 4294967296).
Implicit Types (s : sap A).

Lemma HLw : 1 <= L < 4294967296. Proof using HL. lia. Qed.
Lemma HL1 : 1 <= L. Proof using HL. lia. Qed.

Lemma crel_stores B s a : CRel L B s a -> CStores s (a_items a).
Proof using HL.
  intros HC. pose proof HC as (HR & Hd & Hb1 & Hb2 & Hb3). pose proof (rel_count L HL1 s a HR) as Hn. split; [exact Hn|].
  intros k x Hk. pose proof (c_get_ok true L HLw B s a (Z.of_nat k) HC) as H.
  destruct a as [items dead cu nin nout]. cbn in Hd, Hk. subst dead. cbn [c_step a_step_cpp] in H.
  destruct HR as [Hc HR]. cbn in HR. pose proof (l_holds _ _ _ _ _ _ HR) as [W P K].
  pose proof (Prefix_le L _ _ HL1 W P) as Hle. rewrite (l_nout _ _ _ _ _ _ HR) in Hle. pose proof (lookup_lt_Some _ _ _ Hk).
  destruct ((0 <=? Z.of_nat k) && (Z.of_nat k <? nout * L)) eqn:E; [|lia].
  destruct H as (s' & got & E1 & Hok & _). destruct (c_get_item s (Z.of_nat k)) as [y|]; [|done].
  simplify_eq. rewrite Nat2Z.id, Hk in Hok. cbn in Hok. by subst.
Qed.
Lemma cstores_inj s (xs ys : list A) : CStores s xs -> CStores s ys -> xs = ys.
Proof using.
  intros [Hn Hg] [Hm Hh]. apply list_eq_same_length with (length xs); [lia|done|].
  intros i x y Hi Hx Hy. specialize (Hg i x Hx). specialize (Hh i y Hy). congruence.
Qed.

Lemma crel_pass {C} (hk : hooks A C) B s a c : B + 1 < 4294967296 -> CRel L B s a ->
  match seq_pass hk 0 [] false c (a_items a) with
  | Raise e => guarded_mover (cpp_ops A) hk s c = Raise e
  | Ok (ys, c') => exists s' a', guarded_mover (cpp_ops A) hk s c = Ok (s', c') /\ CRel L (B + 1) s' a' /\ a_items a' = ys
  end.
Proof using HL.
  intros HB HC. pose proof HC as (HR0 & Hd & Hb1 & Hb2 & Hb3). pose proof (rel_count L HL1 s a HR0) as Hcnt.
  destruct a as [items dead cu nin nout]. cbn in *. subst dead.
  unfold guarded_mover. rewrite Hcnt. destruct (Z.of_nat (length items) =? 0) eqn:E0.
  { destruct items; [|done]. cbn. exists s, (AState [] false cu nin nout). split; [done|]. split; [|done]. split; [done|]. cbn. lia. }
  destruct HR0 as [Hc HR]. cbn in Hc, HR.
  assert (Hne : items <> []) by (intros ->; done).
  pose proof (mover_cpp L HLw hk s items cu nin nout c HR Hne ltac:(lia)) as HM.
  rewrite (spec_pass_seq L hk items 0 [] 0 false c).
  destruct (spec_pass hk L 0 [] 0 false c items) as [[[[outs seg] ch] c']|e] eqn:Esp; [|done].
  destruct HM as (Hseg & HM). destruct HM as (s' & Em & HLive); [by left; lia|].
  exists s', (AState outs false seg nout (Z.max nin (seg + 1))). split; [done|]. split; [|done].
  split; [split; [cbn; lia|exact HLive]|]. cbn. lia.
Qed.

Lemma creach_rel n s : CReach L n s -> Z.of_nat n + 2 < 4294967296 -> exists a, CRel L (Z.of_nat n + 1) s a.
Proof using HL.
  induction 1 as [|n ck s o s' r _ IH Hset E|C hk n s c s' c' _ IH E]; intros Hn.
  - exists a_init. apply (CRel_init L HLw).
  - destruct IH as [a HC]; [lia|].
    assert (Hpre : c_pre L a o).
    { destruct o; try done; [by eapply Hset|by left; lia]. }
    pose proof (c_step_refines ck L HLw (Z.of_nat n + 1) s a o ltac:(lia) HC Hpre) as H. unfold c_ok in H.
    destruct (a_step_cpp ck L a o) as [[a1 w]|e]; [|congruence].
    destruct H as (s1 & got & E1 & _ & HC1). exists a1. replace (Z.of_nat (S n) + 1) with (Z.of_nat n + 1 + 1) by lia. congruence.
  - destruct IH as [a HC]; [lia|].
    pose proof (crel_pass hk (Z.of_nat n + 1) s a c ltac:(lia) HC) as H.
    destruct (seq_pass hk 0 [] false c (a_items a)) as [[ys c1]|e]; [|congruence].
    destruct H as (s1 & a' & E1 & HC1 & _). exists a'. replace (Z.of_nat (S n) + 1) with (Z.of_nat n + 1 + 1) by lia. congruence.
Qed.
Lemma creach_live n s xs : CReach L n s -> Z.of_nat n + 2 < 4294967296 -> CStores s xs ->
  exists cu nin nout, Live L s xs cu nin nout /\ nin <= Z.of_nat n + 1 /\ nout <= Z.of_nat n + 1.
Proof using HL.
  intros HR Hn Hs. destruct (creach_rel n s HR Hn) as [a HC]. pose proof (cstores_inj _ _ _ (crel_stores _ _ _ HC) Hs) as <-.
  destruct HC as ([_ HR'] & Hd & H1 & H2 & H3). destruct a as [items dead cu nin nout]. cbn in *. subst dead.
  exists cu, nin, nout. done.
Qed.
End CPass.

(** C04: the pass of a C++ mover is the plain loop over the stored particles, with the same exceptions. *)
Theorem C04_cpp_pass_is_sequential {A C} (L : Z) n (s : sap A) xs (hk : hooks A C) c : 2 <= L < 4294967296 ->
  CReach L n s -> Z.of_nat n + 2 < 4294967296 -> CStores s xs ->
  match seq_pass hk 0 [] false c xs with
  | Raise e => guarded_mover (cpp_ops A) hk s c = Raise e
  | Ok (ys, c') => exists s', guarded_mover (cpp_ops A) hk s c = Ok (s', c') /\ CStores s' ys /\ CReach L (S n) s'
  end.
Proof.
  intros HL HR Hn Hs. destruct (creach_rel L HL n s HR Hn) as [a HC].
  pose proof (cstores_inj _ _ _ (crel_stores L HL _ _ _ HC) Hs) as <-.
  pose proof (crel_pass L HL hk (Z.of_nat n + 1) s a c ltac:(lia) HC) as H.
  destruct (seq_pass hk 0 [] false c (a_items a)) as [[ys c']|e]; [|done].
  destruct H as (s' & a' & E & Ha' & <-). exists s'. split; [done|]. split; [by eapply (crel_stores L HL)|].
  by eapply cr_pass.
Qed.
(** Two passes at segment length 2; the bookkeeping lists the indices before and after. *)
Definition cpp_demo_hooks : hooks Z (list (Z * Z)) :=
  Hooks (fun c _ x => Ok (x + 1, c)) (fun y => y mod 3 =? 0) (fun c ch i j _ => Ok (if ch then c ++ [(i, j)] else c)) (fun c i _ _ => Ok (c ++ [(i, -1)])).
Definition cpp_demo_state : sap Z := snd (run (c_step true) (c_init 2) [Push 1; Push 2; Push 3; Push 4; Push 5; Pass (Z.add 1) (fun x => x mod 3 =? 0)]).
Example C04_cpp_case : CStores cpp_demo_state [2; 4; 5] /\
  match guarded_mover (cpp_ops Z) cpp_demo_hooks cpp_demo_state [] with
  | Ok (s, c) => c = [(0, -1); (1, 0); (2, -1)] /\ CStores s [5]
  | Raise _ => False
  end.
Proof.
  assert (H : CStores cpp_demo_state [2; 4; 5]).
  { split; [vm_compute; reflexivity|]. intros [|[|[|k]]] x E; try discriminate; injection E as <-; vm_compute; reflexivity. }
  split; [exact H|]. vm_compute. split; [reflexivity|]. split; [reflexivity|].
  intros [|k] x E; try discriminate. injection E as <-. reflexivity.
Qed.

Print Assumptions C04_cpp_pass_is_sequential.
