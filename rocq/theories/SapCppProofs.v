(** The C++ container refines the list-with-cursor specification, as long as its
    32-bit counters do not wrap. *)
From Verif Require Import SapModel MoverModel SapProofs MoverProofs SapSpec SapRefine SapCpp.
From Coq Require Import ZifyBool ZifyNat.
Ltac Zify.zify_post_hook ::= Z.div_mod_to_equations.

(** * Specification of the C++ container *)

Section Spec.
Context {A : Type}.

(** As [a_step] of SapSpec.v, with the differences of the C++ class:
    - an index that designates no slot is undefined behaviour, and there are no
      negative indices;
    - a pass that removes every item leaves an ordinary empty container;
    - the tuple and list overloads of [push_back] ([ck = false]) never refuse, but
      write out of bounds when every slot is taken and the cursor is not at the last
      block or beyond. *)
Definition a_step_cpp (ck : bool) (L : Z) (a : astate A) (o : op A) : res (astate A * obs A) :=
  let '(AState xs _ cu nin nout) := a in
  let n := Z.of_nat (length xs) in
  match o with
  | Push x =>
    if (0 <? n) && (n mod L =? 0) then
      if ck then
        if cu + 1 =? n / L
        then Ok (AState (xs ++ [x]) false (n / L) nin (Z.max nout (n / L + 1)), OPos 0 n)
        else Raise AssertionError
      else if cu + 1 <? nout then
        if n =? nout * L then Raise UndefinedBehaviour
        else Ok (AState (xs ++ [x]) false (cu + 1) nin nout, OPos 0 n)
      else Ok (AState (xs ++ [x]) false (cu + 1) nin (nout + 1), OPos 0 n)
    else Ok (AState (xs ++ [x]) false cu nin nout, OPos (n mod L) n)
  | Get i =>
    if (0 <=? i) && (i <? nout * L) then Ok (a, OItem (xs !! Z.to_nat i))
    else Raise UndefinedBehaviour
  | SetAt i x =>
    if (0 <=? i) && (i <? nout * L) then Ok (AState (<[Z.to_nat i := x]> xs) false cu nin nout, ODone)
    else Raise UndefinedBehaviour
  | Pass g del =>
    if n =? 0 then Ok (a, ODone)
    else
      let ys := survivors g del xs in
      let cu' := Z.of_nat (length (survivors g del (removelast xs))) / L in
      Ok (AState ys false cu' nout (Z.max nin (cu' + 1)), ODone)
  | Count | Segments | Capacity | LoopStart | LoopNext => a_step L a o
  end.

End Spec.

(** One operation of a history on the C++ container; [ck] selects the overload of
    [push_back] that is used (array or tuple/list). *)
Definition c_step {A} (ck : bool) (s : sap A) (o : op A) : res (sap A * obs A) :=
  match o with
  | Push x => let! (s1, (off, i)) := c_push_back ck s x in Ok (s1, OPos off i)
  | Get i => let! x := c_get_item s i in Ok (s, OItem x)
  | SetAt i x => let! s1 := c_set_item s i x in Ok (s1, ODone)
  | Count => Ok (s, ONum (c_get_number_of_items s))
  | Segments => let '(a, b) := c_get_number_of_segments s in Ok (s, OPair a b)
  | Capacity => let '(a, b) := c_get_capacity s in Ok (s, OPair a b)
  | LoopStart => let! (s1, (n, b)) := c_init_out_loop s in Ok (s1, OBlock n b)
  | LoopNext => let! (s1, (n, b)) := c_get_next_segment s false in Ok (s1, OBlock n b)
  | Pass g del =>
    let! (s1, _) := (if c_get_number_of_items s =? 0 then Ok (s, tt)
                     else mover (cpp_ops A) (pure_hooks g del) s tt) in Ok (s1, ODone)
  end.

(** * Basics *)

Lemma u32_id z : 0 <= z < 4294967296 -> u32 z = z.
Proof. apply Z.mod_small. Qed.

Lemma c_get_py {X} (l : list X) i x : 0 <= i -> py_get l i = Ok x -> c_get l i = Ok x.
Proof.
  intros Hi. unfold py_get, c_get, py_pos. replace (0 <=? i) with true by lia. cbn [andb].
  destruct (i <? Z.of_nat (length l)).
  - destruct (l !! Z.to_nat i); congruence.
  - destruct ((- Z.of_nat (length l) <=? i) && (i <? 0)) eqn:E; [lia|done].
Qed.

Lemma c_set_py {X} (l : list X) i x l' : 0 <= i -> py_set l i x = Ok l' -> c_set l i x = Ok l'.
Proof.
  intros Hi. unfold py_set, c_set, py_pos. replace (0 <=? i) with true by lia. cbn [andb].
  destruct (i <? Z.of_nat (length l)); [congruence|].
  destruct ((- Z.of_nat (length l) <=? i) && (i <? 0)) eqn:E; [lia|done].
Qed.

Lemma c_store_py {A} (a : sarr A) seg off x a' : 0 <= seg -> 0 <= off ->
  store a seg off x = Ok a' -> c_store a seg off x = Ok a'.
Proof.
  intros H1 H2. unfold store, c_store.
  destruct (py_get (segs a) seg) as [v|] eqn:E1; [|done]. rewrite (c_get_py _ _ _ H1 E1).
  destruct (py_set v off x) as [v'|] eqn:E2; [|done]. rewrite (c_set_py _ _ _ _ H2 E2).
  destruct (py_set (segs a) seg v') as [ss|] eqn:E3; [|done]. by rewrite (c_set_py _ _ _ _ H1 E3).
Qed.

Lemma c_slice_py {A} (a : sarr A) seg last v : 0 <= seg -> slice a seg last = Ok v -> c_slice a seg last = Ok v.
Proof.
  intros H. unfold slice, c_slice. destruct (py_get (segs a) seg) as [w|] eqn:E; [|done].
  by rewrite (c_get_py _ _ _ H E).
Qed.

Section Refine.
Context {A : Type} (ck : bool) (L : Z) (HL : 1 <= L < 4294967296).
Implicit Types (s : sap A) (a : astate A).

(** Live, with counters below the wrap. *)
Definition CRel (B : Z) s a : Prop :=
  Rel L s a /\ a_dead a = false /\ a_cursor a <= B /\ a_nin a <= B /\ a_nout a <= B.

Definition c_ok (B : Z) (rs : res (sap A * obs A)) (ra : res (astate A * obs A)) : Prop :=
  match ra with
  | Raise e => rs = Raise e
  | Ok (a', want) => exists s' got, rs = Ok (s', got) /\ obs_ok want got /\ CRel (B + 1) s' a'
  end.

Lemma CRel_init : CRel 1 (c_init L) a_init.
Proof using HL. split; [apply Rel_init; lia|]. cbn. lia. Qed.

Lemma c_push_ok B s a x : B + 1 < 4294967296 -> CRel B s a ->
  c_ok B (c_step ck s (Push x)) (a_step_cpp ck L a (Push x)).
Proof using HL.
  intros HB (HR & Hd & Hb1 & Hb2 & Hb3).
  destruct a as [items dead cu nin nout]. cbn in Hd, Hb1, Hb2, Hb3. subst dead.
  destruct HR as [Hc HR]. cbn in Hc, HR.
  assert (HL1 : 1 <= L) by lia.
  pose proof HR as [H1 H2 [W P K] H4 H5 H6 H7].
  cbn [c_step a_step_cpp].
  set (n := Z.of_nat (length items)) in *.
  pose proof (canon_sum L _ _ _ HL1 K) as Hsum.
  pose proof (canon_nonneg L _ _ _ HL1 (Nat2Z.is_nonneg _) K) as [Hf Ho].
  pose proof (Prefix_le L _ _ HL1 W P) as Hle. fold n in Hle, Hsum, K.
  unfold c_push_back. rewrite H1.
  set (ao := arr s (out_sa s)) in *.
  assert (Hcap : fnf ao < nseg ao).
  { destruct K as [(E1 & E2 & E3)|(E1 & E2 & E3)]; [pose proof (wf_pos _ _ W); lia|]. rewrite E2. apply Z.div_lt_upper_bound; lia. }
  assert (Hfull : (fao ao =? L) = ((0 <? n) && (n mod L =? 0))).
  { destruct K as [(K1 & K2 & K3)|(K1 & K2 & K3)].
    - rewrite K3, K1. change (0 <? 0) with false. lia.
    - rewrite K3. assert ((n-1) mod L + 1 = L <-> n mod L = 0); [|lia].
      clear - K1 HL1. split; intros E.
      + assert (n = L * ((n - 1)/L + 1)) as -> by nia. rewrite Z.mul_comm. apply Z.mod_mul. lia.
      + assert (n = L * (n / L)) as E' by lia.
        rewrite <- (Z.mod_unique (n-1) L (n/L - 1) (L - 1)); lia. }
  rewrite Hfull. destruct ((0 <? n) && (n mod L =? 0)) eqn:Eb.
  - (* new block *)
    assert (Hfao : fao ao = L) by lia.
    assert (Hdiv : n / L = fnf ao + 1). { symmetry. apply Z.div_unique with 0; lia. }
    rewrite Hdiv. cbn [cur nseg fnf segs fao]. rewrite H4, H5.
    rewrite (u32_id (cu + 1)) by lia. rewrite (u32_id (fnf ao + 1)) by lia.
    assert (Hnl : (n =? nout * L) = (fnf ao + 1 =? nout)).
    { rewrite Hfao in Hsum. assert (n = (fnf ao + 1) * L) as -> by lia.
      destruct (fnf ao + 1 =? nout) eqn:E; [assert (fnf ao + 1 = nout) as <- by lia; lia|nia]. }
    rewrite Hnl.
    (* the array after making room *)
    set (a2 := if cu + 1 <? nout then _ else _).
    assert (Ea2 : fnf a2 = fnf ao + 1 /\ cur a2 = cu + 1 /\ fao a2 = 0 /\
       nseg a2 = (if cu + 1 <? nout then nout else nout + 1)).
    { subst a2. destruct (cu + 1 <? nout); [done|]. unfold c_add_segment. cbn [cur nseg fnf segs fao].
      rewrite !u32_id by lia. done. }
    assert (Wa2 : Wf L a2 /\ Prefix a2 items).
    { subst a2. destruct (cu + 1 <? nout).
      - split; [eapply Wf_ext; [..|exact W]; done|eapply Prefix_ext; [|exact P]; done].
      - assert (HW' : Wf L (SArr (segs ao) (fnf ao) (fao ao) (cu + 1) nout)) by (eapply Wf_ext; [..|exact W]; done).
        pose proof (add_segment_wf L _ HL1 HW') as HW''. split.
        + eapply Wf_ext; [..|exact HW'']; [done|]. cbn. rewrite u32_id by lia. done.
        + destruct P as [junk Hj]. exists (junk ++ replicate (Z.to_nat L) None).
          unfold flat in *. unfold c_add_segment, fresh_seg. cbn [segs]. rewrite concat_app, Hj. simpl.
          by rewrite app_nil_r, app_assoc. }
    destruct Ea2 as (K1 & K2 & K3 & K4). destruct Wa2 as [W2 P2].
    clearbody a2. rewrite K1, K2.
    assert (Hstore : fnf ao + 1 < nseg a2 -> forall cu' nout', cur a2 = cu' -> nseg a2 = nout' -> cu' <= B + 1 -> nout' <= B + 1 ->
      exists s' (got : obs A), match
         match c_store a2 (fnf a2) (fao a2) (Some x) with
         | Ok a3 => Ok (set_arr s (out_sa s) (SArr (segs a3) (fnf a3) (u32 (fao a3 + 1)) (cur a3) (nseg a3)), (fao a3, fnf a3 * L + fao a3))
         | Raise er => Raise er end
         with Ok (s1, (off, i)) => Ok (s1, OPos off i) | Raise er => Raise er end = Ok (s', got) /\ obs_ok (OPos 0 n) got /\
        CRel (B + 1) s' (AState (items ++ [x]) false cu' nin nout')).
    { intros Hlt cu' nout' Ecu' Enout' Hb4 Hb5.
      destruct (store_ok L a2 (fnf ao + 1) 0 (Some x) HL1 W2) as (ss & Est & HWs & Hss); [lia|lia|].
      rewrite K1, K3. apply c_store_py in Est; [|lia|lia]. rewrite Est. cbn [cur nseg fnf segs fao].
      rewrite u32_id by lia.
      eexists _, _. split; [reflexivity|]. split; [cbn; lia|].
      split; [|cbn; lia]. split; [cbn; lia|]. cbn [a_dead a_items a_cursor a_nin a_nout].
      eapply (Live_out L s items cu nin nout _ _ HR); [|cbn [cur]; lia|cbn [nseg]; lia].
      split; cbn [cur nseg fnf segs fao].
      + eapply Wf_ext; [..|exact HWs]; done.
      + eapply Prefix_snoc; [exact P2| |].
        * pose proof (wf_flat_length L a2 HL1 W2). nia.
        * rewrite Hss. f_equal. lia.
      + rewrite app_length. cbn [length]. right. rewrite K3.
        replace (Z.of_nat (length items + 1) - 1) with n by lia.
        split; [lia|]. split; [lia|]. assert (n mod L = 0) by lia. lia. }
    destruct ck; cbn [negb orb].
    + rewrite (Z.eqb_sym (fnf ao + 1)). destruct (cu + 1 =? fnf ao + 1) eqn:Ecu; [|done].
      cbn [c_ok]. rewrite K1, K2 in Hstore. rewrite <- K1.
      assert (Hms : nseg a2 = Z.max nout (fnf ao + 1 + 1)).
      { rewrite K4. destruct (cu + 1 <? nout) eqn:E; lia. }
      specialize (Hstore ltac:(lia) (fnf ao + 1) (Z.max nout (fnf ao + 1 + 1)) ltac:(lia) Hms ltac:(lia) ltac:(lia)).
      rewrite K1. exact Hstore.
    + destruct (cu + 1 <? nout) eqn:E.
      * destruct (fnf ao + 1 =? nout) eqn:E2.
        { unfold c_store. rewrite K1. unfold c_get. replace (0 <=? fnf ao + 1) with true by lia.
          rewrite lookup_ge_None_2; [done|]. pose proof (wf_n _ _ W2). lia. }
        cbn [c_ok]. apply (Hstore ltac:(lia)); lia.
      * cbn [c_ok]. apply (Hstore ltac:(lia)); lia.
  - (* same block *)
    assert (Hn0 : 0 <= n) by lia.
    assert (Hfn : fnf ao = n / L /\ fao ao = n mod L).
    { assert (fao ao < L) by lia. split; [apply Z.div_unique with (fao ao)|apply Z.mod_unique with (fnf ao)]; lia. }
    destruct Hfn as [Hfn Hfo].
    destruct (store_ok L ao (fnf ao) (fao ao) (Some x) HL1 W) as (ss & Est & HWs & Hss); [lia|lia|].
    apply c_store_py in Est; [|lia|lia]. rewrite Est. cbn [cur nseg fnf segs fao].
    rewrite u32_id by lia.
    eexists _, _. split; [reflexivity|].
    split; [cbn; lia|].
    split; [|cbn; lia]. split; [done|]. cbn [a_dead a_items a_cursor a_nin a_nout].
    eapply (Live_out L s items cu nin nout _ _ HR); [|cbn [cur]; lia|cbn [nseg]; lia].
    split; cbn [cur nseg fnf segs fao].
    + eapply Wf_ext; [..|exact HWs]; done.
    + eapply Prefix_snoc; [exact P| |].
      * pose proof (wf_flat_length L ao HL1 W). nia.
      * rewrite Hss. f_equal. lia.
    + rewrite app_length. cbn [length]. right.
      replace (Z.of_nat (length items + 1) - 1) with n by lia. lia.
Qed.

(** The slot numbers computed by truncated division. *)
Lemma quot_rem_nonneg i : 0 <= i -> Z.quot i L = i / L /\ Z.rem i L = i mod L.
Proof using HL. intros H. split; [apply Z.quot_div_nonneg; lia|apply Z.rem_mod_nonneg; lia]. Qed.

Lemma c_get_ok B s a i : CRel B s a -> c_ok B (c_step ck s (Get i)) (a_step_cpp ck L a (Get i)).
Proof using HL.
  intros HC. pose proof HC as (HR & Hd & Hb1 & Hb2 & Hb3).
  destruct a as [items dead cu nin nout]. cbn in Hd, Hb1, Hb2, Hb3. subst dead.
  assert (HL1 : 1 <= L) by lia.
  pose proof HR as [Hc HR']. cbn in Hc, HR'.
  pose proof HR' as [H1 H2 [W P K] H4 H5 H6 H7].
  cbn [c_step a_step_cpp]. unfold c_get_item. rewrite H1.
  destruct ((0 <=? i) && (i <? nout * L)) eqn:E.
  - destruct (quot_rem_nonneg i) as [-> ->]; [lia|].
    assert (0 <= i / L < nout) by (split; [apply Z.div_pos; lia|apply Z.div_lt_upper_bound; lia]).
    destruct (fetch_ok L (arr s (out_sa s)) (i / L) (i mod L) HL1 W) as (x & Hx & Hfx); [lia|lia|].
    unfold fetch in Hx.
    destruct (py_get (segs (arr s (out_sa s))) (i / L)) as [v|] eqn:Ev; [|done].
    rewrite (c_get_py _ _ v) by (done || lia). rewrite (c_get_py _ _ x) by (done || lia).
    eexists _, _. split; [done|]. split.
    + cbn. destruct (items !! Z.to_nat i) as [y|] eqn:Ey; [|done].
      pose proof (Prefix_lookup _ _ _ _ P Ey).
      replace (Z.to_nat (i / L * L + i mod L)) with (Z.to_nat i) in Hfx by (f_equal; lia). cbn. congruence.
    + split; [done|]. cbn. lia.
  - cbn [c_ok].
    destruct (decide (0 <= i)).
    + destruct (quot_rem_nonneg i) as [-> ->]; [lia|].
      assert (nout <= i / L) by (apply Z.div_le_lower_bound; lia).
      unfold c_get at 1. replace (0 <=? i / L) with true by (symmetry; apply Z.leb_le; apply Z.div_pos; lia).
      rewrite lookup_ge_None_2; [done|]. pose proof (wf_n _ _ W). lia.
    + unfold c_get at 1. destruct (0 <=? Z.quot i L) eqn:Eq; [|done].
      destruct (_ !! _) as [v|]; [|done].
      unfold c_get. assert (Hr : Z.rem i L < 0 \/ Z.rem i L = 0) by (pose proof (Z.rem_nonpos i L); lia).
      assert (Hq := Z.quot_rem' i L).
      destruct Hr as [Hr|Hr]; [replace (0 <=? Z.rem i L) with false by lia; done|]. nia.
Qed.

Lemma c_set_ok B s a i x : 0 <= i -> CRel B s a ->
  c_ok B (c_step ck s (SetAt i x)) (a_step_cpp ck L a (SetAt i x)).
Proof using HL.
  intros Hi HC. pose proof HC as (HR & Hd & Hb1 & Hb2 & Hb3).
  destruct a as [items dead cu nin nout]. cbn in Hd, Hb1, Hb2, Hb3. subst dead.
  assert (HL1 : 1 <= L) by lia.
  pose proof HR as [Hc HR']. cbn in Hc, HR'.
  pose proof HR' as [H1 H2 [W P K] H4 H5 H6 H7].
  cbn [c_step a_step_cpp]. unfold c_set_item. rewrite H1.
  destruct (quot_rem_nonneg i) as [-> ->]; [lia|].
  destruct ((0 <=? i) && (i <? nout * L)) eqn:E.
  - assert (0 <= i / L < nout) by (split; [apply Z.div_pos; lia|apply Z.div_lt_upper_bound; lia]).
    pose proof (set_ok L HL1 s _ i x HR) as Hset. cbn [py_step a_step] in Hset.
    unfold slot_of in Hset. replace (i <? 0) with false in Hset by lia. rewrite E in Hset.
    destruct Hset as (s' & got & Es & Hobs & HR1).
    unfold set_item, store in Es. rewrite H1 in Es.
    destruct (py_get (segs (arr s (out_sa s))) (i / L)) as [v|] eqn:Ev; [|done].
    rewrite (c_get_py _ _ v) by (done || lia).
    destruct (py_set v (i mod L) (Some x)) as [v'|] eqn:Ev'; [|done].
    destruct (py_set (segs (arr s (out_sa s))) (i / L) v') as [ss|] eqn:Es'; [|done].
    rewrite (c_set_py _ _ _ ss) by (done || lia).
    injection Es as <- <-. eexists _, _. split; [reflexivity|]. split; [done|].
    split; [done|]. cbn. lia.
  - cbn [c_ok]. assert (nout <= i / L) by (apply Z.div_le_lower_bound; lia).
    unfold c_get at 1. replace (0 <=? i / L) with true by (symmetry; apply Z.leb_le; apply Z.div_pos; lia).
    rewrite lookup_ge_None_2; [done|]. pose proof (wf_n _ _ W). lia.
Qed.

Lemma c_of_py B s a o : CRel B s a -> 0 <= B ->
  (forall s' got, py_step s o = Ok (s', got) -> c_step ck s o = Ok (s', got)) ->
  (exists a' want, a_step L a o = Ok (a', want) /\ a_step_cpp ck L a o = Ok (a', want) /\
     a_dead a' = false /\ a_cursor a' <= B + 1 /\ a_nin a' <= B + 1 /\ a_nout a' <= B + 1) ->
  c_ok B (c_step ck s o) (a_step_cpp ck L a o).
Proof using HL.
  intros (HR & Hd & Hb) HB Hpy (a' & want & E1 & E2 & Hd' & Hb').
  pose proof (step_refines L ltac:(lia) s a o HR) as H. rewrite E1 in H. rewrite E2.
  destruct H as (s' & got & Ep & Hobs & HR'). eexists _, _. split; [by apply Hpy|]. split; [done|].
  split; done.
Qed.

Lemma c_simple_ok B s a o : B + 1 < 4294967296 -> CRel B s a ->
  match o with Count | Segments | Capacity | LoopStart | LoopNext => True | _ => False end ->
  c_ok B (c_step ck s o) (a_step_cpp ck L a o).
Proof using HL.
  intros HB HC Ho. pose proof HC as (HR & Hd & Hb1 & Hb2 & Hb3).
  assert (H1 := proj1 HR).
  apply c_of_py; [done|lia| |].
  - destruct o; try done.
    + intros s' got. cbn [py_step c_step]. unfold init_out_loop, c_init_out_loop. cbn [fnf fao].
      destruct (fnf _ =? 0); [destruct (fao _ =? 0); [done|]|].
      * destruct (slice _ _ _) as [v|] eqn:E; [|done]. by rewrite (c_slice_py _ _ _ v) by (done || lia).
      * destruct (slice _ _ _) as [v|] eqn:E; [|done]. by rewrite (c_slice_py _ _ _ v) by (done || lia).
    + intros s' got. cbn [py_step c_step]. unfold get_next_segment, c_get_next_segment, which. cbn [fnf fao cur].
      assert (Hcu : 0 <= cur (arr s (out_sa s)) <= B).
      { destruct a as [items dead cu nin nout]. cbn in *. subst dead. destruct HR as [_ HR]. cbn in HR.
        destruct HR as [? ? ? <- ? ? ?]. lia. }
      rewrite u32_id by lia.
      destruct (_ >? _); [done|]. destruct (fnf _ =? _); [destruct (fao _ =? 0); [done|]|].
      * destruct (slice _ _ _) as [v|] eqn:E; [|done]. by rewrite (c_slice_py _ _ _ v) by (done || lia).
      * destruct (slice _ _ _) as [v|] eqn:E; [|done]. by rewrite (c_slice_py _ _ _ v) by (done || lia).
  - destruct a as [items dead cu nin nout]. cbn in *. subst dead.
    destruct o; try done; cbn; eexists _, _; (split; [reflexivity|]); (split; [reflexivity|]); cbn; lia.
Qed.

(** The calls of a mover agree with the Python ones while the counters are small. *)
Lemma cpp_next_in N s : N < 4294967296 -> Bounded L N s -> op_next_in (cpp_ops A) s = op_next_in (py_ops A) s.
Proof using HL.
  clear ck. intros HN [B1 B2 B3 B4 B5 B6]. cbn [cpp_ops py_ops op_next_in].
  unfold get_next_segment, c_get_next_segment, which. cbn [fnf fao cur].
  pose proof (B6 (in_sa s)). pose proof (B4 (in_sa s)). pose proof (B5 (in_sa s)). pose proof (B2 (in_sa s)) as W.
  rewrite u32_id by lia.
  set (a1 := SArr _ _ _ _ _).
  assert (W1 : Wf L a1) by (eapply Wf_ext; [..|exact W]; done).
  destruct (_ >? _) eqn:E1; [done|].
  assert (HE : forall k, c_slice a1 (cur (arr s (in_sa s)) + 1) k = slice a1 (cur (arr s (in_sa s)) + 1) k).
  { intros k. destruct (seg_lookup L a1 (cur (arr s (in_sa s)) + 1) W1) as (v & _ & _ & Hv); [cbn; lia|].
    unfold slice, c_slice. rewrite Hv. by rewrite (c_get_py _ _ v) by (done || lia). }
  by rewrite !HE.
Qed.

Lemma cpp_next_out N s : N + 1 < 4294967296 -> Bounded L N s -> fnf (arr s (out_sa s)) + 1 < N ->
  op_next_out (cpp_ops A) s = op_next_out (py_ops A) s.
Proof using HL.
  clear ck. intros HN [B1 B2 B3 B4 B5 B6] Hf. cbn [cpp_ops py_ops op_next_out].
  unfold get_next_out_segment, c_get_next_out_segment. cbn [fnf fao cur nseg segs].
  pose proof (B6 (out_sa s)). pose proof (B4 (out_sa s)). pose proof (B5 (out_sa s)). pose proof (B2 (out_sa s)) as W.
  pose proof (B3 (out_sa s)).
  set (a := arr s (out_sa s)) in *.
  rewrite (u32_id (cur a + 1)), (u32_id (fnf a + 1)) by lia.
  unfold c_add_segment, add_segment. cbn [fnf fao cur nseg segs].
  rewrite (u32_id (nseg a + 1)), (u32_id (fnf a + 1)) by lia.
  set (a2 := if cur a + 1 <? nseg a then _ else _).
  assert (Hlen : fnf a2 = cur a + 1 -> cur a + 1 < Z.of_nat (length (segs a2))).
  { pose proof (wf_n _ _ W). subst a2. destruct (cur a + 1 <? nseg a) eqn:E.
    - destruct (fnf a + 1 <? nseg a); cbn; lia.
    - cbn. rewrite app_length. cbn. lia. }
  destruct (fnf a2 =? cur a + 1) eqn:E; [|done].
  specialize (Hlen ltac:(lia)).
  destruct (lookup_lt_is_Some_2 (segs a2) (Z.to_nat (cur a + 1))) as [v Hv]; [lia|].
  assert (Hp : py_get (segs a2) (cur a + 1) = Ok v) by (apply py_get_in; [lia|done]).
  rewrite Hp. by rewrite (c_get_py _ _ v) by (done || lia).
Qed.

Lemma cpp_init_inout s items cu nin nout : Live L s items cu nin nout ->
  op_init_inout (cpp_ops A) s = init_inout_loop s.
Proof using HL.
  clear ck. intros [H1 H2 [W P K] H4 H5 H6 H7]. cbn [cpp_ops op_init_inout].
  assert (W' : forall b, Wf L (arr s b)).
  { intros b. destruct (decide (b = out_sa s)) as [->|Hb]; [done|].
    replace b with (in_sa s); [done|]. rewrite H2. by destruct b, (out_sa s). }
  unfold c_init_inout_loop, init_inout_loop.
  set (s3 := set_arr (set_arr (set_arr s false _) true _) (negb (out_sa s)) _).
  assert (Hsg : forall b, exists v, py_get (segs (arr s3 b)) 0 = Ok v).
  { intros b. assert (E : segs (arr s3 b) = segs (arr s b)) by (subst s3; destruct b, (out_sa s); done).
    rewrite E. destruct (seg_lookup L (arr s b) 0 (W' b)) as (v & _ & _ & Hv); [pose proof (wf_pos _ _ (W' b)); lia|].
    by exists v. }
  destruct (_ && _); [done|]. unfold slice.
  set (s4 := Sap _ _ _ _ _).
  assert (E4 : forall b, arr s4 b = arr s3 b) by (intros []; done). rewrite !E4.
  destruct (Hsg (negb (in_sa s))) as [v Hv]. destruct (Hsg (negb (out_sa s))) as [w Hw].
  rewrite Hv, Hw. by rewrite (c_get_py _ _ v), (c_get_py _ _ w) by (done || lia).
Qed.

(** A whole C++ pass, any per-particle work and bookkeeping. *)
Lemma mover_cpp {C} (hk : hooks A C) s items cursor nin nout c :
  Live L s items cursor nin nout -> items <> [] ->
  Z.max nin nout + 1 < 4294967296 ->
  match spec_pass hk L 0 [] 0 false c items with
  | Raise e => mover (cpp_ops A) hk s c = Raise e
  | Ok (outs, seg, ch, c') =>
    0 <= seg < nout /\ (2 <= L \/ outs <> [] -> exists s',
      mover (cpp_ops A) hk s c = Ok (s', c') /\ Live L s' outs seg nout (Z.max nin (seg + 1)))
  end.
Proof using HL.
  clear ck. intros HLive Hne Hb. assert (HL1 : 1 <= L) by lia.
  pose proof (mover_whole (cpp_ops A) hk L (Z.max nin nout) HL1
    (fun s => cpp_next_in (Z.max nin nout) s ltac:(lia)) (fun s => cpp_next_out (Z.max nin nout) s ltac:(lia))
    s items cursor nin nout c HLive Hne ltac:(lia) ltac:(lia) (cpp_init_inout _ _ _ _ _ HLive)) as H.
  destruct (spec_pass hk L 0 [] 0 false c items) as [[[[outs seg] ch] c']|e]; [|done].
  destruct H as (s1 & E & H1 & H2 & H3 & H4 & H5 & H6 & H7 & H8 & H9 & H10 & H11 & H12).
  split; [done|]. intros Hcase.
  rewrite E. cbn [cpp_ops op_set_out_count]. unfold c_set_number_of_items, which.
  eexists. split; [reflexivity|].
  assert (Hio : in_sa s1 <> out_sa s1) by (rewrite H2, H3; by destruct (out_sa s)).
  assert (HWin : Wf L (arr s1 (in_sa s1))).
  { eapply Wf_ext; [..|exact (h_wf _ _ _ (l_holds _ _ _ _ _ _ HLive))]; [done|].
    rewrite H11. apply (l_nout _ _ _ _ _ _ HLive). }
  split; rewrite ?slen_set, ?in_set, ?out_set, ?arr_set_same; cbn [cur nseg fnf fao segs]; try done.
  - rewrite H2, H3. by destruct (out_sa s).
  - split; cbn [cur nseg fnf fao segs].
    + eapply Wf_ext; [..|exact H4]; done.
    + eapply Prefix_ext; [|exact H5]. done.
    + rewrite H1. set (k := Z.of_nat (length outs)) in *.
      destruct (decide (k = 0)) as [E0|E0].
      * left. rewrite E0. destruct Hcase as [Hc|Hc]; [|destruct outs; [done|cbn in k; lia]].
        split; [done|].
        assert (Hq : Z.quot (0 - 1) L = 0) by (change (0 - 1) with (- (1)); rewrite Z.quot_opp_l, Z.quot_small by lia; done).
        assert (Hr : Z.rem (0 - 1) L = -1) by (pose proof (Z.quot_rem' (0 - 1) L); lia).
        rewrite Hq, Hr. done.
      * right. destruct (quot_rem_nonneg (k - 1)) as [-> ->]; [lia|].
        split; [lia|]. split; apply u32_id; [|lia].
        split; [apply Z.div_pos; lia|].
        apply Z.le_lt_trans with seg; [|lia].
        assert ((k - 1) / L < seg + 1); [|lia]. apply Z.div_lt_upper_bound; lia.
  - rewrite arr_set_other by (intros E'; by apply Hio). done.
  - rewrite arr_set_other by (intros E'; by apply Hio). done.
Qed.

Lemma c_pass_ok B s a g del : B + 1 < 4294967296 -> CRel B s a ->
  2 <= L \/ a_items a = [] \/ survivors g del (a_items a) <> [] ->
  c_ok B (c_step ck s (Pass g del)) (a_step_cpp ck L a (Pass g del)).
Proof using HL.
  intros HB HC Hcase. pose proof HC as (HR0 & Hd & Hb1 & Hb2 & Hb3).
  destruct a as [items dead cu nin nout]. cbn in Hd, Hb1, Hb2, Hb3, Hcase. subst dead.
  assert (HL1 : 1 <= L) by lia.
  pose proof HR0 as [Hc HR]. cbn in Hc, HR.
  cbn [c_step a_step_cpp].
  assert (Hcnt : c_get_number_of_items s = Z.of_nat (length items)).
  { pose proof (count_ok L HL1 s _ HR0) as (s' & got & E & Hok & _). cbn in E. simplify_eq. cbn in Hok. done. }
  rewrite Hcnt. destruct (Z.of_nat (length items) =? 0) eqn:E0.
  { cbn. eexists _, _. split; [done|]. split; [done|]. split; [done|]. cbn. lia. }
  assert (Hne : items <> []) by (intros ->; done).
  pose proof (mover_cpp (pure_hooks g del) s items cu nin nout tt HR Hne ltac:(lia)) as HM.
  destruct (pure_pass L g del items 0 [] 0 false) as [ch' E]. rewrite E in HM. cbn [app] in HM.
  replace (match items with [] => 0 | _ => Z.of_nat (length (survivors g del (removelast items))) / L end)
    with (Z.of_nat (length (survivors g del (removelast items))) / L) in * by (by destruct items).
  destruct HM as [Hseg HM].
  destruct HM as (s' & Em & HLive'); [destruct Hcase as [?|[?|?]]; [by left|done|by right]|].
  rewrite Em. cbn [c_ok]. eexists _, _. split; [reflexivity|]. split; [done|].
  split; [split; [cbn; lia|exact HLive']|]. cbn. lia.
Qed.

(** What a step needs: the C++ class has no negative indices, and the all-deleted pass
    needs a segment length of at least 2. *)
Definition c_pre (a : astate A) (o : op A) : Prop :=
  match o with
  | SetAt i _ => 0 <= i
  | Pass g del => 2 <= L \/ a_items a = [] \/ survivors g del (a_items a) <> []
  | _ => True
  end.

Lemma c_step_refines B s a o : B + 1 < 4294967296 -> CRel B s a -> c_pre a o ->
  c_ok B (c_step ck s o) (a_step_cpp ck L a o).
Proof using HL.
  intros HB HC Hp. destruct o.
  - by apply c_push_ok.
  - by apply c_get_ok.
  - by apply c_set_ok.
  - by apply c_simple_ok.
  - by apply c_simple_ok.
  - by apply c_simple_ok.
  - by apply c_simple_ok.
  - by apply c_simple_ok.
  - by apply c_pass_ok.
Qed.

Fixpoint c_pres (a : astate A) (h : list (op A)) : Prop :=
  match h with
  | [] => True
  | o :: h' => c_pre a o /\
    match a_step_cpp ck L a o with Ok (a', _) => c_pres a' h' | Raise _ => True end
  end.

Lemma c_run_refines h : forall B s a, B + Z.of_nat (length h) < 4294967296 -> CRel B s a -> c_pres a h ->
  let '(got, e1, s') := run (c_step ck) s h in
  let '(want, e2, a') := run (a_step_cpp ck L) a h in
  Forall2 obs_ok want got /\ e1 = e2 /\ CRel (B + Z.of_nat (length h)) s' a'.
Proof using HL.
  induction h as [|o h IH]; intros B s a HB HR Hp; cbn [run].
  - split; [constructor|]. split; [done|]. by rewrite Z.add_0_r.
  - destruct Hp as [Hp Hps]. cbn [length] in *.
    pose proof (c_step_refines B s a o ltac:(lia) HR Hp) as H.
    assert (Hmono : forall s a B B', B <= B' -> CRel B s a -> CRel B' s a).
    { intros ? ? ? ? ? (? & ? & ?). split; [done|]. split; [done|]. lia. }
    destruct (a_step_cpp ck L a o) as [[a1 want]|e].
    + destruct H as (s1 & got & -> & Hobs & HR1).
      specialize (IH (B + 1) s1 a1 ltac:(lia) HR1 Hps).
      destruct (run (c_step ck) s1 h) as [[g1 e1] s']. destruct (run (a_step_cpp ck L) a1 h) as [[w1 e2] a'].
      destruct IH as (F & Ee & HR'). split; [by constructor|]. split; [done|].
      eapply Hmono; [|exact HR']. lia.
    + cbn in H. rewrite H. split; [constructor|]. split; [done|]. eapply Hmono; [|exact HR]. lia.
Qed.

End Refine.
