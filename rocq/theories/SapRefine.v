(** The Python container refines the list-with-cursor specification. *)
From Verif Require Import SapModel MoverModel SapProofs MoverProofs SapSpec.
From Coq Require Import ZifyBool ZifyNat.
Ltac Zify.zify_post_hook ::= Z.div_mod_to_equations.

(** Hooks of a mover without bookkeeping: update [g], delete test [del]. *)
Definition pure_hooks {A} (g : A -> A) (del : A -> bool) : hooks A unit :=
  Hooks (fun c _ p => Ok (g p, c)) del (fun c _ _ _ _ => Ok c) (fun c _ _ _ => Ok c).

(** One operation of a history on the Python container.  [Pass] is
    [guarded_mover] with the given per-particle update. *)
Definition py_step {A} (s : sap A) (o : op A) : res (sap A * obs A) :=
  match o with
  | Push x => let! (s1, (off, i)) := push_back s x in Ok (s1, OPos off i)
  | Get i => let! x := get_item s i in Ok (s, OItem x)
  | SetAt i x => let! s1 := set_item s i x in Ok (s1, ODone)
  | Count => Ok (s, ONum (get_number_of_items s))
  | Segments => let '(a, b) := get_number_of_segments s in Ok (s, OPair a b)
  | Capacity => let '(a, b) := get_capacity s in Ok (s, OPair a b)
  | LoopStart => let! (s1, (n, b)) := init_out_loop s in Ok (s1, OBlock n b)
  | LoopNext => let! (s1, (n, b)) := get_next_segment s false in Ok (s1, OBlock n b)
  | Pass g del => let! (s1, _) := guarded_mover (py_ops A) (pure_hooks g del) s tt in Ok (s1, ODone)
  end.

Section Refine.
Context {A : Type} (L : Z) (HL : 1 <= L).
Implicit Types (s : sap A).

Definition Rel s (a : astate A) : Prop :=
  0 <= a_cursor a /\
  if a_dead a then a_items a = [] /\ Dead L s (a_cursor a) (a_nin a) (a_nout a)
  else Live L s (a_items a) (a_cursor a) (a_nin a) (a_nout a).

Definition step_ok (rs : res (sap A * obs A)) (ra : res (astate A * obs A)) : Prop :=
  match ra with
  | Raise e => rs = Raise e
  | Ok (a', want) => exists s' got, rs = Ok (s', got) /\ obs_ok want got /\ Rel s' a'
  end.

Lemma Rel_init : Rel (sap_init L) a_init.
Proof using HL.
  split; [done|]. cbn. split; cbn; try done; try lia.
  - split; cbn; [|apply Prefix_nil|by left].
    split; cbn; [|done|lia]. apply Forall_singleton. unfold fresh_seg. by rewrite replicate_length.
  - split; cbn; [|done|lia]. apply Forall_singleton. unfold fresh_seg. by rewrite replicate_length.
Qed.

(** Changing only the cursor of the out array. *)
Lemma Live_cursor s items cu nin nout cu' :
  Live L s items cu nin nout ->
  Live L (set_arr s (out_sa s) (SArr (segs (arr s (out_sa s))) (fnf (arr s (out_sa s))) (fao (arr s (out_sa s))) cu'
     (nseg (arr s (out_sa s))))) items cu' nin nout.
Proof using.
  intros [H1 H2 [W P K] H4 H5 H6 H7].
  split; rewrite ?slen_set, ?in_set, ?out_set, ?arr_set_same; cbn [cur nseg]; try done.
  - split; cbn; [eapply Wf_ext; [..|exact W]; done|eapply Prefix_ext; [|exact P]; done|done].
  - rewrite arr_set_other; [done|]. rewrite H2. by destruct (out_sa s).
  - rewrite arr_set_other; [done|]. rewrite H2. by destruct (out_sa s).
Qed.

Lemma Dead_cursor s cu nin nout cu' :
  Dead L s cu nin nout ->
  Dead L (set_arr s (out_sa s) (SArr (segs (arr s (out_sa s))) (fnf (arr s (out_sa s))) (fao (arr s (out_sa s))) cu'
     (nseg (arr s (out_sa s))))) cu' nin nout.
Proof using.
  intros [H1 H2 W H3 H3' H4 H5 H6 H7].
  split; rewrite ?slen_set, ?in_set, ?out_set, ?arr_set_same; cbn [cur nseg fnf fao]; try done.
  - eapply Wf_ext; [..|exact W]; done.
  - rewrite arr_set_other; [done|]. rewrite H2. by destruct (out_sa s).
  - rewrite arr_set_other; [done|]. rewrite H2. by destruct (out_sa s).
Qed.

(** Writing the slots of the out array. *)
Lemma Live_out s items cu nin nout items' (a' : sarr A) :
  Live L s items cu nin nout -> Holds L a' items' ->
  forall cu' nout', cur a' = cu' -> nseg a' = nout' ->
  Live L (set_arr s (out_sa s) a') items' cu' nin nout'.
Proof using.
  intros [H1 H2 _ H4 H5 H6 H7] HH cu' nout' Hc' Hn'.
  split; rewrite ?slen_set, ?in_set, ?out_set, ?arr_set_same; try done.
  - rewrite arr_set_other; [done|]. rewrite H2. by destruct (out_sa s).
  - rewrite arr_set_other; [done|]. rewrite H2. by destruct (out_sa s).
Qed.

Lemma push_ok s a x : Rel s a -> step_ok (py_step s (Push x)) (a_step L a (Push x)).
Proof using HL.
  destruct a as [items dead cu nin nout]. intros [Hc HR]. cbn in Hc, HR.
  cbn [py_step a_step]. unfold push_refused. cbn [a_dead a_items a_cursor].
  destruct dead.
  { destruct HR as [-> [D1 D2 D3 D4 D5 D6 D7 D8 D9]]. cbn. unfold push_back.
    rewrite D5, D1, Z.eqb_refl. cbn [cur nseg fnf segs fao].
    rewrite D6, D4.
    destruct (_ <? _).
    - cbn [cur nseg fnf segs fao]. destruct (_ =? _) eqn:E; [lia|done].
    - unfold add_segment; cbn [cur nseg fnf segs fao]. destruct (_ =? _) eqn:E; [lia|done]. }
  pose proof HR as [H1 H2 [W P K] H4 H5 H6 H7]. cbn [orb].
  set (n := Z.of_nat (length items)) in *.
  pose proof (canon_sum L _ _ _ HL K) as Hsum.
  pose proof (canon_nonneg L _ _ _ HL (Nat2Z.is_nonneg _) K) as [Hf Ho].
  pose proof (Prefix_le L _ _ HL W P) as Hle. fold n in Hle, Hsum, K.
  unfold push_back. rewrite H1.
  set (ao := arr s (out_sa s)) in *.
  assert (Hfull : (fao ao =? L) = ((0 <? n) && (n mod L =? 0))).
  { destruct K as [(K1 & K2 & K3)|(K1 & K2 & K3)].
    - rewrite K3, K1. change (0 <? 0) with false. lia.
    - rewrite K3. assert ((n-1) mod L + 1 = L <-> n mod L = 0); [|lia].
      clear - K1 HL. split; intros E.
      + assert (n = L * ((n - 1)/L + 1)) as -> by nia. rewrite Z.mul_comm. apply Z.mod_mul. lia.
      + assert (n = L * (n / L)) as E' by lia.
        rewrite <- (Z.mod_unique (n-1) L (n/L - 1) (L - 1)); lia. }
  rewrite Hfull. destruct ((0 <? n) && (n mod L =? 0)) eqn:Eb.
  - (* new block *)
    assert (Hfao : fao ao = L) by lia.
    assert (Hdiv : n / L = fnf ao + 1). { symmetry. apply Z.div_unique with 0; lia. }
    rewrite Hdiv. cbn [cur nseg fnf segs fao andb]. rewrite H4, H5.
    destruct (negb (cu + 1 =? fnf ao + 1)) eqn:Ecu.
    { assert (Hneq : cu <> fnf ao) by lia. cbn.
      destruct (cu + 1 <? nout); unfold add_segment; cbn [cur nseg fnf segs fao]; (replace (fnf ao + 1 =? cu + 1) with false by lia); done. }
    assert (Hcu : cu = fnf ao) by lia.
    assert (Hkey : exists a1,
      (if cu + 1 <? nout then SArr (segs ao) (fnf ao + 1) 0 (cu + 1) nout
       else add_segment L (SArr (segs ao) (fnf ao) (fao ao) (cu + 1) nout)) = a1 /\
      fnf a1 = cu + 1 /\ cur a1 = cu + 1 /\ fao a1 = 0 /\ Wf L a1 /\ Prefix a1 items /\
      nseg a1 = Z.max nout (fnf ao + 1 + 1)).
    { eexists. split; [reflexivity|]. destruct (cu + 1 <? nout) eqn:Elt.
      - cbn. repeat split; try lia; [by destruct W| destruct W; cbn; lia| destruct W; cbn; lia | eapply Prefix_ext; [|exact P]; done].
      - assert (HW' : Wf L (SArr (segs ao) (fnf ao) (fao ao) (cu + 1) nout)) by (eapply Wf_ext; [..|exact W]; done).
        pose proof (add_segment_wf L _ HL HW') as HW''.
        split; [cbn; lia|]. split; [done|]. split; [done|]. split; [done|]. split; [|cbn; nia].
        destruct P as [junk Hj]. exists (junk ++ replicate (Z.to_nat L) None).
        rewrite add_segment_flat. unfold flat in *. cbn [segs]. rewrite Hj. by rewrite app_assoc. }
    destruct Hkey as (a1 & Ea1 & K1 & K2 & K3 & K4 & K5 & K6). rewrite Ea1, K1, K2, Z.eqb_refl.
    rewrite K3.
    destruct (store_ok L a1 (cu + 1) 0 (Some x) HL K4) as (ss & Est & HWs & Hss); [lia|lia|].
    rewrite K1, Est, K1. cbn [cur nseg fnf segs fao].
    eexists _, _. split; [reflexivity|].
    split; [cbn; lia|].
    split; [cbn; lia|]. cbn [a_dead a_items a_cursor a_nin a_nout].
    eapply (Live_out s items cu nin nout _ _ HR); [|cbn [cur]; lia|cbn [nseg]; lia].
    split; cbn [cur nseg fnf segs fao].
    + eapply Wf_ext; [..|exact HWs]; done.
    + eapply Prefix_snoc; [exact K5| |].
      * pose proof (wf_flat_length L a1 HL K4). nia.
      * rewrite Hss. f_equal. lia.
    + rewrite app_length. cbn [length]. right. rewrite K3.
      replace (Z.of_nat (length items + 1) - 1) with n by lia.
      split; [lia|]. split; [lia|]. assert (n mod L = 0) by lia. lia.
  - (* same block *)
    assert (Hn0 : 0 <= n) by lia.
    assert (Hfn : fnf ao = n / L /\ fao ao = n mod L).
    { assert (fao ao < L) by lia. split; [apply Z.div_unique with (fao ao)|apply Z.mod_unique with (fnf ao)]; lia. }
    destruct Hfn as [Hfn Hfo].
    assert (Hcap : fnf ao < nseg ao).
    { destruct K as [(E1 & E2 & E3)|(E1 & E2 & E3)]; [pose proof (wf_pos _ _ W); lia|]. rewrite E2. apply Z.div_lt_upper_bound; lia. }
    destruct (store_ok L ao (fnf ao) (fao ao) (Some x) HL W) as (ss & Est & HWs & Hss); [lia|lia|].
    cbn [andb]. rewrite Est. cbn [cur nseg fnf segs fao].
    eexists _, _. split; [reflexivity|].
    split; [cbn; lia|].
    split; [done|]. cbn [a_dead a_items a_cursor a_nin a_nout].
    eapply (Live_out s items cu nin nout _ _ HR); [|cbn [cur]; lia|cbn [nseg]; lia].
    split; cbn [cur nseg fnf segs fao].
    + eapply Wf_ext; [..|exact HWs]; done.
    + eapply Prefix_snoc; [exact P| |].
      * pose proof (wf_flat_length L ao HL W). nia.
      * rewrite Hss. f_equal. lia.
    + rewrite app_length. cbn [length]. right.
      replace (Z.of_nat (length items + 1) - 1) with n by lia. lia.
Qed.


(** * Indexed access *)

Lemma py_pos_neg (n : nat) i : - Z.of_nat n <= i < 0 -> py_pos n i = py_pos n (i + Z.of_nat n).
Proof using.
  intros H. rewrite (py_pos_in n (i + Z.of_nat n)) by lia. unfold py_pos.
  destruct ((0 <=? i) && (i <? Z.of_nat n)) eqn:E; [lia|].
  destruct ((- Z.of_nat n <=? i) && (i <? 0)) eqn:E2; [done|lia].
Qed.
Lemma py_pos_low (n : nat) i : i < - Z.of_nat n -> py_pos n i = None.
Proof using.
  intros H. unfold py_pos.
  destruct ((0 <=? i) && (i <? Z.of_nat n)) eqn:E; [lia|].
  destruct ((- Z.of_nat n <=? i) && (i <? 0)) eqn:E2; [lia|done].
Qed.

Lemma fetch_slot (a : sarr A) i : Wf L a ->
  match slot_of (nseg a * L) i with
  | None => fetch a (i / L) (i mod L) = Raise IndexError
  | Some k => exists x, fetch a (i / L) (i mod L) = Ok x /\ flat a !! Z.to_nat k = Some x
  end.
Proof using HL.
  intros W. unfold slot_of.
  assert (Hm : 0 <= i mod L < L) by lia.
  destruct (i <? 0) eqn:Ei.
  - assert (Hfe : - nseg a <= i / L -> fetch a (i / L) (i mod L) = fetch a (i / L + nseg a) (i mod L)).
    { intros H. unfold fetch, py_get. destruct W as [_ Wn _].
      rewrite <- Wn. rewrite (py_pos_neg _ (i / L)) by nia. done. }
    destruct ((0 <=? i + nseg a * L) && (i + nseg a * L <? nseg a * L)) eqn:E.
    + assert (- nseg a <= i / L) by (apply Z.div_le_lower_bound; nia).
      rewrite Hfe by done.
      destruct (fetch_ok L a (i / L + nseg a) (i mod L) HL W) as (x & Hx & Hfx); [nia|lia|].
      exists x. split; [done|]. rewrite <- Hfx. f_equal. f_equal. nia.
    + unfold fetch, py_get. destruct W as [_ Wn _]. rewrite (py_pos_low (length (segs a))); [done|]. nia.
  - destruct ((0 <=? i) && (i <? nseg a * L)) eqn:E.
    + destruct (fetch_ok L a (i / L) (i mod L) HL W) as (x & Hx & Hfx); [|lia|].
      { split; [apply Z.div_pos; lia|]. apply Z.div_lt_upper_bound; lia. }
      exists x. split; [done|]. rewrite <- Hfx. f_equal. f_equal. nia.
    + apply (fetch_seg_out L); [done|]. apply Z.div_le_lower_bound; lia.
Qed.

Lemma store_slot (a : sarr A) i x : Wf L a ->
  match slot_of (nseg a * L) i with
  | None => store a (i / L) (i mod L) x = Raise IndexError
  | Some k => exists ss, store a (i / L) (i mod L) x = Ok (SArr ss (fnf a) (fao a) (cur a) (nseg a)) /\
     Wf L (SArr ss (fnf a) (fao a) (cur a) (nseg a)) /\ concat ss = <[Z.to_nat k := x]> (flat a)
  end.
Proof using HL.
  intros W. unfold slot_of.
  assert (Hm : 0 <= i mod L < L) by lia.
  destruct (i <? 0) eqn:Ei.
  - assert (Hfe : - nseg a <= i / L -> store a (i / L) (i mod L) x = store a (i / L + nseg a) (i mod L) x).
    { intros H. unfold store, py_get, py_set. destruct W as [_ Wn _].
      rewrite <- Wn. rewrite (py_pos_neg _ (i / L)) by nia. done. }
    destruct ((0 <=? i + nseg a * L) && (i + nseg a * L <? nseg a * L)) eqn:E.
    + assert (- nseg a <= i / L) by (apply Z.div_le_lower_bound; nia).
      rewrite Hfe by done.
      destruct (store_ok L a (i / L + nseg a) (i mod L) x HL W) as (ss & Hx & Hw & Hfx); [nia|lia|].
      exists ss. split; [done|]. split; [done|]. rewrite Hfx. f_equal. f_equal. nia.
    + unfold store, py_get. destruct W as [_ Wn _]. rewrite (py_pos_low (length (segs a))); [done|]. nia.
  - destruct ((0 <=? i) && (i <? nseg a * L)) eqn:E.
    + destruct (store_ok L a (i / L) (i mod L) x HL W) as (ss & Hx & Hw & Hfx); [|lia|].
      { split; [apply Z.div_pos; lia|]. apply Z.div_lt_upper_bound; lia. }
      exists ss. split; [done|]. split; [done|]. rewrite Hfx. f_equal. f_equal. nia.
    + apply (store_seg_out L); [done|]. apply Z.div_le_lower_bound; lia.
Qed.

Lemma slot_of_range n i k : slot_of n i = Some k -> 0 <= k < n.
Proof using. unfold slot_of. destruct (i <? 0); destruct (_ && _) eqn:E; intros; simplify_eq; lia. Qed.

Lemma get_ok s a i : Rel s a -> step_ok (py_step s (Get i)) (a_step L a (Get i)).
Proof using HL.
  destruct a as [items dead cu nin nout]. intros [Hc HR]. cbn in Hc, HR.
  cbn [py_step a_step]. unfold get_item.
  destruct dead.
  - pose proof HR as [-> [D1 D2 D3 D4 D5 D6 D7 D8 D9]]. rewrite D1.
    pose proof (fetch_slot _ i D3) as H. rewrite D7 in H.
    destruct (slot_of (nout * L) i) as [k|]; [|by rewrite H].
    destruct H as (x & -> & Hx). cbn. eexists _, _. split; [done|]. split; [done|]. done.
  - pose proof HR as [H1 H2 [W P K] H4 H5 H6 H7]. rewrite H1.
    pose proof (fetch_slot _ i W) as H. rewrite H5 in H.
    destruct (slot_of (nout * L) i) as [k|] eqn:Es; [|by rewrite H].
    destruct H as (x & -> & Hx). cbn. eexists _, _. split; [done|]. split; [|done].
    cbn. destruct (items !! Z.to_nat k) as [y|] eqn:Ey; [|done].
    pose proof (Prefix_lookup _ _ _ _ P Ey). cbn. congruence.
Qed.

Lemma set_ok s a i x : Rel s a -> step_ok (py_step s (SetAt i x)) (a_step L a (SetAt i x)).
Proof using HL.
  destruct a as [items dead cu nin nout]. intros [Hc HR]. cbn in Hc, HR.
  cbn [py_step a_step]. unfold set_item.
  destruct dead.
  - pose proof HR as [-> [D1 D2 D3 D4 D5 D6 D7 D8 D9]]. rewrite D1.
    pose proof (store_slot _ i (Some x) D3) as H. rewrite D7 in H.
    destruct (slot_of (nout * L) i) as [k|]; [|by rewrite H].
    destruct H as (ss & -> & Hw & Hx). cbn. eexists _, _. split; [done|]. split; [done|].
    split; [done|]. cbn. split; [done|].
    split; rewrite ?slen_set, ?in_set, ?out_set, ?arr_set_same; cbn [cur nseg fnf fao]; try done.
    + rewrite arr_set_other; [done|]. rewrite D2. by destruct (out_sa s).
    + rewrite arr_set_other; [done|]. rewrite D2. by destruct (out_sa s).
  - pose proof HR as [H1 H2 [W P K] H4 H5 H6 H7]. rewrite H1.
    pose proof (store_slot _ i (Some x) W) as H. rewrite H5 in H.
    destruct (slot_of (nout * L) i) as [k|] eqn:Es; [|by rewrite H].
    destruct H as (ss & -> & Hw & Hx). cbn. eexists _, _. split; [done|]. split; [done|].
    split; [done|]. cbn.
    eapply (Live_out s items cu nin nout _ _ HR); [|done|done].
    apply slot_of_range in Es.
    split; cbn [cur nseg fnf fao segs].
    + eapply Wf_ext; [..|exact Hw]; done.
    + destruct (decide (Z.to_nat k < length items)%nat).
      * eapply Prefix_insert; [exact P|done|done].
      * rewrite list_insert_ge by lia. eapply Prefix_beyond; [exact P| |exact Hx]. lia.
    + by rewrite insert_length.
Qed.

(** * Counts *)

Lemma count_ok s a : Rel s a -> step_ok (py_step s Count) (a_step L a Count).
Proof using HL.
  destruct a as [items dead cu nin nout]. intros [Hc HR]. cbn in Hc, HR.
  cbn. eexists _, _. split; [done|]. split; [|done]. cbn. unfold get_number_of_items.
  destruct dead.
  - destruct HR as [-> [D1 D2 D3 D4 D5 D6 D7 D8 D9]]. rewrite D4, D5, D1. simpl length. lia.
  - destruct HR as [H1 H2 [W P K] H4 H5 H6 H7]. rewrite H1. symmetry. by apply canon_sum.
Qed.

Lemma segments_ok s a : Rel s a -> step_ok (py_step s Segments) (a_step L a Segments).
Proof using HL.
  destruct a as [items dead cu nin nout]. intros [Hc HR]. cbn in Hc, HR.
  cbn. eexists _, _. split; [done|]. split; [|done]. cbn.
  destruct dead.
  - by destruct HR as [-> [D1 D2 D3 D4 D5 D6 D7 D8 D9]].
  - by destruct HR as [H1 H2 [W P K] H4 H5 H6 H7].
Qed.

Lemma capacity_ok s a : Rel s a -> step_ok (py_step s Capacity) (a_step L a Capacity).
Proof using HL.
  destruct a as [items dead cu nin nout]. intros [Hc HR]. cbn in Hc, HR.
  cbn. eexists _, _. split; [done|]. split; [|done]. cbn.
  destruct dead.
  - destruct HR as [-> [D1 D2 D3 D4 D5 D6 D7 D8 D9]]. by rewrite D1, D7, D9.
  - destruct HR as [H1 H2 [W P K] H4 H5 H6 H7]. by rewrite H1, H5, H7.
Qed.

(** * Loops *)

Lemma item_ok_refl (l : list (option A)) : Forall2 item_ok l l.
Proof using. induction l as [|[x|] l IH]; constructor; done. Qed.

Lemma loopstart_ok s a : Rel s a -> step_ok (py_step s LoopStart) (a_step L a LoopStart).
Proof using HL.
  destruct a as [items dead cu nin nout]. intros [Hc HR]. cbn in Hc, HR.
  cbn [py_step a_step]. unfold init_out_loop.
  destruct dead.
  - destruct HR as [-> HR]. pose proof HR as [D1 D2 D3 D4 D5 D6 D7 D8 D9].
    cbn [fnf fao]. rewrite D4, D1. replace (-1 =? 0) with false by done.
    rewrite (slice_ok L); [|done| |cbn [nseg]; pose proof (wf_pos _ _ D3); lia|lia].
    2: { eapply Wf_ext; [..|exact D3]; done. }
    eexists _, _. split; [reflexivity|]. split.
    + cbn. split; [done|]. rewrite drop_0. unfold flat. cbn [segs].
      pose proof (wf_flat_length L _ HL D3) as Hfl. pose proof (wf_pos _ _ D3).
      assert (Hlen : length (take (Z.to_nat L) (flat (arr s (out_sa s)))) = Z.to_nat L).
      { rewrite take_length. nia. }
      unfold flat in Hlen. revert Hlen. generalize (take (Z.to_nat L) (concat (segs (arr s (out_sa s))))).
      intros l Hl. rewrite <- Hl. clear. induction l; simpl; constructor; done.
    + split; [done|]. cbn [a_dead a_items a_cursor a_nin a_nout]. split; [done|].
      rewrite <- D4. by apply (Dead_cursor s cu nin nout 0).
  - pose proof HR as [H1 H2 [W P K] H4 H5 H6 H7]. cbn [fnf fao].
    pose proof (canon_sum L _ _ _ HL K) as Hsum.
    pose proof (canon_nonneg L _ _ _ HL (Nat2Z.is_nonneg _) K) as [Hf Ho].
    pose proof (Prefix_le L _ _ HL W P) as Hle.
    set (n := Z.of_nat (length items)) in *.
    set (ao := arr s (out_sa s)) in *.
    assert (W' : Wf L (SArr (segs ao) (fnf ao) (fao ao) 0 (nseg ao))) by (eapply Wf_ext; [..|exact W]; done).
    assert (P' : Prefix (SArr (segs ao) (fnf ao) (fao ao) 0 (nseg ao)) items) by (eapply Prefix_ext; [|exact P]; done).
    assert (HR' : Rel (set_arr s (out_sa s) (SArr (segs ao) (fnf ao) (fao ao) 0 (nseg ao)))
       (AState items false 0 nin nout)).
    { split; [done|]. by apply (Live_cursor s items cu nin nout 0). }
    pose proof (wf_pos _ _ W).
    destruct (fnf ao =? 0) eqn:E0.
    + assert (Hn : n = fao ao) by lia.
      destruct (fao ao =? 0) eqn:E1.
      * replace (n =? 0) with true by lia. eexists _, _. split; [reflexivity|]. split; [done|]. done.
      * replace (n =? 0) with false by lia.
        rewrite (Prefix_slice L _ items 0 (fao ao) HL W' P'); [|cbn; lia|lia|lia].
        eexists _, _. split; [reflexivity|]. split; [|done]. cbn. split; [lia|].
        unfold block. rewrite (take_ge (drop _ _) (Z.to_nat L)) by (rewrite drop_length; lia).
        rewrite take_ge by (rewrite drop_length; lia). apply item_ok_refl.
    + replace (n =? 0) with false by nia. rewrite H1.
      rewrite (Prefix_slice L _ items 0 L HL W' P'); [|cbn; lia|lia|nia].
      eexists _, _. split; [reflexivity|]. split; [|done]. cbn. split; [nia|].
      apply item_ok_refl.
Qed.

Lemma loopnext_ok s a : Rel s a -> step_ok (py_step s LoopNext) (a_step L a LoopNext).
Proof using HL.
  destruct a as [items dead cu nin nout]. intros [Hc HR]. cbn in Hc, HR.
  cbn [py_step a_step]. unfold get_next_segment, which.
  destruct dead.
  - destruct HR as [-> HR]. pose proof HR as [D1 D2 D3 D4 D5 D6 D7 D8 D9].
    cbn [fnf fao cur]. rewrite D4, D6. destruct (cu + 1 >? -1) eqn:E; [|lia].
    destruct ((cu + 1) * L <? Z.of_nat (length [])) eqn:E2; [simpl length in E2; nia|].
    eexists _, _. split; [reflexivity|]. split; [done|].
    split; [cbn; lia|]. cbn [a_dead a_items a_cursor a_nin a_nout]. split; [done|].
    rewrite <- D4. by apply (Dead_cursor s cu nin nout (cu + 1)).
  - pose proof HR as [H1 H2 [W P K] H4 H5 H6 H7]. cbn [fnf fao cur].
    pose proof (canon_sum L _ _ _ HL K) as Hsum.
    pose proof (canon_nonneg L _ _ _ HL (Nat2Z.is_nonneg _) K) as [Hf Ho].
    pose proof (Prefix_le L _ _ HL W P) as Hle.
    set (n := Z.of_nat (length items)) in *.
    set (ao := arr s (out_sa s)) in *.
    assert (Hcap : fnf ao < nseg ao).
    { destruct K as [(E1 & E2 & E3)|(E1 & E2 & E3)]; [pose proof (wf_pos _ _ W); lia|]. rewrite E2. apply Z.div_lt_upper_bound; lia. }
    rewrite H4. 
    assert (W' : Wf L (SArr (segs ao) (fnf ao) (fao ao) (cu + 1) (nseg ao))) by (eapply Wf_ext; [..|exact W]; done).
    assert (P' : Prefix (SArr (segs ao) (fnf ao) (fao ao) (cu + 1) (nseg ao)) items) by (eapply Prefix_ext; [|exact P]; done).
    assert (HR' : Rel (set_arr s (out_sa s) (SArr (segs ao) (fnf ao) (fao ao) (cu + 1) (nseg ao)))
       (AState items false (cu + 1) nin nout)).
    { split; [cbn; lia|]. by apply (Live_cursor s items cu nin nout (cu + 1)). }
    destruct (cu + 1 >? fnf ao) eqn:E0.
    + replace ((cu + 1) * L <? n) with false by nia.
      eexists _, _. split; [reflexivity|]. split; [done|]. done.
    + destruct (fnf ao =? cu + 1) eqn:E1.
      * assert (Ef : fnf ao = cu + 1) by lia.
        destruct (fao ao =? 0) eqn:E2.
        { destruct K as [(?&?&?)|(?&?&?)]; lia. }
        replace ((cu + 1) * L <? n) with true by nia.
        rewrite (Prefix_slice L _ items (cu + 1) (fao ao) HL W' P'); [|cbn; lia|lia|nia].
        eexists _, _. split; [reflexivity|]. split; [|done]. cbn. split; [nia|].
        unfold block. rewrite (take_ge (drop _ _) (Z.to_nat L)) by (rewrite drop_length; nia).
        rewrite take_ge by (rewrite drop_length; nia). apply item_ok_refl.
      * replace ((cu + 1) * L <? n) with true by nia. rewrite H1.
        rewrite (Prefix_slice L _ items (cu + 1) L HL W' P'); [|cbn; lia|lia|nia].
        eexists _, _. split; [reflexivity|]. split; [|done]. cbn. split; [nia|].
        apply item_ok_refl.
Qed.

(** * Passes *)

Lemma pure_pass g del (xs : list A) i outs seg ch :
  exists ch', spec_pass (pure_hooks g del) L i outs seg ch tt xs =
    Ok (outs ++ survivors g del xs,
        match xs with [] => seg | _ => Z.of_nat (length (outs ++ survivors g del (removelast xs))) / L end,
        ch', tt).
Proof using.
  revert i outs seg ch. induction xs as [|p xs IH]; intros i outs seg ch.
  - exists ch. cbn. by rewrite app_nil_r.
  - cbn [spec_pass]. unfold spec_step. cbn [pure_hooks adv deleted on_drop on_keep].
    destruct (del (g p)) eqn:Ed.
    + destruct (IH (i + 1) outs (Z.of_nat (length outs) / L) true) as [ch' E]. rewrite E. exists ch'.
      f_equal. f_equal. f_equal. f_equal.
      * f_equal. unfold survivors. cbn. by rewrite Ed.
      * destruct xs as [|p' xs]; [cbn; by rewrite app_nil_r|].
        unfold survivors. cbn [removelast map List.filter]. by rewrite Ed.
    + destruct (IH (i + 1) (outs ++ [g p]) (Z.of_nat (length outs) / L) ch) as [ch' E]. rewrite E. exists ch'.
      f_equal. f_equal. f_equal. f_equal.
      * rewrite <- app_assoc. f_equal. unfold survivors. cbn. by rewrite Ed.
      * destruct xs as [|p' xs]; [cbn; by rewrite app_nil_r|].
        rewrite <- app_assoc. unfold survivors. cbn [removelast map List.filter]. by rewrite Ed.
Qed.

Lemma pass_ok s a g del : Rel s a -> step_ok (py_step s (Pass g del)) (a_step L a (Pass g del)).
Proof using HL.
  intros HR0. destruct a as [items dead cu nin nout]. pose proof HR0 as [Hc HR]. cbn in Hc, HR.
  cbn [py_step a_step]. unfold guarded_mover.
  assert (Hcnt : get_number_of_items s = Z.of_nat (length items)).
  { pose proof (count_ok s _ HR0) as (s' & got & E & Hok & _). cbn in E. simplify_eq. cbn in Hok. done. }
  rewrite Hcnt. destruct (Z.of_nat (length items) =? 0) eqn:E0.
  { eexists _, _. done. }
  destruct dead; [destruct HR as [-> _]; done|].
  assert (Hne : items <> []) by (intros ->; done).
  pose proof (mover_py (pure_hooks g del) L HL s items cu nin nout tt HR Hne) as HM.
  destruct (pure_pass g del items 0 [] 0 false) as [ch' E]. rewrite E in HM. cbn [app] in HM.
  destruct HM as (s' & Em & _ & _ & HL1 & HD1). rewrite Em.
  eexists _, _. split; [reflexivity|]. split; [done|].
  replace (match items with [] => 0 | _ => Z.of_nat (length (survivors g del (removelast items))) / L end)
    with (Z.of_nat (length (survivors g del (removelast items))) / L) in * by (by destruct items).
  split.
  - cbn [a_cursor]. apply Z.div_pos; lia.
  - cbn [a_dead a_items a_cursor a_nin a_nout].
    destruct (survivors g del items) eqn:Es.
    + split; [done|]. by apply HD1.
    + by apply HL1.
Qed.

Lemma step_refines s a o : Rel s a -> step_ok (py_step s o) (a_step L a o).
Proof using HL.
  destruct o.
  - apply push_ok.
  - apply get_ok.
  - apply set_ok.
  - apply count_ok.
  - apply segments_ok.
  - apply capacity_ok.
  - apply loopstart_ok.
  - apply loopnext_ok.
  - apply pass_ok.
Qed.

(** * Histories *)
Lemma run_refines h : forall s a, Rel s a ->
  let '(got, e1, s') := run py_step s h in
  let '(want, e2, a') := run (a_step L) a h in
  Forall2 obs_ok want got /\ e1 = e2 /\ Rel s' a'.
Proof using HL.
  induction h as [|o h IH]; intros s a HR; cbn [run].
  - split; [constructor|done].
  - pose proof (step_refines s a o HR) as H.
    destruct (a_step L a o) as [[a1 want]|e].
    + destruct H as (s1 & got & -> & Hobs & HR1).
      specialize (IH s1 a1 HR1).
      destruct (run py_step s1 h) as [[g1 e1] s']. destruct (run (a_step L) a1 h) as [[w1 e2] a'].
      destruct IH as (F & Ee & HR'). split; [by constructor|done].
    + cbn in H. rewrite H. split; [constructor|done].
Qed.

End Refine.
