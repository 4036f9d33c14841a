(** Proof library for the Python container model: addressing, and the
    representation invariant. *)
From Verif Require Import SapModel.
From Coq Require Import ZifyBool ZifyNat.
Ltac Zify.zify_post_hook ::= Z.div_mod_to_equations.

(** * Python sequences *)

Lemma py_pos_in (n : nat) (i : Z) : 0 <= i < Z.of_nat n -> py_pos n i = Some (Z.to_nat i).
Proof. intros H. unfold py_pos. destruct ((0 <=? i) && (i <? Z.of_nat n)) eqn:E; [done|lia]. Qed.

Lemma py_pos_out (n : nat) (i : Z) : Z.of_nat n <= i -> py_pos n i = None.
Proof.
  intros H. unfold py_pos.
  destruct ((0 <=? i) && (i <? Z.of_nat n)) eqn:E; [lia|].
  destruct ((- Z.of_nat n <=? i) && (i <? 0)) eqn:E2; [lia|done].
Qed.

Lemma py_get_in {A} (l : list A) (i : Z) x :
  0 <= i -> l !! Z.to_nat i = Some x -> py_get l i = Ok x.
Proof.
  intros Hi Hx. unfold py_get. pose proof (lookup_lt_Some _ _ _ Hx).
  rewrite py_pos_in by lia. by rewrite Hx.
Qed.

Lemma py_get_out {A} (l : list A) (i : Z) :
  Z.of_nat (length l) <= i -> py_get l i = Raise IndexError.
Proof. intros H. unfold py_get. by rewrite py_pos_out. Qed.

Lemma py_set_in {A} (l : list A) (i : Z) x :
  0 <= i < Z.of_nat (length l) -> py_set l i x = Ok (<[Z.to_nat i:=x]> l).
Proof. intros H. unfold py_set. by rewrite py_pos_in. Qed.

(** * Uniform blocks and their concatenation *)

Lemma concat_lookup {X} (n : nat) (ss : list (list X)) (k j : nat) v :
  Forall (fun w => length w = n) ss -> ss !! k = Some v -> (j < n)%nat ->
  concat ss !! (k * n + j)%nat = v !! j.
Proof.
  revert k. induction ss as [|w ss IH]; intros k Hf Hk Hj; [done|].
  apply Forall_cons_1 in Hf as [Hw Hf].
  destruct k as [|k]; simpl in *.
  - simplify_eq. rewrite lookup_app_l by lia. done.
  - rewrite lookup_app_r by lia.
    replace (n + k * n + j - length w)%nat with (k * n + j)%nat by lia. by apply IH.
Qed.

Lemma concat_insert {X} (n : nat) (ss : list (list X)) (k j : nat) v x :
  Forall (fun w => length w = n) ss -> ss !! k = Some v -> (j < n)%nat ->
  concat (<[k := <[j:=x]> v]> ss) = <[(k * n + j)%nat := x]> (concat ss).
Proof.
  revert k. induction ss as [|w ss IH]; intros k Hf Hk Hj; [done|].
  apply Forall_cons_1 in Hf as [Hw Hf].
  destruct k as [|k]; simpl in *.
  - simplify_eq. rewrite insert_app_l by lia. done.
  - rewrite insert_app_r_alt by lia.
    replace (n + k * n + j - length w)%nat with (k * n + j)%nat by lia. f_equal. by apply IH.
Qed.

Lemma concat_length {X} (n : nat) (ss : list (list X)) :
  Forall (fun w => length w = n) ss -> length (concat ss) = (length ss * n)%nat.
Proof.
  induction ss as [|w ss IH]; intros Hf; [done|].
  apply Forall_cons_1 in Hf as [Hw Hf]. simpl. rewrite app_length, IH by done. lia.
Qed.

Lemma concat_block {X} (n : nat) (ss : list (list X)) (k : nat) v :
  Forall (fun w => length w = n) ss -> ss !! k = Some v ->
  take n (drop (k * n) (concat ss)) = v.
Proof.
  revert k. induction ss as [|w ss IH]; intros k Hf Hk; [done|].
  apply Forall_cons_1 in Hf as [Hw Hf].
  destruct k as [|k]; simpl in *.
  - simplify_eq. rewrite drop_0, take_app. done.
  - rewrite drop_app_ge by lia.
    replace (n + k * n - length w)%nat with (k * n)%nat by lia. by apply IH.
Qed.

(** * Well-formed arrays *)

Section Arr.
Context {A : Type}.
Implicit Types (a : sarr A) (s : sap A).

Definition flat a : list (option A) := concat (segs a).

Record Wf (L : Z) a : Prop := {
  wf_seg : Forall (fun v => length v = Z.to_nat L) (segs a);
  wf_n : Z.of_nat (length (segs a)) = nseg a;
  wf_pos : 1 <= nseg a
}.

Lemma wf_flat_length L a : 1 <= L -> Wf L a -> Z.of_nat (length (flat a)) = nseg a * L.
Proof.
  intros HL [Hs Hn _]. unfold flat. rewrite (concat_length (Z.to_nat L)) by done. lia.
Qed.

(** [Wf] only looks at [segs] and [nseg]. *)
Lemma Wf_ext L a a' : segs a = segs a' -> nseg a = nseg a' -> Wf L a -> Wf L a'.
Proof. intros E1 E2 [H1 H2 H3]. split; rewrite <- ?E1, <- ?E2; done. Qed.

Lemma seg_lookup L a seg :
  Wf L a -> 0 <= seg < nseg a ->
  exists v, segs a !! Z.to_nat seg = Some v /\ length v = Z.to_nat L /\ py_get (segs a) seg = Ok v.
Proof.
  intros [Hs Hn _] Hseg.
  destruct (lookup_lt_is_Some_2 (segs a) (Z.to_nat seg)) as [v Hv]; [lia|].
  exists v. split; [done|]. split.
  - by eapply (Forall_lookup_1 _ _ _ _ Hs).
  - apply py_get_in; [lia|done].
Qed.

Lemma fetch_ok L a seg off :
  1 <= L -> Wf L a -> 0 <= seg < nseg a -> 0 <= off < L ->
  exists x, fetch a seg off = Ok x /\ flat a !! Z.to_nat (seg * L + off) = Some x.
Proof.
  intros HL HW Hseg Hoff.
  destruct (seg_lookup L a seg HW Hseg) as (v & Hv & Hlv & Hg).
  destruct (lookup_lt_is_Some_2 v (Z.to_nat off)) as [x Hx]; [lia|].
  exists x. unfold fetch. rewrite Hg. split.
  - apply py_get_in; [lia|done].
  - unfold flat. replace (Z.to_nat (seg * L + off)) with (Z.to_nat seg * Z.to_nat L + Z.to_nat off)%nat by nia.
    erewrite concat_lookup; [exact Hx| by destruct HW | exact Hv | lia].
Qed.

Lemma fetch_seg_out L a seg off :
  Wf L a -> nseg a <= seg -> fetch a seg off = Raise IndexError.
Proof.
  intros [_ Hn _] Hseg. unfold fetch. by rewrite py_get_out by lia.
Qed.

Lemma store_ok L a seg off x :
  1 <= L -> Wf L a -> 0 <= seg < nseg a -> 0 <= off < L ->
  exists ss, store a seg off x = Ok (SArr ss (fnf a) (fao a) (cur a) (nseg a)) /\
    Wf L (SArr ss (fnf a) (fao a) (cur a) (nseg a)) /\
    concat ss = <[Z.to_nat (seg * L + off) := x]> (flat a).
Proof.
  intros HL HW Hseg Hoff.
  destruct (seg_lookup L a seg HW Hseg) as (v & Hv & Hlv & Hg).
  destruct HW as [Hs Hn Hp].
  exists (<[Z.to_nat seg := <[Z.to_nat off := x]> v]> (segs a)).
  split; [|split].
  - unfold store. rewrite Hg, py_set_in by lia. rewrite py_set_in by lia. done.
  - split; cbn [segs nseg].
    + apply Forall_insert; [done|]. by rewrite insert_length.
    + by rewrite insert_length.
    + done.
  - unfold flat. erewrite concat_insert; [| exact Hs | exact Hv | lia].
    f_equal. nia.
Qed.

Lemma store_seg_out L a seg off x :
  Wf L a -> nseg a <= seg -> store a seg off x = Raise IndexError.
Proof. intros [_ Hn _] Hseg. unfold store. by rewrite py_get_out by lia. Qed.

Lemma slice_ok L a seg last :
  1 <= L -> Wf L a -> 0 <= seg < nseg a -> 0 <= last <= L ->
  slice a seg last = Ok (take (Z.to_nat last) (drop (Z.to_nat (seg * L)) (flat a))).
Proof.
  intros HL HW Hseg Hlast.
  destruct (seg_lookup L a seg HW Hseg) as (v & Hv & Hlv & Hg).
  unfold slice. rewrite Hg. f_equal.
  destruct HW as [Hs _ _].
  rewrite <- (concat_block (Z.to_nat L) (segs a) (Z.to_nat seg) v Hs Hv).
  rewrite take_take. unfold flat. f_equal; [lia|]. f_equal. nia.
Qed.

Lemma add_segment_wf L a : 1 <= L -> Wf L a -> Wf L (add_segment L a).
Proof.
  intros HL [Hs Hn Hp]. unfold add_segment. split; cbn [segs nseg].
  - apply Forall_app. split; [done|]. apply Forall_singleton. unfold fresh_seg. by rewrite replicate_length.
  - rewrite app_length. cbn [length]. lia.
  - lia.
Qed.

Lemma add_segment_flat L a : flat (add_segment L a) = flat a ++ replicate (Z.to_nat L) None.
Proof. unfold flat, add_segment. cbn [segs]. rewrite concat_app. simpl. by rewrite app_nil_r. Qed.

(** * Contents *)

(** First slots hold [items]; the rest is unspecified. *)
Definition Prefix (a : sarr A) (items : list A) : Prop :=
  exists junk, flat a = (Some <$> items) ++ junk.

(** Counters that stand for [n] stored items. *)
Definition canon (L n f o : Z) : Prop :=
  (n = 0 /\ f = 0 /\ o = 0) \/ (0 < n /\ f = (n - 1) / L /\ o = (n - 1) mod L + 1).

Record Holds (L : Z) a (items : list A) : Prop := {
  h_wf : Wf L a;
  h_pre : Prefix a items;
  h_canon : canon L (Z.of_nat (length items)) (fnf a) (fao a)
}.

Lemma Prefix_le L a items :
  1 <= L -> Wf L a -> Prefix a items -> Z.of_nat (length items) <= nseg a * L.
Proof.
  intros HL HW [junk Hj]. pose proof (wf_flat_length L a HL HW) as Hl.
  rewrite Hj, app_length, fmap_length in Hl. lia.
Qed.

Lemma Prefix_lookup a items (k : nat) x :
  Prefix a items -> items !! k = Some x -> flat a !! k = Some (Some x).
Proof.
  intros [junk Hj] Hk. rewrite Hj. rewrite lookup_app_l.
  - by rewrite list_lookup_fmap, Hk.
  - rewrite fmap_length. by eapply lookup_lt_Some.
Qed.

(** Writing the slot just after the prefix extends it. *)
Lemma Prefix_snoc a ss f o c n items x :
  Prefix a items -> (length items < length (flat a))%nat ->
  concat ss = <[length items := Some x]> (flat a) ->
  Prefix (SArr ss f o c n) (items ++ [x]).
Proof.
  intros [junk Hj] Hlt Hss. unfold Prefix, flat. cbn [segs]. rewrite Hss, Hj.
  rewrite Hj, app_length, fmap_length in Hlt.
  destruct junk as [|y junk]; [simpl in Hlt; lia|].
  exists junk. rewrite insert_app_r_alt by (rewrite fmap_length; lia).
  rewrite fmap_length, Nat.sub_diag. simpl.
  rewrite fmap_app, <- app_assoc. done.
Qed.

(** Writing a slot of the prefix. *)
Lemma Prefix_insert a ss f o c n items k x :
  Prefix a items -> (k < length items)%nat ->
  concat ss = <[k := Some x]> (flat a) ->
  Prefix (SArr ss f o c n) (<[k:=x]> items).
Proof.
  intros [junk Hj] Hlt Hss. unfold Prefix, flat. cbn [segs]. rewrite Hss, Hj.
  exists junk. rewrite insert_app_l by (rewrite fmap_length; lia).
  by rewrite list_fmap_insert.
Qed.

(** Writing beyond the prefix. *)
Lemma Prefix_beyond a ss f o c n items k x :
  Prefix a items -> (length items <= k)%nat ->
  concat ss = <[k := x]> (flat a) ->
  Prefix (SArr ss f o c n) items.
Proof.
  intros [junk Hj] Hle Hss. unfold Prefix, flat. cbn [segs]. rewrite Hss, Hj.
  exists (<[(k - length items)%nat := x]> junk).
  rewrite insert_app_r_alt by (rewrite fmap_length; lia). by rewrite fmap_length.
Qed.

Lemma Prefix_ext a a' items : segs a = segs a' -> Prefix a items -> Prefix a' items.
Proof. intros E [junk Hj]. exists junk. unfold flat in *. by rewrite <- E. Qed.

Lemma Prefix_nil a : Prefix a [].
Proof. by exists (flat a). Qed.

Lemma Prefix_slice L a items seg last :
  1 <= L -> Wf L a -> Prefix a items -> 0 <= seg < nseg a -> 0 <= last <= L ->
  seg * L + last <= Z.of_nat (length items) ->
  slice a seg last = Ok (Some <$> take (Z.to_nat last) (drop (Z.to_nat (seg * L)) items)).
Proof.
  intros HL HW [junk Hj] Hseg Hlast Hle.
  rewrite (slice_ok L) by done. f_equal. rewrite Hj.
  rewrite drop_app_le by (rewrite fmap_length; nia).
  rewrite take_app_le by (rewrite drop_length, fmap_length; nia).
  by rewrite <- fmap_drop, fmap_take.
Qed.

Lemma canon_nonneg L n f o : 1 <= L -> 0 <= n -> canon L n f o -> 0 <= f /\ 0 <= o <= L.
Proof. intros HL Hn [(-> & -> & ->)|(H & -> & ->)]; nia. Qed.

Lemma canon_sum L n f o : 1 <= L -> canon L n f o -> f * L + o = n.
Proof. intros HL [(-> & -> & ->)|(H & -> & ->)]; nia. Qed.


(** * Container states *)

(** The pair stores [items]; [cursor] is the loop cursor of the out array and
    [nin], [nout] are the numbers of segments of the two arrays. *)
Record Live (L : Z) s (items : list A) (cursor nin nout : Z) : Prop := {
  l_len : slen s = L;
  l_pair : in_sa s = negb (out_sa s);
  l_holds : Holds L (arr s (out_sa s)) items;
  l_cur : cur (arr s (out_sa s)) = cursor;
  l_nout : nseg (arr s (out_sa s)) = nout;
  l_win : Wf L (arr s (in_sa s));
  l_nin : nseg (arr s (in_sa s)) = nin
}.

(** The state left by [set_number_of_items("out", 0)] in Python. *)
Record Dead (L : Z) s (cursor nin nout : Z) : Prop := {
  d_len : slen s = L;
  d_pair : in_sa s = negb (out_sa s);
  d_wf : Wf L (arr s (out_sa s));
  d_fnf : fnf (arr s (out_sa s)) = -1;
  d_fao : fao (arr s (out_sa s)) = L;
  d_cur : cur (arr s (out_sa s)) = cursor;
  d_nout : nseg (arr s (out_sa s)) = nout;
  d_win : Wf L (arr s (in_sa s));
  d_nin : nseg (arr s (in_sa s)) = nin
}.

Lemma arr_set_same s b a : arr (set_arr s b a) b = a.
Proof. by destruct b. Qed.
Lemma arr_set_other s b b' a : b <> b' -> arr (set_arr s b a) b' = arr s b'.
Proof. by destruct b, b'. Qed.
Lemma slen_set s b a : slen (set_arr s b a) = slen s.
Proof. by destruct b. Qed.
Lemma in_set s b a : in_sa (set_arr s b a) = in_sa s.
Proof. by destruct b. Qed.
Lemma out_set s b a : out_sa (set_arr s b a) = out_sa s.
Proof. by destruct b. Qed.

End Arr.
