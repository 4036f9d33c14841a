(** C29 and C30: which boundary-condition callback is used. *)
From stdpp Require Import strings.
From Coq Require Import String Ascii Sorted.
From Verif Require Import BcTableModel.
Local Open Scope string_scope.
Local Open Scope list_scope.
Local Infix "^^" := String.append (at level 60, right associativity).

(** ** What is meant *)

(** The most specific of the user's functions for boundary [b] and species [sp] is [r] ([None]: there is none). *)
Definition Uses {F} (user : string -> option F) (b sp : string) (r : option F) : Prop :=
  (user ("bc_at_" ^^ b ^^ "_for_" ^^ sp) = r /\ r <> None) \/
  (user ("bc_at_" ^^ b ^^ "_for_" ^^ sp) = None /\ user ("default_bc_at_" ^^ b) = r /\ r <> None) \/
  (user ("bc_at_" ^^ b ^^ "_for_" ^^ sp) = None /\ user ("default_bc_at_" ^^ b) = None /\ user "default_bc" = r).
(** [b] is the last of the boundaries listed with tag [tag]. *)
Definition LastNamed (pbd : list (string * Z)) (tag : Z) (b : string) : Prop :=
  exists l1 l2, pbd = l1 ++ (b, tag) :: l2 /\ forall b', (b', tag) ∉ l2.
(** [b] is the alphabetically last of the boundaries with tag [tag]. *)
Definition GreatestNamed (pbd : list (string * Z)) (tag : Z) (b : string) : Prop :=
  (b, tag) ∈ pbd /\ forall b', (b', tag) ∈ pbd -> b' = b \/ str_lt b' b = true.

(** ** Dictionaries and maps *)
Section Dict.
Context {K V : Type} `{EqDecision K}.
Lemma dict_get_set (d : list (K * V)) k v k' : dict_get (dict_set d k v) k' = if decide (k = k') then Some v else dict_get d k'.
Proof.
  induction d as [|[k1 v1] d IH]; cbn; [reflexivity|]. destruct (decide (k1 = k)) as [->|Hne]; cbn.
  - by destruct (decide (k = k')).
  - rewrite IH. destruct (decide (k1 = k')) as [->|]; [|reflexivity]. by rewrite decide_False by congruence.
Qed.
Lemma map_get_set lt (d : list (K * V)) k v k' : dict_get (map_set lt d k v) k' = if decide (k = k') then Some v else dict_get d k'.
Proof.
  induction d as [|[k1 v1] d IH]; cbn; [reflexivity|]. destruct (decide (k1 = k)) as [->|Hne]; cbn.
  - by destruct (decide (k = k')).
  - destruct (lt k k1); cbn; [by destruct (decide (k = k'))|]. rewrite IH.
    destruct (decide (k1 = k')) as [->|]; [|reflexivity]. by rewrite decide_False by congruence.
Qed.
(** Whatever the kind of dictionary: the last item of a key counts. *)
Lemma get_fold (set : list (K * V) -> K -> V -> list (K * V)) items d k :
  (forall d k v k', dict_get (set d k v) k' = if decide (k = k') then Some v else dict_get d k') ->
  (forall l1 l2 v, items = l1 ++ (k, v) :: l2 -> (forall v', (k, v') ∉ l2) ->
     dict_get (fold_left (fun d kv => set d (fst kv) (snd kv)) items d) k = Some v) /\
  ((forall v, (k, v) ∉ items) -> dict_get (fold_left (fun d kv => set d (fst kv) (snd kv)) items d) k = dict_get d k).
Proof.
  intros Hset.
  assert (Hno : forall items d, (forall v, (k, v) ∉ items) ->
    dict_get (fold_left (fun d kv => set d (fst kv) (snd kv)) items d) k = dict_get d k).
  { clear - Hset. induction items as [|[k1 v1] items IH]; intros d H; [reflexivity|]. cbn. rewrite IH by (intros v Hv; apply (H v); by right).
    rewrite Hset. rewrite decide_False; [reflexivity|]. intros ->. apply (H v1). left. }
  split; [|apply Hno]. intros l1 l2 v -> H2. rewrite fold_left_app. cbn. rewrite Hno by exact H2. rewrite Hset. by rewrite decide_True.
Qed.
Lemma last_item (items : list (K * V)) k v : (k, v) ∈ items ->
  exists v' l1 l2, items = l1 ++ (k, v') :: l2 /\ forall v, (k, v) ∉ l2.
Proof.
  revert v. induction items as [|[k1 v1] items IH]; intros v Hv; [inversion Hv|].
  destruct (existsb (fun kv => bool_decide (fst kv = k)) items) eqn:E.
  - apply existsb_exists in E as ([k2 v2] & Hin & Hk%bool_decide_eq_true). cbn in Hk. subst k2. apply elem_of_list_In in Hin.
    destruct (IH v2 Hin) as (v' & l1 & l2 & -> & H2). exists v', ((k1, v1) :: l1), l2. done.
  - assert (Hno : forall w, (k, w) ∉ items).
    { intros w Hw. rewrite <- not_true_iff_false in E. apply E. apply existsb_exists. exists (k, w). split; [by apply elem_of_list_In|].
      by apply bool_decide_eq_true. }
    apply elem_of_cons in Hv as [[= <- <-]|Hv]; [|by apply Hno in Hv]. by exists v, [], items.
Qed.
Lemma get_in (d : list (K * V)) k v : dict_get d k = Some v -> (k, v) ∈ d.
Proof.
  induction d as [|[k1 v1] d IH]; cbn; [discriminate|]. destruct (decide (k1 = k)) as [->|]; [intros [= ->]; left|intros H; right; by apply IH].
Qed.
Lemma in_get (d : list (K * V)) k v : (k, v) ∈ d -> exists v', dict_get d k = Some v'.
Proof.
  induction d as [|[k1 v1] d IH]; intros H; [inversion H|]. cbn. destruct (decide (k1 = k)); [by eexists|].
  apply elem_of_cons in H as [[= -> ->]|H]; [done|by apply IH].
Qed.
Lemma nodup_get (d : list (K * V)) k v : NoDup (map fst d) -> (k, v) ∈ d -> dict_get d k = Some v.
Proof.
  induction d as [|[k1 v1] d IH]; intros Hnd H; [inversion H|]. cbn in *. inversion_clear Hnd as [|? ? Hni Hnd'].
  apply elem_of_cons in H as [[= -> ->]|H]; [by rewrite decide_True|]. rewrite decide_False; [by apply IH|]. intros ->. apply Hni.
  apply elem_of_list_In, in_map_iff. exists (k, v). split; [reflexivity|by apply elem_of_list_In].
Qed.
Lemma set_keys (d : list (K * V)) k v k' : k' ∈ map fst (dict_set d k v) -> k' = k \/ k' ∈ map fst d.
Proof.
  induction d as [|[k1 v1] d IH]; cbn; [intros H%elem_of_list_singleton; by left|]. destruct (decide (k1 = k)) as [->|]; cbn.
  - intros H. by right.
  - intros H. apply elem_of_cons in H as [->|H]; [right; left|]. apply IH in H as [->|H]; [by left|right; by right].
Qed.
Lemma set_nodup (d : list (K * V)) k v : NoDup (map fst d) -> NoDup (map fst (dict_set d k v)).
Proof.
  induction d as [|[k1 v1] d IH]; cbn; intros Hnd; [apply NoDup_singleton|]. inversion_clear Hnd as [|? ? Hni Hnd'].
  destruct (decide (k1 = k)) as [->|]; cbn; constructor; try assumption; [|by apply IH]. intros H. apply set_keys in H as [->|H]; done.
Qed.
Lemma of_nodup (items : list (K * V)) : NoDup (map fst (dict_of items)).
Proof.
  unfold dict_of. assert (forall d, NoDup (map fst d) -> NoDup (map fst (fold_left (fun d kv => dict_set d (fst kv) (snd kv)) items d))) as H.
  { induction items as [|[k v] items IH]; intros d Hd; [exact Hd|]. cbn. apply IH. by apply set_nodup. }
  apply H. constructor.
Qed.

(** ** Sorted maps *)
Context (lt : K -> K -> bool).
Definition Sorted_map (m : list (K * V)) : Prop := StronglySorted (fun a b => lt (fst a) (fst b) = true) m.
Context (lt_trans : forall a b c, lt a b = true -> lt b c = true -> lt a c = true).
Context (lt_total : forall a b, a <> b -> lt a b = false -> lt b a = true).
Lemma map_set_in (m : list (K * V)) k v x : x ∈ map_set lt m k v -> x = (k, v) \/ x ∈ m.
Proof using.
  induction m as [|[k1 v1] m IH]; cbn; [intros H%elem_of_list_singleton; by left|]. destruct (decide (k1 = k)) as [->|].
  - intros H. apply elem_of_cons in H as [->|H]; [by left|right; by right].
  - destruct (lt k k1); intros H; apply elem_of_cons in H as [->|H]; [by left|by right|right; left|]. apply IH in H as [->|H]; [by left|right; by right].
Qed.
Lemma map_set_sorted (m : list (K * V)) k v : Sorted_map m -> Sorted_map (map_set lt m k v).
Proof using lt_trans lt_total.
  unfold Sorted_map. induction m as [|[k1 v1] m IH]; cbn; intros Hs; [repeat constructor|]. inversion_clear Hs as [|? ? Hs' Hall].
  destruct (decide (k1 = k)) as [->|Hne]; [constructor; assumption|]. destruct (lt k k1) eqn:E.
  - constructor; [by constructor|]. constructor; [exact E|]. apply list.Forall_forall. intros x Hx. rewrite list.Forall_forall in Hall. eapply lt_trans; [exact E|by apply Hall].
  - constructor; [by apply IH|]. apply list.Forall_forall. intros x Hx. apply map_set_in in Hx as [->|Hx].
    + cbn. by apply lt_total.
    + rewrite list.Forall_forall in Hall. by apply Hall.
Qed.
Lemma map_of_sorted (items : list (K * V)) : Sorted_map (map_of lt items).
Proof using lt_trans lt_total.
  unfold map_of. assert (forall m, Sorted_map m -> Sorted_map (fold_left (fun m kv => map_set lt m (fst kv) (snd kv)) items m)) as H.
  { induction items as [|[k v] items IH]; intros m Hm; [exact Hm|]. cbn. apply IH. by apply map_set_sorted. }
  apply H. constructor.
Qed.
Lemma sorted_nodup (m : list (K * V)) : (forall a, lt a a = false) -> Sorted_map m -> NoDup (map fst m).
Proof using.
  intros Hirr. unfold Sorted_map. induction m as [|[k v] m IH]; intros Hs; cbn; [constructor|]. inversion_clear Hs as [|? ? Hs' Hall].
  constructor; [|by apply IH]. intros H. apply elem_of_list_In, in_map_iff in H as ([k2 v2] & Hk & Hin). cbn in Hk. subst k2.
  rewrite list.Forall_forall in Hall. specialize (Hall (k, v2) ltac:(by apply elem_of_list_In)). cbn in Hall. by rewrite Hirr in Hall.
Qed.
End Dict.

(** The order of strings. *)
Lemma str_lt_irrefl s : str_lt s s = false.
Proof. unfold str_lt. destruct (String.compare s s) eqn:E; [reflexivity| |reflexivity]. pose proof (String.compare_antisym s s) as H. rewrite E in H. discriminate. Qed.
Lemma ascii_trans a b c : Ascii.compare a b = Lt -> Ascii.compare b c = Lt -> Ascii.compare a c = Lt.
Proof. unfold Ascii.compare. rewrite !N.compare_lt_iff. lia. Qed.
Lemma ascii_eq a b : Ascii.compare a b = Eq -> a = b.
Proof. unfold Ascii.compare. rewrite N.compare_eq_iff. intros H. by rewrite <- (ascii_N_embedding a), <- (ascii_N_embedding b), H. Qed.
Lemma str_compare_cons a s b t : String.compare (String a s) (String b t) =
  match Ascii.compare a b with Eq => String.compare s t | Lt => Lt | Gt => Gt end.
Proof. reflexivity. Qed.
Lemma str_lt_trans a b c : str_lt a b = true -> str_lt b c = true -> str_lt a c = true.
Proof.
  unfold str_lt. revert b c. induction a as [|x a IH]; intros [|y b] [|z c]; try (intros; discriminate); try (intros; reflexivity).
  rewrite !str_compare_cons. specialize (IH b c).
  destruct (Ascii.compare x y) eqn:Exy; try (intros; discriminate).
  - apply ascii_eq in Exy. subst y. destruct (Ascii.compare x z); [exact IH|reflexivity|intros; discriminate].
  - destruct (Ascii.compare y z) eqn:Eyz; try (intros; discriminate).
    + apply ascii_eq in Eyz. subst z. rewrite Exy. reflexivity.
    + rewrite (ascii_trans x y z Exy Eyz). reflexivity.
Qed.
Lemma str_lt_total a b : a <> b -> str_lt a b = false -> str_lt b a = true.
Proof.
  unfold str_lt. rewrite (String.compare_antisym b a). destruct (String.compare a b) eqn:E; cbn; try (intros; discriminate || reflexivity).
  apply String.compare_eq_iff in E. intros; contradiction.
Qed.

(** ** The tables *)
Section Tables.
Context {F : Type} (user : string -> option F).
Notation choice b sp := (pick user (pick_default user (user bc_name) b) b sp).

Lemma choice_uses b sp r : choice b sp = r <-> Uses user b sp r.
Proof.
  unfold pick, pick_default, Uses, bc_name, bc_name_at, bc_name_for.
  destruct (user ("bc_at_" ^^ b ^^ "_for_" ^^ sp)) as [f|]; [|destruct (user ("default_bc_at_" ^^ b)) as [f|]].
  - split; [intros <-; left; done|]. intros [[-> _]|[[? _]|[? _]]]; [reflexivity|discriminate..].
  - split; [intros <-; right; left; done|]. intros [[<- H]|[[_ [-> _]]|[_ [? _]]]]; [done|reflexivity|discriminate].
  - split; [intros <-; right; right; done|]. intros [[<- H]|[[_ [<- H]]|[_ [_ ->]]]]; [done|done|reflexivity].
Qed.

(** What is in a table of the Python class: for every tag of [inv] and every species a value. *)
Definition cell_of_table (t : @table F) (tag : Z) (sp : string) : option (option F) :=
  match dict_get t tag with Some row => dict_get row sp | None => None end.
Lemma put_ok t tag sp f : (exists row, dict_get t tag = Some row) -> exists t', table_put t tag sp f = Ok t' /\
  (forall tag' sp', cell_of_table t' tag' sp' = if decide (tag = tag' /\ sp = sp') then Some f else cell_of_table t tag' sp') /\
  (forall tag', (exists row, dict_get t' tag' = Some row) <-> exists row, dict_get t tag' = Some row).
Proof.
  intros [row Hrow]. unfold table_put. rewrite Hrow. eexists. split; [reflexivity|]. split.
  - intros tag' sp'. unfold cell_of_table. rewrite dict_get_set. destruct (decide (tag = tag')) as [->|Hne].
    + rewrite dict_get_set, Hrow. destruct (decide (sp = sp')) as [->|]; [by rewrite decide_True|rewrite decide_False by (intros [_ ?]; done); reflexivity].
    + rewrite decide_False by (intros [? _]; done). reflexivity.
  - intros tag'. rewrite dict_get_set. destruct (decide (tag = tag')) as [->|]; [|done]. split; intros _; [by exists row|by eexists].
Qed.
Lemma fill_species_ok b tag species : forall t, (exists row, dict_get t tag = Some row) ->
  exists t', fill_species user (pick_default user (user bc_name) b) b tag species t = Ok t' /\
  (forall tag' sp', cell_of_table t' tag' sp' = if decide (tag = tag' /\ sp' ∈ species) then Some (choice b sp') else cell_of_table t tag' sp') /\
  (forall tag', (exists row, dict_get t' tag' = Some row) <-> exists row, dict_get t tag' = Some row).
Proof.
  induction species as [|sp species IH]; intros t Ht.
  - exists t. split; [reflexivity|]. split; [|done]. intros tag' sp'. rewrite decide_False; [reflexivity|]. intros [_ H]. inversion H.
  - cbn [fill_species]. destruct (put_ok t tag sp (choice b sp) Ht) as (t1 & -> & H1 & K1). destruct (IH t1) as (t' & E & H2 & K2); [by apply K1|].
    exists t'. split; [exact E|]. split; [|intros tag'; by rewrite K2, K1].
    intros tag' sp'. rewrite H2, H1. destruct (decide (tag = tag' /\ sp' ∈ species)) as [[-> Hin]|Hno].
    + rewrite decide_True by (split; [reflexivity|by right]). reflexivity.
    + destruct (decide (tag = tag' /\ sp = sp')) as [[-> ->]|Hno2].
      * rewrite decide_True by (split; [reflexivity|left]). reflexivity.
      * rewrite decide_False; [reflexivity|]. intros [-> Hin]. apply elem_of_cons in Hin as [->|Hin]; [by apply Hno2|by apply Hno].
Qed.
Lemma fill_tags_ok inv species tags : (forall tag, tag ∈ tags -> exists b, dict_get inv tag = Some b) -> NoDup tags ->
  forall t, (forall tag, tag ∈ tags -> exists row, dict_get t tag = Some row) ->
  exists t', fill_tags user (user bc_name) inv species tags t = Ok t' /\
  (forall tag b sp, dict_get inv tag = Some b -> tag ∈ tags -> sp ∈ species -> cell_of_table t' tag sp = Some (choice b sp)) /\
  (forall tag sp, tag ∉ tags \/ sp ∉ species -> cell_of_table t' tag sp = cell_of_table t tag sp).
Proof.
  induction tags as [|tag tags IH]; intros Hinv Hnd t Ht.
  - exists t. split; [reflexivity|]. split; [intros tag b sp _ H; inversion H|]. done.
  - inversion_clear Hnd as [|? ? Hni Hnd']. cbn [fill_tags]. destruct (Hinv tag ltac:(left)) as [b Hb]. rewrite Hb.
    destruct (fill_species_ok b tag species t) as (t1 & -> & H1 & K1); [apply Ht; left|].
    destruct (IH ltac:(intros tag' H; apply Hinv; by right) Hnd' t1) as (t' & E & H2 & H3).
    { intros tag' H. apply K1. apply Ht. by right. }
    exists t'. split; [exact E|]. split.
    + intros tag' b' sp Hb' Hin Hsp. apply elem_of_cons in Hin as [->|Hin]; [|by apply H2].
      rewrite Hb in Hb'. injection Hb' as <-. rewrite H3 by (by left). rewrite H1. by rewrite decide_True.
    + intros tag' sp Hno. rewrite H3.
      * rewrite H1. rewrite decide_False; [reflexivity|]. intros [-> Hsp]. destruct Hno as [Hno|Hno]; [apply Hno; left|done].
      * destruct Hno as [Hno|Hno]; [left; intros H; apply Hno; by right|by right].
Qed.

Lemma swap_in (pbd : list (string * Z)) tag b : (tag, b) ∈ map (fun kv => (snd kv, fst kv)) pbd <-> (b, tag) ∈ pbd.
Proof.
  rewrite elem_of_list_In, in_map_iff. split.
  - intros ([b' tag'] & [= <- <-] & H). by apply elem_of_list_In.
  - intros H. exists (b, tag). split; [reflexivity|by apply elem_of_list_In].
Qed.
(** The name found for a tag in [pBDictInv]. *)
Lemma inv_last_gen (set : list (Z * string) -> Z -> string -> list (Z * string)) pbd tag b :
  (forall d k v k', dict_get (set d k v) k' = if decide (k = k') then Some v else dict_get d k') ->
  dict_get (fold_left (fun d kv => set d (fst kv) (snd kv)) (map (fun kv => (snd kv, fst kv)) pbd) []) tag = Some b <-> LastNamed pbd tag b.
Proof.
  intros Hset. destruct (get_fold set (map (fun kv : string * Z => (snd kv, fst kv)) pbd) [] tag Hset) as [Hl Hn].
  assert (Hfwd : LastNamed pbd tag b -> dict_get (fold_left (fun d kv => set d kv.1 kv.2) (map (fun kv : string * Z => (snd kv, fst kv)) pbd) []) tag = Some b).
  { intros (l1 & l2 & -> & H2). apply (Hl (map (fun kv => (snd kv, fst kv)) l1) (map (fun kv => (snd kv, fst kv)) l2)).
    - by rewrite map_app.
    - intros v. rewrite swap_in. apply H2. }
  split; [|exact Hfwd]. intros Hg.
  assert (exists b', (tag, b') ∈ map (fun kv : string * Z => (snd kv, fst kv)) pbd) as [b' Hb'].
  { destruct (existsb (fun kv => bool_decide (snd kv = tag)) pbd) eqn:E.
    - apply existsb_exists in E as ([b' tag'] & Hin & Ht%bool_decide_eq_true). cbn in Ht. subst tag'. exists b'. apply swap_in. by apply elem_of_list_In.
    - rewrite Hn in Hg; [discriminate|]. intros v Hv%swap_in. rewrite <- not_true_iff_false in E. apply E. apply existsb_exists. exists (v, tag).
      split; [by apply elem_of_list_In|by apply bool_decide_eq_true]. }
  destruct (last_item _ _ _ Hb') as (b2 & l1 & l2 & El & H2). rewrite (Hl l1 l2 b2 El H2) in Hg. injection Hg as ->.
  apply map_eq_app in El as (m1 & m2 & -> & <- & Em). apply map_eq_cons in Em as ([b3 tag3] & m3 & -> & [= -> ->] & <-).
  exists m1, m3. split; [reflexivity|]. intros b4 Hin. apply (H2 b4). by apply swap_in.
Qed.
Lemma inv_last pbd tag b : dict_get (dict_of (map (fun kv => (snd kv, fst kv)) pbd)) tag = Some b <-> LastNamed pbd tag b.
Proof. apply (inv_last_gen dict_set). apply dict_get_set. Qed.
Lemma key_of_inv (d : list (Z * string)) tag : tag ∈ map fst d <-> exists b, dict_get d tag = Some b.
Proof.
  split.
  - intros H. apply elem_of_list_In, in_map_iff in H as ([k v] & <- & Hin). apply (in_get _ _ v). by apply elem_of_list_In.
  - intros [b Hb]. apply get_in in Hb. apply elem_of_list_In, in_map_iff. exists (tag, b). split; [reflexivity|by apply elem_of_list_In].
Qed.

(** C29: the table of the Python class.  For every tag of a boundary and every species it has the most specific of the user's
    functions, for the name that was listed last with the tag; where there is none, the call of the function fails (TypeError).
    All other tags and species are KeyErrors. *)
Theorem C29_python species pbd : exists t, py_table user species pbd = Ok t /\
  (forall tag b sp, LastNamed pbd tag b -> sp ∈ species -> exists r, Uses user b sp r /\
     bc_lookup t tag sp = match r with Some f => Ok f | None => Raise TypeError end) /\
  (forall tag sp, (forall b, (b, tag) ∉ pbd) \/ sp ∉ species -> bc_lookup t tag sp = Raise KeyError).
Proof.
  unfold py_table. set (inv := dict_of (map (fun kv : string * Z => (snd kv, fst kv)) pbd)). set (tags := map fst inv).
  set (row0 := dict_of (map (fun sp => (sp, None)) species) : list (string * option F)).
  set (t0 := dict_of (map (fun tag => (tag, row0)) tags)).
  assert (Hrow : forall sp, sp ∉ species -> dict_get row0 sp = None).
  { intros sp Hsp. unfold row0, dict_of. destruct (get_fold dict_set (map (fun sp => (sp, None : option F)) species) [] sp dict_get_set) as [_ Hn].
    rewrite Hn; [reflexivity|]. intros v Hv. apply elem_of_list_In, in_map_iff in Hv as (sp' & [= -> _] & Hin). by apply Hsp, elem_of_list_In. }
  assert (Ht0 : forall tag, (tag ∈ tags -> dict_get t0 tag = Some row0) /\ (tag ∉ tags -> dict_get t0 tag = None)).
  { intros tag. unfold t0, dict_of. destruct (get_fold dict_set (map (fun tag => (tag, row0)) tags) [] tag dict_get_set) as [Hl Hn]. split.
    - intros Hin. destruct (last_item (map (fun tag => (tag, row0)) tags) tag row0) as (v' & l1 & l2 & El & H2).
      { apply elem_of_list_In, in_map_iff. exists tag. split; [reflexivity|by apply elem_of_list_In]. }
      rewrite (Hl l1 l2 v' El H2). f_equal. assert (H : (tag, v') ∈ map (fun tag => (tag, row0)) tags) by (rewrite El; apply elem_of_app; right; left).
      apply elem_of_list_In, in_map_iff in H as (tag' & [= _ <-] & _). reflexivity.
    - intros Hni. rewrite Hn; [reflexivity|]. intros v Hv. apply elem_of_list_In, in_map_iff in Hv as (tag' & [= -> _] & Hin). by apply Hni, elem_of_list_In. }
  destruct (fill_tags_ok inv species tags) with (t := t0) as (t' & E & H1 & H2).
  - intros tag Hin. by apply key_of_inv.
  - apply of_nodup.
  - intros tag Hin. exists row0. by apply Ht0.
  - exists t'. split; [exact E|].
    assert (Hlook : forall tag sp, bc_lookup t' tag sp = match cell_of_table t' tag sp with
      | Some (Some f) => Ok f | Some None => Raise TypeError | None => Raise KeyError end).
    { intros tag sp. unfold bc_lookup, cell_of_table. destruct (dict_get t' tag) as [row|]; [|reflexivity].
      destruct (dict_get row sp) as [[f|]|]; reflexivity. }
    split.
    + intros tag b sp Hb Hsp. exists (choice b sp). split; [by apply choice_uses|]. rewrite Hlook.
      apply inv_last in Hb. fold inv in Hb. rewrite (H1 tag b sp Hb); [by destruct (choice b sp)|apply key_of_inv; by eexists|exact Hsp].
    + intros tag sp Hno. rewrite Hlook. destruct Hno as [Hno|Hno].
      * assert (Hni : tag ∉ tags).
        { intros Hin. apply key_of_inv in Hin as [b Hb]. apply inv_last in Hb as (l1 & l2 & -> & _). apply (Hno b), elem_of_app. right; left. }
        rewrite H2 by (by left). unfold cell_of_table. by rewrite (proj2 (Ht0 tag) Hni).
      * rewrite H2 by (by right). unfold cell_of_table. destruct (decide (tag ∈ tags)) as [Hin|Hni].
        -- rewrite (proj1 (Ht0 tag) Hin). by rewrite Hrow.
        -- by rewrite (proj2 (Ht0 tag) Hni).
Qed.

(** The C++ class. *)
Lemma cpp_species_ok b tag species : forall t,
  (forall sp, sp ∈ species -> choice b sp <> None) ->
  exists t', cpp_fill_species user (pick_default user (user bc_name) b) b tag species t = Ok t' /\
    (forall sp, sp ∈ species -> dict_get t' (tag, sp) = choice b sp) /\
    (forall tag' sp, tag' <> tag \/ sp ∉ species -> dict_get t' (tag', sp) = dict_get t (tag', sp)).
Proof.
  induction species as [|sp species IH]; intros t H.
  - exists t. split; [reflexivity|]. split; [intros sp Hs; inversion Hs|done].
  - cbn [cpp_fill_species]. destruct (choice b sp) as [f|] eqn:Ef; [|exfalso; by apply (H sp); [left|]].
    destruct (IH (dict_set t (tag, sp) f)) as (t' & E & H1 & H2); [intros s Hs; apply H; by right|].
    exists t'. split; [exact E|]. split.
    + intros s Hs. destruct (decide (s ∈ species)) as [Hin|Hni]; [by apply H1|]. apply elem_of_cons in Hs as [->|Hs]; [|done].
      rewrite H2 by (by right). rewrite dict_get_set, decide_True by reflexivity. by rewrite Ef.
    + intros tag' s Hno. rewrite H2; [|destruct Hno as [?|Hno]; [by left|right; intros Hs; apply Hno; by right]].
      rewrite dict_get_set, decide_False; [reflexivity|]. intros [= <- <-]. destruct Hno as [?|Hno]; [done|apply Hno; left].
Qed.
Lemma cpp_species_exit b tag species : forall t,
  (exists sp, sp ∈ species /\ choice b sp = None) ->
  cpp_fill_species user (pick_default user (user bc_name) b) b tag species t = Raise SystemExit.
Proof.
  induction species as [|sp species IH]; intros t (s & Hs & E); [inversion Hs|]. cbn [cpp_fill_species].
  destruct (choice b sp) as [f|] eqn:Ef; [|reflexivity]. apply IH. apply elem_of_cons in Hs as [->|Hs]; [congruence|by exists s].
Qed.
Lemma cpp_tags_ok species inv : NoDup (map fst inv) -> forall t,
  (forall tag b sp, (tag, b) ∈ inv -> sp ∈ species -> choice b sp <> None) ->
  exists t', cpp_fill_tags user (user bc_name) inv species t = Ok t' /\
    (forall tag b sp, (tag, b) ∈ inv -> sp ∈ species -> dict_get t' (tag, sp) = choice b sp) /\
    (forall tag sp, tag ∉ map fst inv \/ sp ∉ species -> dict_get t' (tag, sp) = dict_get t (tag, sp)).
Proof.
  induction inv as [|[tag b] inv IH]; intros Hnd t H.
  - exists t. split; [reflexivity|]. split; [intros ? ? ? Hin; inversion Hin|done].
  - cbn in Hnd. inversion_clear Hnd as [|? ? Hni Hnd']. cbn [cpp_fill_tags].
    destruct (cpp_species_ok b tag species t) as (t1 & -> & H1 & H2); [intros sp Hsp; apply (H tag b sp); [left|exact Hsp]|].
    destruct (IH Hnd' t1) as (t' & E & H3 & H4); [intros tag' b' sp Hin Hsp; apply (H tag' b'); [by right|exact Hsp]|].
    exists t'. split; [exact E|]. split.
    + intros tag' b' sp Hin Hsp. apply elem_of_cons in Hin as [[= -> ->]|Hin]; [|by apply H3]. rewrite H4 by (by left). by apply H1.
    + cbn. intros tag' sp Hno. rewrite H4; [apply H2|]; destruct Hno as [Hno|Hno]; [left; intros ->; apply Hno; left|by right|left; intros Hx; apply Hno; by right|by right].
Qed.
Lemma cpp_tags_exit species inv : forall t,
  (exists tag b sp, (tag, b) ∈ inv /\ sp ∈ species /\ choice b sp = None) ->
  cpp_fill_tags user (user bc_name) inv species t = Raise SystemExit.
Proof.
  induction inv as [|[tag b] inv IH]; intros t (tag' & b' & sp & Hin & Hsp & E); [inversion Hin|]. cbn [cpp_fill_tags].
  assert (Hdec : (exists s, s ∈ species /\ choice b s = None) \/ (forall s, s ∈ species -> choice b s <> None)).
  { clear. induction species as [|s l IHl]; [right; intros s Hs; inversion Hs|]. destruct (choice b s) as [f|] eqn:Ef.
    - destruct IHl as [(s' & Hs' & E')|Hall]; [left; exists s'; split; [by right|exact E']|right].
      intros s' Hs'. apply elem_of_cons in Hs' as [->|Hs']; [congruence|by apply Hall].
    - left. exists s. split; [left|exact Ef]. }
  destruct Hdec as [Hex|Hall]; [by rewrite cpp_species_exit|].
  destruct (cpp_species_ok b tag species t Hall) as (t1 & -> & _). apply IH. apply elem_of_cons in Hin as [[= -> ->]|Hin].
  - exfalso. by apply (Hall sp Hsp).
  - by exists tag', b', sp.
Qed.

Lemma map_items (pbd : list (string * Z)) b tag : NoDup (map fst pbd) -> (b, tag) ∈ map_of str_lt pbd <-> (b, tag) ∈ pbd.
Proof.
  intros Hnd. assert (Hs : Sorted_map str_lt (map_of str_lt pbd)) by (apply map_of_sorted; [apply str_lt_trans|apply str_lt_total]).
  apply (sorted_nodup str_lt _ str_lt_irrefl) in Hs.
  destruct (get_fold (map_set str_lt) pbd [] b (map_get_set str_lt)) as [Hl Hn]. fold (map_of str_lt pbd) in Hn.
  split; intros H.
  - apply (nodup_get _ _ _ Hs) in H. destruct (existsb (fun kv => bool_decide (fst kv = b)) pbd) eqn:E.
    + apply existsb_exists in E as ([b' tag'] & Hin%elem_of_list_In & Ht%bool_decide_eq_true). cbn in Ht. subst b'.
      destruct (last_item _ _ _ Hin) as (tag2 & l1 & l2 & El & H2). unfold map_of in H. rewrite (Hl l1 l2 tag2 El H2) in H.
      injection H as ->. rewrite El. apply elem_of_app. right; left.
    + rewrite Hn in H; [discriminate|]. intros v Hv. rewrite <- not_true_iff_false in E. apply E. apply existsb_exists. exists (b, v).
      split; [by apply elem_of_list_In|by apply bool_decide_eq_true].
  - destruct (last_item _ _ _ H) as (tag2 & l1 & l2 & El & H2). apply get_in. unfold map_of. rewrite (Hl l1 l2 tag2 El H2).
    rewrite <- (nodup_get _ _ _ Hnd H). symmetry. apply nodup_get; [exact Hnd|]. rewrite El. apply elem_of_app. right; left.
Qed.
Lemma last_greatest (pbd : list (string * Z)) tag b : NoDup (map fst pbd) ->
  LastNamed (map_of str_lt pbd) tag b <-> GreatestNamed pbd tag b.
Proof.
  intros Hnd. assert (Hs : Sorted_map str_lt (map_of str_lt pbd)) by (apply map_of_sorted; [apply str_lt_trans|apply str_lt_total]).
  assert (Hsplit : forall l1 l2 x, map_of str_lt pbd = l1 ++ x :: l2 ->
    (forall y, y ∈ l1 -> str_lt (fst y) (fst x) = true) /\ (forall y, y ∈ l2 -> str_lt (fst x) (fst y) = true)).
  { intros l1. revert Hs. generalize (map_of str_lt pbd) as m. unfold Sorted_map. induction l1 as [|z l1 IH]; intros m Hs l2 x ->.
    - inversion_clear Hs as [|? ? _ Hall]. split; [intros y Hy; inversion Hy|]. by apply list.Forall_forall.
    - inversion_clear Hs as [|? ? Hs' Hall]. destruct (IH _ Hs' l2 x eq_refl) as [H1 H2]. split; [|exact H2].
      intros y Hy. apply elem_of_cons in Hy as [->|Hy]; [|by apply H1]. rewrite list.Forall_forall in Hall. apply Hall. apply elem_of_app. right; left. }
  split.
  - intros (l1 & l2 & E & H2). destruct (Hsplit l1 l2 _ E) as [Ha Hb]. split.
    + apply map_items; [exact Hnd|]. rewrite E. apply elem_of_app. right; left.
    + intros b' Hb'. apply map_items in Hb'; [|exact Hnd]. rewrite E in Hb'. apply elem_of_app in Hb' as [Hin|Hin].
      * right. apply (Ha _ Hin).
      * apply elem_of_cons in Hin as [[= ->]|Hin]; [by left|by apply H2 in Hin].
  - intros [Hin Hg]. apply map_items in Hin; [|exact Hnd]. apply elem_of_list_split in Hin as (l1 & l2 & E). exists l1, l2. split; [exact E|].
    intros b' Hb'. destruct (Hsplit l1 l2 _ E) as [_ Hb]. specialize (Hb _ Hb'). cbn in Hb. destruct (Hg b') as [->|Hlt].
    + apply map_items; [exact Hnd|]. rewrite E. apply elem_of_app. right; by right.
    + by rewrite str_lt_irrefl in Hb.
    + pose proof (str_lt_trans _ _ _ Hb Hlt) as Hx. by rewrite str_lt_irrefl in Hx.
Qed.

(** C29, C++: the constructor leaves the program exactly when some boundary and species have no function; otherwise the table
    has the most specific function for the alphabetically last name of the tag.  A missing entry is a call through a null
    pointer. *)
Theorem C29_cpp species pbd : NoDup (map fst pbd) ->
  (cpp_make user species pbd = Raise SystemExit <->
     exists tag b sp, GreatestNamed pbd tag b /\ sp ∈ species /\ Uses user b sp None) /\
  ((forall tag b sp, GreatestNamed pbd tag b -> sp ∈ species -> ~ Uses user b sp None) ->
   exists t, cpp_make user species pbd = Ok t /\
     (forall tag b sp, GreatestNamed pbd tag b -> sp ∈ species -> exists f, Uses user b sp (Some f) /\ cpp_lookup t tag sp = Ok f) /\
     (forall tag sp, (forall b, (b, tag) ∉ pbd) \/ sp ∉ species -> cpp_lookup t tag sp = Raise UndefinedBehaviour)).
Proof.
  intros Hnd. unfold cpp_make. set (inv := map_of Z.ltb (map (fun kv : string * Z => (snd kv, fst kv)) (map_of str_lt pbd))).
  assert (Hin : NoDup (map fst inv)).
  { apply (sorted_nodup Z.ltb); [intros a; lia|]. apply map_of_sorted; intros; lia. }
  assert (Hinv : forall tag b, (tag, b) ∈ inv <-> GreatestNamed pbd tag b).
  { intros tag b. rewrite <- last_greatest by exact Hnd. rewrite <- (inv_last_gen (map_set Z.ltb) _ tag b (map_get_set Z.ltb)).
    fold (map_of Z.ltb (map (fun kv : string * Z => (snd kv, fst kv)) (map_of str_lt pbd))). fold inv.
    split; [by apply nodup_get|apply get_in]. }
  assert (Hok : (forall tag b sp, GreatestNamed pbd tag b -> sp ∈ species -> ~ Uses user b sp None) ->
   exists t, cpp_fill_tags user (user bc_name) inv species [] = Ok t /\
     (forall tag b sp, GreatestNamed pbd tag b -> sp ∈ species -> exists f, Uses user b sp (Some f) /\ cpp_lookup t tag sp = Ok f) /\
     (forall tag sp, (forall b, (b, tag) ∉ pbd) \/ sp ∉ species -> cpp_lookup t tag sp = Raise UndefinedBehaviour)).
  { intros Hall. destruct (cpp_tags_ok species inv Hin []) as (t & E & H1 & H2).
    - intros tag b sp Hi Hsp Hc. apply (Hall tag b sp); [by apply Hinv|exact Hsp|by apply choice_uses].
    - exists t. split; [exact E|]. split.
      + intros tag b sp Hg Hsp. destruct (choice b sp) as [f|] eqn:Ef.
        * exists f. split; [by apply choice_uses|]. unfold cpp_lookup. rewrite (H1 tag b sp); [by rewrite Ef|by apply Hinv|exact Hsp].
        * exfalso. apply (Hall tag b sp Hg Hsp). by apply choice_uses.
      + intros tag sp Hno. unfold cpp_lookup. rewrite H2; [reflexivity|]. destruct Hno as [Hno|Hno]; [left|by right].
        intros Hk. apply elem_of_list_In, in_map_iff in Hk as ([tag' b] & <- & Hb%elem_of_list_In). apply Hinv in Hb as [Hb _]. by apply (Hno b). }
  split; [|exact Hok]. split.
  - intros E. destruct (existsb (fun x => existsb (fun sp => match choice (snd x) sp with None => true | Some _ => false end) species) inv) eqn:Hd.
    + apply existsb_exists in Hd as ([tag b] & Hi%elem_of_list_In & Hd). apply existsb_exists in Hd as (sp & Hsp%elem_of_list_In & Hc).
      exists tag, b, sp. split; [by apply Hinv|]. split; [exact Hsp|]. apply choice_uses. cbn in Hc. by destruct (choice b sp).
    + destruct Hok as (t & E' & _); [|congruence]. intros tag b sp Hg Hsp Hu. rewrite <- not_true_iff_false in Hd. apply Hd.
      apply existsb_exists. exists (tag, b). split; [by apply elem_of_list_In, Hinv|]. apply existsb_exists. exists sp.
      split; [by apply elem_of_list_In|]. cbn. apply choice_uses in Hu. by rewrite Hu.
  - intros (tag & b & sp & Hg & Hsp & Hu). apply cpp_tags_exit. exists tag, b, sp. split; [by apply Hinv|]. split; [exact Hsp|by apply choice_uses].
Qed.
End Tables.

(** When no two boundaries share a tag, the two classes choose the same functions. *)
Theorem C29_agree {F} (user : string -> option F) species pbd tp tc : NoDup (map fst pbd) -> NoDup (map snd pbd) ->
  py_table user species pbd = Ok tp -> cpp_make user species pbd = Ok tc ->
  forall tag sp f, bc_lookup tp tag sp = Ok f <-> cpp_lookup tc tag sp = Ok f.
Proof.
  intros Hn Ht Ep Ec tag sp f.
  assert (Huniq : forall b b', (b, tag) ∈ pbd -> (b', tag) ∈ pbd -> b = b').
  { clear - Ht. induction pbd as [|[b0 t0] l IH]; intros b b' H H'; [inversion H|]. cbn in Ht. inversion_clear Ht as [|? ? Hni Hnd].
    assert (Hno : forall x, (x, t0) ∉ l).
    { intros x Hx. apply Hni, elem_of_list_In, in_map_iff. exists (x, t0). split; [reflexivity|by apply elem_of_list_In]. }
    apply elem_of_cons in H as [H|H]; apply elem_of_cons in H' as [H'|H'].
    - congruence.
    - injection H as -> ->. by apply Hno in H'.
    - injection H' as -> ->. by apply Hno in H.
    - by apply IH. }
  destruct (C29_python user species pbd) as (t & E & P1 & P2). rewrite Ep in E. injection E as <-.
  destruct (C29_cpp user species pbd Hn) as [Hx Hc].
  destruct Hc as (t & E & Q1 & Q2).
  { intros tag' b' sp' Hg Hs Hu. rewrite (proj2 Hx) in Ec; [discriminate|]. by exists tag', b', sp'. }
  rewrite Ec in E. injection E as <-.
  destruct (existsb (fun kv => bool_decide (snd kv = tag)) pbd && bool_decide (sp ∈ species)) eqn:Eb.
  - apply andb_true_iff in Eb as [Eb Es%bool_decide_eq_true]. apply existsb_exists in Eb as ([b tag'] & Hin%elem_of_list_In & Hk%bool_decide_eq_true).
    cbn in Hk. subst tag'.
    assert (Hl : LastNamed pbd tag b).
    { apply elem_of_list_split in Hin as (l1 & l2 & El). exists l1, l2. split; [exact El|]. intros b' Hb'.
      assert (b' = b) as -> by (apply Huniq; rewrite El; apply elem_of_app; right; [by right|left]).
      clear - Hn El Hb'. rewrite El, map_app in Hn. cbn in Hn. apply NoDup_app in Hn as (_ & _ & Hn). inversion_clear Hn as [|? ? Hni _].
      apply Hni, elem_of_list_In, in_map_iff. exists (b, tag). split; [reflexivity|by apply elem_of_list_In]. }
    assert (Hg : GreatestNamed pbd tag b).
    { split; [exact Hin|]. intros b' Hb'. left. by apply Huniq. }
    destruct (P1 tag b sp Hl Es) as (r & Hr & ->). destruct (Q1 tag b sp Hg Es) as (g & Hg' & ->).
    apply choice_uses in Hr, Hg'. rewrite Hg' in Hr. subst r. reflexivity.
  - assert (Hno : (forall b, (b, tag) ∉ pbd) \/ sp ∉ species).
    { apply andb_false_iff in Eb as [Eb|Eb]; [left|right; by apply bool_decide_eq_false in Eb]. intros b Hb.
      rewrite <- not_true_iff_false in Eb. apply Eb, existsb_exists. exists (b, tag). split; [by apply elem_of_list_In|by apply bool_decide_eq_true]. }
    rewrite (P2 tag sp Hno), (Q2 tag sp Hno). split; discriminate.
Qed.

(** When two boundaries share a tag, they can choose differently: Python takes the name that was listed last, C++ the
    alphabetically last. *)
Theorem C29_two_names_refuted : exists (user : string -> option nat) species pbd tp tc,
  NoDup (map fst pbd) /\ py_table user species pbd = Ok tp /\ cpp_make user species pbd = Ok tc /\
  bc_lookup tp 1 "ions" = Ok 1%nat /\ cpp_lookup tc 1 "ions" = Ok 2%nat.
Proof.
  exists (fun s => if String.eqb s "default_bc_at_outer" then Some 1%nat else if String.eqb s "default_bc_at_rmax" then Some 2%nat else None).
  exists ["ions"], [("rmax", 1%Z); ("outer", 1%Z)]. eexists. eexists. split.
  - apply (bool_decide_unpack _). vm_compute. exact I.
  - split; [vm_compute; reflexivity|]. split; [vm_compute; reflexivity|]. split; vm_compute; reflexivity.
Qed.

(** Example: a general function, one for the outer boundary and one for the ions at the inner boundary. *)
Definition eg_user (s : string) : option nat :=
  if String.eqb s "default_bc" then Some 0%nat
  else if String.eqb s "default_bc_at_rmax" then Some 1%nat
  else if String.eqb s "bc_at_rmin_for_ions" then Some 2%nat else None.
Example C29_example : exists tp tc,
  py_table eg_user ["ions"; "electrons"] [("rmin", 1%Z); ("rmax", 2%Z)] = Ok tp /\
  cpp_make eg_user ["ions"; "electrons"] [("rmin", 1%Z); ("rmax", 2%Z)] = Ok tc /\
  map (fun x => bc_lookup tp (fst x) (snd x)) [(1%Z, "ions"); (1%Z, "electrons"); (2%Z, "ions"); (2%Z, "electrons"); (3%Z, "ions")] =
    [Ok 2%nat; Ok 0%nat; Ok 1%nat; Ok 1%nat; Raise KeyError] /\
  map (fun x => cpp_lookup tc (fst x) (snd x)) [(1%Z, "ions"); (1%Z, "electrons"); (2%Z, "ions"); (2%Z, "electrons"); (3%Z, "ions")] =
    [Ok 2%nat; Ok 0%nat; Ok 1%nat; Ok 1%nat; Raise UndefinedBehaviour] /\
  cpp_make (fun s => if String.eqb s "default_bc_at_rmax" then Some 1%nat else None) ["ions"] [("rmin", 1%Z); ("rmax", 2%Z)] = Raise SystemExit.
Proof. eexists. eexists. split; [vm_compute; reflexivity|]. split; [vm_compute; reflexivity|]. split; [|split]; vm_compute; reflexivity. Qed.

(** ** C30: the names *)

(** The ways in which the names for boundary [b], species [sp] and boundary [b'], species [sp'] can be read both ways. *)
Definition Overlap (b sp b' sp' : string) : Prop :=
  (exists u, b' = b ^^ "_for_" ^^ u /\ sp = u ^^ "_for_" ^^ sp') \/ (b' = b ^^ "_for" /\ sp = "for_" ^^ sp').
(** [w] is part of [s]. *)
Definition Contains (s w : string) : Prop := exists u v, s = u ^^ w ^^ v.

Lemma append_assoc a b c : (a ^^ b) ^^ c = a ^^ (b ^^ c).
Proof. induction a as [|x a IH]; [reflexivity|]. exact (f_equal (String x) IH). Qed.
Lemma append_cons x a b : String x a ^^ b = String x (a ^^ b).
Proof. reflexivity. Qed.
Lemma append_nil b : "" ^^ b = b.
Proof. reflexivity. Qed.
Lemma append_inj a b c : a ^^ b = a ^^ c -> b = c.
Proof. induction a as [|x a IH]; [done|]. rewrite !append_cons. intros [= H]. by apply IH. Qed.

(** C30: two callback names are equal exactly when they belong to the same boundary and species, or can be read both ways. *)
Theorem C30_names b sp b' sp' : bc_name_for b sp = bc_name_for b' sp' <->
  (b = b' /\ sp = sp') \/ Overlap b sp b' sp' \/ Overlap b' sp' b sp.
Proof.
  assert (Hov : forall b sp b' sp', Overlap b sp b' sp' -> b ^^ "_for_" ^^ sp = b' ^^ "_for_" ^^ sp').
  { clear. intros b sp b' sp' [(u & -> & ->)|[-> ->]]; rewrite !append_assoc; reflexivity. }
  unfold bc_name_for. split.
  - intros H. apply append_inj in H. revert b' H. induction b as [|x b IH]; intros [|y b'] H.
    + left. split; [reflexivity|]. exact (append_inj "_for_" sp sp' H).
    + right. left. clear - H. unfold Overlap. rewrite ?append_cons, ?append_nil in *.
      injection H as <- H. destruct b' as [|c1 b']; rewrite ?append_cons, ?append_nil in H; [discriminate H|]. injection H as <- H.
      destruct b' as [|c2 b']; rewrite ?append_cons, ?append_nil in H; [discriminate H|]. injection H as <- H.
      destruct b' as [|c3 b']; rewrite ?append_cons, ?append_nil in H; [discriminate H|]. injection H as <- H.
      destruct b' as [|c4 b']; rewrite ?append_cons, ?append_nil in H.
      * injection H as H. right. split; [reflexivity|]. by rewrite H.
      * injection H as <- H. left. exists b'. split; [reflexivity|]. by rewrite H.
    + right. right. clear - H. symmetry in H. rename b into b', x into y. unfold Overlap. rewrite ?append_cons, ?append_nil in *.
      injection H as <- H. destruct b' as [|c1 b']; rewrite ?append_cons, ?append_nil in H; [discriminate H|]. injection H as <- H.
      destruct b' as [|c2 b']; rewrite ?append_cons, ?append_nil in H; [discriminate H|]. injection H as <- H.
      destruct b' as [|c3 b']; rewrite ?append_cons, ?append_nil in H; [discriminate H|]. injection H as <- H.
      destruct b' as [|c4 b']; rewrite ?append_cons, ?append_nil in H.
      * injection H as H. right. split; [reflexivity|]. by rewrite H.
      * injection H as <- H. left. exists b'. split; [reflexivity|]. by rewrite H.
    + rewrite !append_cons in H. injection H as <- H. destruct (IH b' H) as [[-> ->]|[Ho|Ho]].
      * by left.
      * right. left. destruct Ho as [(u & -> & ->)|[-> ->]]; [left; exists u; split; reflexivity|right; split; reflexivity].
      * right. right. destruct Ho as [(u & -> & ->)|[-> ->]]; [left; exists u; split; reflexivity|right; split; reflexivity].
  - intros [[-> ->]|[Ho|Ho]]; [reflexivity| |]; f_equal; [by apply Hov|symmetry; by apply Hov].
Qed.

(** It is enough that the boundary names have no "_for_" and do not end in "_for", or that the species names have no
    "_for_" and do not begin with "for_". *)
Theorem C30_unique b sp b' sp' :
  (forall x, x ∈ [b; b'] -> ~ Contains x "_for_" /\ forall u, x <> u ^^ "_for") \/
  (forall x, x ∈ [sp; sp'] -> ~ Contains x "_for_" /\ forall u, x <> "for_" ^^ u) ->
  bc_name_for b sp = bc_name_for b' sp' -> b = b' /\ sp = sp'.
Proof.
  intros Hc H. apply C30_names in H as [H|Ho]; [exact H|]. exfalso.
  assert (Hno : forall b sp b' sp', Overlap b sp b' sp' ->
    ~ (~ Contains b' "_for_" /\ forall u, b' <> u ^^ "_for") /\ ~ (~ Contains sp "_for_" /\ forall u, sp <> "for_" ^^ u)).
  { clear. intros b sp b' sp' [(u & -> & ->)|[-> ->]]; split; intros [H1 H2].
    - apply H1. by exists b, u.
    - apply H1. by exists u, sp'.
    - by apply (H2 b).
    - by apply (H2 sp'). }
  destruct Hc as [Hc|Hc], Ho as [Ho|Ho]; apply Hno in Ho as [H1 H2].
  - apply H1, Hc. right; left.
  - apply H1, Hc. left.
  - apply H2, Hc. left.
  - apply H2, Hc. right; left.
Qed.

(** That no name contains "_for_" is not enough. *)
Theorem C30_no_for_refuted : exists b sp b' sp', b <> b' /\ sp <> sp' /\
  (forall x, x ∈ [b; sp; b'; sp'] -> ~ Contains x "_for_") /\ bc_name_for b sp = bc_name_for b' sp'.
Proof.
  exists "wall", "for_ions", "wall_for", "ions". split; [done|]. split; [done|]. split; [|reflexivity].
  assert (Hd : forall s w, Contains s w -> exists n, String.prefix w (String.substring n (String.length s) s) = true /\ (n <= String.length s)%nat).
  { intros s w (u & v & ->). exists (String.length u). induction u as [|x u [IH1 IH2]].
    - split; [|cbn; lia]. rewrite append_nil. cbn [String.length].
      assert (Hsub : forall t, String.substring 0 (String.length t) t = t).
      { clear. induction t as [|y t IH]; [reflexivity|]. cbn. by rewrite IH. }
      rewrite Hsub. clear. induction w as [|y w IH]; [by destruct v|]. rewrite append_cons. cbn. by destruct (ascii_dec y y).
    - rewrite append_cons. cbn. split; [|lia]. clear - IH1.
      assert (Hsub : forall t n m k, String.prefix w (String.substring n m t) = true -> (m <= k)%nat -> String.prefix w (String.substring n k t) = true).
      { clear. intros t n m k. revert t n m k. induction w as [|y w IH]; intros t n m k H Hk; [by destruct (String.substring n k t)|].
        revert n H. induction t as [|z t IHt]; intros [|n] H; cbn in *; try discriminate.
        - destruct m; discriminate.
        - destruct m; [discriminate|]. destruct k; [lia|]. cbn in *. destruct (ascii_dec y z); [|discriminate]. apply (IH t 0%nat m k); [exact H|lia].
        - by apply IHt. }
      eapply Hsub; [exact IH1|lia]. }
  intros x Hx HC. apply Hd in HC as (n & Hs & Hn).
  repeat (apply elem_of_cons in Hx as [->|Hx]; [cbn in Hn; do 10 (destruct n as [|n]; [discriminate Hs|]); lia|]). inversion Hx.
Qed.

(** What a collision does: the function that the user wrote for one boundary and species is used for the other too. *)
Theorem C30_effect {F} (user : string -> option F) species pbd t f b sp tag b' sp' tag' :
  Overlap b sp b' sp' \/ Overlap b' sp' b sp ->
  user ("bc_at_" ^^ b ^^ "_for_" ^^ sp) = Some f -> py_table user species pbd = Ok t ->
  LastNamed pbd tag b -> LastNamed pbd tag' b' -> sp ∈ species -> sp' ∈ species ->
  bc_lookup t tag sp = Ok f /\ bc_lookup t tag' sp' = Ok f.
Proof.
  intros Ho Hf Et Hb Hb' Hs Hs'. destruct (C29_python user species pbd) as (t' & E & P1 & _). rewrite Et in E. injection E as <-.
  assert (Hn : bc_name_for b sp = bc_name_for b' sp') by (apply C30_names; by right).
  destruct (P1 tag b sp Hb Hs) as (r & Hr & ->). destruct (P1 tag' b' sp' Hb' Hs') as (r' & Hr' & ->).
  apply choice_uses in Hr, Hr'. unfold pick in Hr, Hr'. rewrite <- Hn in Hr'. fold (bc_name_for b sp) in Hf. rewrite Hf in Hr, Hr'. by subst r r'.
Qed.

(** The other names do not collide. *)
Theorem C30_defaults b b' sp : (bc_name_at b = bc_name_at b' -> b = b') /\ bc_name_at b <> bc_name /\
  bc_name_for b sp <> bc_name /\ bc_name_for b sp <> bc_name_at b'.
Proof. split; [apply append_inj|]. split; [discriminate|]. split; discriminate. Qed.

(** Example: the two readings of a name, in a table; boundaries and species of the shipped examples do not collide. *)
Example C30_example : exists t, py_table (fun s => if String.eqb s "bc_at_wall_for_for_ions" then Some 7%nat else None)
    ["for_ions"; "ions"] [("wall", 1%Z); ("wall_for", 2%Z)] = Ok t /\
  bc_lookup t 1 "for_ions" = Ok 7%nat /\ bc_lookup t 2 "ions" = Ok 7%nat /\ bc_lookup t 1 "ions" = Raise TypeError.
Proof. eexists. split; [vm_compute; reflexivity|]. split; [|split]; vm_compute; reflexivity. Qed.

Print Assumptions C29_python.
Print Assumptions C29_cpp.
Print Assumptions C29_agree.
Print Assumptions C29_two_names_refuted.
Print Assumptions C30_names.
Print Assumptions C30_unique.
Print Assumptions C30_no_for_refuted.
Print Assumptions C30_effect.
Print Assumptions C30_defaults.
