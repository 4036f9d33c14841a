(** C38: the particle records of the C++ code, their conversions and their layout. *)
From stdpp Require Import strings.
From Coq Require Import String Ascii.
From Verif Require Import PstructModel SpeciesModel.
From Coq Require Import ZifyBool ZifyNat.
Local Open Scope string_scope.
Local Open Scope list_scope.
Local Open Scope Z_scope.

(** ** What is meant *)

(** The name of a coordinate system in the Python input. *)
Definition cs_name (pt : ptype) : string :=
  match pt with
  | cartesian_x => "cartesian_x" | cartesian_xy => "cartesian_xy" | cartesian_xyz => "cartesian_xyz" | spherical_r => "spherical_r"
  end.
(** The fields of a record: the position, the same with a 0, the same with a u, and five more; the last four are integers. *)
Definition field_names (pt : ptype) : list string :=
  let pos := match pt with cartesian_x => ["x"] | cartesian_xy => ["x"; "y"] | cartesian_xyz => ["x"; "y"; "z"] | spherical_r => ["r"] end in
  pos ++ map (fun c => String.append c "0") pos ++ map (fun c => String.append "u" c) pos ++
  ["weight"; "bitflags"; "cell_index"; "unique_ID"; "crossings"].
Definition field_types (pt : ptype) : list ctype :=
  let d := match pt with cartesian_x | spherical_r => 1 | cartesian_xy => 2 | cartesian_xyz => 3 end%nat in
  replicate (3 * d + 1) CDouble ++ [CInt; CInt; CInt; CInt].
(** The numpy layout without padding: every field begins where the one before it ends. *)
Definition np_size (f : npfmt) : Z := match f with Float32 | Int32 => 4 | Float64 => 8 end.
Fixpoint packed (at_ : Z) (l : list (string * npfmt)) : list (string * npfmt * Z) :=
  match l with [] => [] | (n, f) :: r => (n, f, at_) :: packed (at_ + np_size f) r end.
Definition packed_size (l : list (string * npfmt)) : Z := fold_right Z.add 0 (map (fun nf => np_size (snd nf)) l).
Definition as_np (t : ctype) : npfmt := match t with CDouble => Float64 | CInt => Int32 end.

(** A Python value [v] is stored in a field of type [t] as [w]. *)
Definition Stores {F} (of_int : Z -> option F) (t : ctype) (v w : pyval F) : Prop :=
  match t with
  | CDouble => exists f, w = VFloat f /\ (v = VFloat f \/ exists z, v = VInt z /\ of_int z = Some f)
  | CInt => exists z, w = VInt z /\ v = VInt z /\ -2147483648 <= z <= 2147483647
  end.
(** All fields can be filled from the items of [p]. *)
Definition Fills {F} (of_int : Z -> option F) (pt : ptype) (p : list (pyval F)) : Prop :=
  forall i t, field_types pt !! i = Some t -> exists v w, p !! i = Some v /\ Stores of_int t v w.
(** The first item of [p] that does not fill its field is missing ([IndexError]) or has a wrong value ([RuntimeError]). *)
Definition FailsWith {F} (of_int : Z -> option F) (pt : ptype) (p : list (pyval F)) (e : exn) : Prop :=
  exists i t, field_types pt !! i = Some t /\
    (forall j u, (j < i)%nat -> field_types pt !! j = Some u -> exists v w, p !! j = Some v /\ Stores of_int u v w) /\
    ((p !! i = None /\ e = IndexError) \/ (exists v, p !! i = Some v /\ (forall w, ~ Stores of_int t v w) /\ e = RuntimeError)).
(** The values [q] are those of [p] as stored. *)
Definition StoredAs {F} (of_int : Z -> option F) (pt : ptype) (p q : list (pyval F)) : Prop :=
  length q = length (field_types pt) /\
  forall i t, field_types pt !! i = Some t -> exists v w, p !! i = Some v /\ q !! i = Some w /\ Stores of_int t v w.
(** The integer members of a record are within the range of [int]. *)
Definition IntRange {F} (s : pstruct F) : Prop := forall m, -2147483648 <= ps_int s m <= 2147483647.

(** ** The tables *)
Definition table_of (pt : ptype) : list assign := imap (fun i mt => (fst mt, i, snd mt)) (members pt).
Lemma list_table pt : set_from_list pt = table_of pt.
Proof. destruct pt; reflexivity. Qed.
Lemma tuple_table pt : set_from_tuple pt = table_of pt.
Proof. destruct pt; reflexivity. Qed.
Lemma tuple_members pt : as_tuple_members pt = map fst (members pt).
Proof. destruct pt; reflexivity. Qed.
Lemma list_members pt : as_list_members pt = map fst (members pt).
Proof. destruct pt; reflexivity. Qed.
Lemma members_nodup pt : NoDup (map fst (members pt)).
Proof. destruct pt; apply (bool_decide_unpack _); vm_compute; exact I. Qed.
Lemma member_types pt : map snd (members pt) = field_types pt.
Proof. destruct pt; reflexivity. Qed.
Lemma dict_numpy pt : map (fun km => (snd km, fst km)) (as_dict_members pt) = numpy_fields pt.
Proof. destruct pt; reflexivity. Qed.
Lemma numpy_members pt : map fst (numpy_fields pt) = map fst (members pt).
Proof. destruct pt; reflexivity. Qed.
Lemma numpy_names pt : map snd (numpy_fields pt) = field_names pt.
Proof. destruct pt; reflexivity. Qed.

Section Conv.
Context {F : Type} (of_int : Z -> option F).
Notation pyval := (pyval F).
Notation pstruct := (pstruct F).
Implicit Types (s : pstruct) (p : list pyval).

Definition val_of (t : ctype) s m : pyval := match t with CDouble => VFloat (ps_double s m) | CInt => VInt (ps_int s m) end.
Lemma member_val pt s m t : (m, t) ∈ members pt -> member_value pt s m = val_of t s m.
Proof.
  intros Hin. unfold member_value. pose proof (members_nodup pt) as Hnd.
  assert (Hf : List.find (fun d => String.eqb (fst d) m) (members pt) = Some (m, t)).
  { induction (members pt) as [|[m1 t1] l IH]; [inversion Hin|]. cbn in *. apply list.NoDup_cons in Hnd as [Hni Hnd].
    apply elem_of_cons in Hin as [[= -> ->]|Hin]; [by rewrite String.eqb_refl|].
    destruct (String.eqb_spec m1 m) as [->|]; [|by apply IH]. exfalso. apply Hni. apply elem_of_list_In, in_map_iff. exists (m, t).
    split; [reflexivity|by apply elem_of_list_In]. }
  rewrite Hf. by destruct t.
Qed.

(** One statement. *)
Lemma run_one s p m i t :
  (forall v w, p !! i = Some v -> Stores of_int t v w ->
     exists s', run_assign of_int s p (m, i, t) = Ok s' /\ val_of t s' m = w /\
       forall m' u, m' <> m -> val_of u s' m' = val_of u s m') /\
  (p !! i = None -> run_assign of_int s p (m, i, t) = Raise IndexError) /\
  (forall v, p !! i = Some v -> (forall w, ~ Stores of_int t v w) -> run_assign of_int s p (m, i, t) = Raise RuntimeError).
Proof.
  unfold run_assign, item. split; [|split].
  - intros v w -> Hs. cbn iota beta. destruct t; cbn [Stores] in Hs.
    + destruct Hs as (f & -> & Hv). assert (Hc : cast_double of_int v = Ok f).
      { destruct Hv as [->|(z & -> & Hz)]; cbn; [reflexivity|by rewrite Hz]. }
      rewrite Hc. eexists. split; [reflexivity|]. cbn. rewrite String.eqb_refl. split; [reflexivity|].
      intros m' u Hne. destruct u; cbn; [|reflexivity]. by rewrite (proj2 (String.eqb_neq _ _) Hne).
    + destruct Hs as (z & -> & -> & Hz). cbn [cast_int]. replace ((-2147483648 <=? z) && (z <=? 2147483647)) with true by lia.
      eexists. split; [reflexivity|]. cbn. rewrite String.eqb_refl. split; [reflexivity|].
      intros m' u Hne. destruct u; cbn; [reflexivity|]. by rewrite (proj2 (String.eqb_neq _ _) Hne).
  - intros ->. reflexivity.
  - intros v -> Hn. cbn iota beta. destruct t.
    + destruct v as [z|f|]; cbn.
      * destruct (of_int z) as [f|] eqn:E; [|reflexivity]. exfalso. apply (Hn (VFloat f)). exists f. split; [reflexivity|]. right. by exists z.
      * exfalso. apply (Hn (VFloat f)). exists f. split; [reflexivity|by left].
      * reflexivity.
    + destruct v as [z|f|]; cbn [cast_int]; [|reflexivity|reflexivity].
      destruct ((-2147483648 <=? z) && (z <=? 2147483647)) eqn:E; [|reflexivity].
      exfalso. apply (Hn (VInt z)). exists z. split; [reflexivity|]. split; [reflexivity|lia].
Qed.
Lemma stores_dec t v : (exists w, Stores of_int t v w) \/ (forall w, ~ Stores of_int t v w).
Proof.
  destruct t; cbn.
  - destruct v as [z|f|].
    + destruct (of_int z) as [f|] eqn:E; [left; exists (VFloat f), f; split; [reflexivity|right; by exists z]|right].
      intros w (f & _ & [?|(z' & [= <-] & ?)]); congruence.
    + left. exists (VFloat f), f. split; [reflexivity|by left].
    + right. intros w (f & _ & [?|(? & ? & _)]); discriminate.
  - destruct v as [z|f|]; [|right; intros w (? & _ & ? & _); discriminate|right; intros w (? & _ & ? & _); discriminate].
    destruct (decide (-2147483648 <= z <= 2147483647)); [left; exists (VInt z), z; done|right]. intros w (z' & _ & [= <-] & ?). done.
Qed.
Lemma stores_fun t v w w' : Stores of_int t v w -> Stores of_int t v w' -> w = w'.
Proof.
  destruct t; cbn.
  - intros (f & -> & Hf) (g & -> & Hg). destruct Hf as [->|(z & -> & Hz)], Hg as [E|(y & E & Hy)]; congruence.
  - intros (z & -> & -> & _) (y & -> & [= ->] & _). reflexivity.
Qed.

(** A sequence of statements for the members [ms], starting at item [k]. *)
Lemma run_all (ms : list (string * ctype)) : forall k s p, NoDup (map fst ms) ->
  (forall i t, map snd ms !! i = Some t -> exists v w, p !! (k + i)%nat = Some v /\ Stores of_int t v w) ->
  exists s', run_assigns of_int s p (imap (fun i mt => (fst mt, (k + i)%nat, snd mt)) ms) = (s', None) /\
    (forall i m t v w, ms !! i = Some (m, t) -> p !! (k + i)%nat = Some v -> Stores of_int t v w -> val_of t s' m = w) /\
    (forall m u, m ∉ map fst ms -> val_of u s' m = val_of u s m).
Proof.
  induction ms as [|[m t] ms IH]; intros k s p Hnd Hall.
  - exists s. split; [reflexivity|]. split; [intros; discriminate|done].
  - cbn [map fst] in Hnd. apply list.NoDup_cons in Hnd as [Hni Hnd].
    destruct (Hall 0%nat t eq_refl) as (v & w & Hv & Hw). rewrite imap_cons. cbn [fst snd run_assigns].
    destruct (run_one s p m (k + 0)%nat t) as [H1 _]. destruct (H1 v w Hv Hw) as (s1 & -> & Hs1 & Ho).
    destruct (IH (S k) s1 p Hnd) as (s' & E & H2 & H3).
    { intros i u Hi. destruct (Hall (S i) u Hi) as (v' & w' & Hv' & Hw'). exists v', w'. by rewrite Nat.add_succ_r in Hv'. }
    exists s'. split; [|split].
    + rewrite <- E. f_equal. apply imap_ext. intros i [m' t'] _. cbn. do 2 f_equal. lia.
    + intros i m' t' v' w' Hi Hp Hs. destruct i as [|i].
      * cbn in Hi. injection Hi as <- <-. rewrite Hv in Hp. injection Hp as <-. rewrite (stores_fun _ _ _ _ Hs Hw), <- Hs1.
        apply H3. exact Hni.
      * apply (H2 i m' t' v' w' Hi); [by rewrite Nat.add_succ_r in Hp|exact Hs].
    + intros m' u Hm'. cbn [map fst] in Hm'. rewrite not_elem_of_cons in Hm'. destruct Hm' as [Hne Hm']. rewrite H3 by exact Hm'. by apply Ho.
Qed.
Lemma run_stop (ms : list (string * ctype)) : forall k s p i t e, NoDup (map fst ms) -> map snd ms !! i = Some t ->
  (forall j u, (j < i)%nat -> map snd ms !! j = Some u -> exists v w, p !! (k + j)%nat = Some v /\ Stores of_int u v w) ->
  ((p !! (k + i)%nat = None /\ e = IndexError) \/ (exists v, p !! (k + i)%nat = Some v /\ (forall w, ~ Stores of_int t v w) /\ e = RuntimeError)) ->
  exists s', run_assigns of_int s p (imap (fun i mt => (fst mt, (k + i)%nat, snd mt)) ms) = (s', Some e) /\
    (forall j m u, (i <= j)%nat -> ms !! j = Some (m, u) -> val_of u s' m = val_of u s m).
Proof.
  induction ms as [|[m t1] ms IH]; intros k s p i t e Hnd Hi Hbefore Hbad; [done|].
  cbn [map fst] in Hnd. apply list.NoDup_cons in Hnd as [Hni Hnd]. rewrite imap_cons. cbn [fst snd run_assigns].
  destruct (run_one s p m (k + 0)%nat t1) as (H1 & H2 & H3). destruct i as [|i].
  - cbn in Hi. injection Hi as ->. exists s. split; [|done]. destruct Hbad as [[Hp ->]|(v & Hp & Hw & ->)].
    + by rewrite (H2 Hp).
    + by rewrite (H3 v Hp Hw).
  - destruct (Hbefore 0%nat t1 ltac:(lia) eq_refl) as (v & w & Hv & Hw). destruct (H1 v w Hv Hw) as (s1 & -> & _ & Ho).
    destruct (IH (S k) s1 p i t e Hnd Hi) as (s' & E & H4).
    { intros j u Hj Hu. destruct (Hbefore (S j) u ltac:(lia) Hu) as (v' & w' & Hv' & Hw'). exists v', w'. by rewrite Nat.add_succ_r in Hv'. }
    { by rewrite Nat.add_succ_r in Hbad. }
    exists s'. split.
    + rewrite <- E. f_equal. apply imap_ext. intros j [m' t'] _. cbn. do 2 f_equal. lia.
    + intros j m' u Hj Hm'. destruct j as [|j]; [lia|]. cbn in Hm'. rewrite (H4 j m' u ltac:(lia) Hm'). apply Ho. intros ->.
      apply Hni. apply elem_of_list_In, in_map_iff. exists (m, u). split; [reflexivity|]. by apply elem_of_list_In, elem_of_list_lookup_2 with j.
Qed.
End Conv.

Lemma table_zero pt : table_of pt = imap (fun i mt => (fst mt, (0 + i)%nat, snd mt)) (members pt).
Proof. reflexivity. Qed.
Lemma as_tuple_vals {F} pt (s : pstruct F) : as_tuple pt s = map (fun mt => val_of (snd mt) s (fst mt)) (members pt).
Proof.
  unfold as_tuple. rewrite tuple_members, map_map. apply map_ext_in. intros [m t] Hin. cbn. apply member_val. by apply elem_of_list_In.
Qed.

(** ** C38 *)

(** The list, tuple and dictionary of a record all show the fields that numpy shows, in the same order and under the same
    names, and these are the names of the Python record type. *)
Theorem C38_views {F} pt (s : pstruct F) :
  as_dict pt s = numpy_record pt s /\ as_tuple pt s = map snd (numpy_record pt s) /\ as_list pt s = as_tuple pt s /\
  map fst (numpy_record pt s) = field_names pt /\
  exists pos, position_coordinates (Some (cs_name pt)) = Ok pos /\ forall prec, map fst (particle_dtype prec pos) = field_names pt.
Proof.
  split; [|split; [|split; [|split]]].
  - unfold as_dict, numpy_record. rewrite <- dict_numpy, map_map. reflexivity.
  - unfold as_tuple, numpy_record. rewrite map_map. cbn [snd]. rewrite tuple_members, <- numpy_members, map_map. reflexivity.
  - unfold as_list, as_tuple. by rewrite tuple_members, list_members.
  - unfold numpy_record. rewrite map_map. cbn [fst]. apply numpy_names.
  - destruct pt; (eexists; split; [reflexivity|]; intros prec; reflexivity).
Qed.
(** A record with a position of two coordinates. *)
Definition c38_record : pstruct Z :=
  PS (fun m => if String.eqb m "x_" then 10 else if String.eqb m "y_" then 20 else if String.eqb m "ux_" then 3 else 0)
     (fun m => if String.eqb m "cell_index_" then 7 else -1).
Example C38_views_case :
  as_tuple cartesian_xy c38_record =
    [VFloat 10; VFloat 20; VFloat 0; VFloat 0; VFloat 3; VFloat 0; VFloat 0; VInt (-1); VInt 7; VInt (-1); VInt (-1)] /\
  nth 5 (as_dict cartesian_xy c38_record) ("", VOther) = ("uy", VFloat 0).
Proof. split; reflexivity. Qed.

(** The memory of a C++ record is laid out as the Python code's numpy type with double precision says, field by field and in
    its total size. *)
Theorem C38_layout pt : exists pos, position_coordinates (Some (cs_name pt)) = Ok pos /\
  map (fun mto => (default "" (List.find (fun mn => String.eqb (fst mn) (fst (fst mto))) (numpy_fields pt) ≫= fun mn => Some (snd mn)),
                   as_np (snd (fst mto)), snd mto)) (c_offsets pt) = packed 0 (particle_dtype Float64 pos) /\
  c_sizeof pt = packed_size (particle_dtype Float64 pos).
Proof. destruct pt; (eexists; split; [reflexivity|]; split; reflexivity). Qed.
(** With single precision it is not. *)
Theorem C38_single_precision_refuted pt : exists pos, position_coordinates (Some (cs_name pt)) = Ok pos /\
  c_sizeof pt <> packed_size (particle_dtype Float32 pos).
Proof. destruct pt; (eexists; split; [reflexivity|]; vm_compute; discriminate). Qed.
Example C38_layout_case : c_sizeof cartesian_xyz = 96 /\ nth 10 (c_offsets cartesian_xyz) ("", CInt, 0) = ("bitflags_", CInt, 80).
Proof. split; reflexivity. Qed.

(** What the conversion from a list or tuple does: if every field finds an item that fits it, the record holds those items;
    otherwise it throws the error of the first field that does not. *)
Theorem C38_convert {F} of_int pt (tuple : bool) (s0 : pstruct F) (p : list (pyval F)) :
  (Fills of_int pt p -> exists s, run_assigns of_int s0 p (if tuple then set_from_tuple pt else set_from_list pt) = (s, None) /\
     StoredAs of_int pt p (as_tuple pt s)) /\
  (forall e, FailsWith of_int pt p e -> exists s, run_assigns of_int s0 p (if tuple then set_from_tuple pt else set_from_list pt) = (s, Some e)) /\
  (Fills of_int pt p \/ exists e, FailsWith of_int pt p e).
Proof.
  assert (Ht : (if tuple then set_from_tuple pt else set_from_list pt) = table_of pt).
  { destruct tuple; [apply tuple_table|apply list_table]. }
  rewrite Ht. split; [|split].
  - intros Hf. destruct (run_all of_int (members pt) 0 s0 p (members_nodup pt)) as (s & E & Hv & _).
    { intros i t Hi. rewrite member_types in Hi. by apply Hf. }
    exists s. split; [exact E|]. rewrite as_tuple_vals. split.
    + by rewrite map_length, <- member_types, map_length.
    + intros i t Hi. destruct (Hf i t Hi) as (v & w & Hp & Hs). exists v, w. split; [exact Hp|]. split; [|exact Hs].
      rewrite <- member_types in Hi. change (map snd (members pt)) with (snd <$> members pt) in Hi. rewrite list_lookup_fmap in Hi.
      destruct (members pt !! i) as [[m u]|] eqn:Em; [|done]. cbn in Hi. injection Hi as ->.
      change (map ?f (members pt)) with (f <$> members pt). rewrite list_lookup_fmap, Em. cbn. f_equal. by apply (Hv i m t v w Em Hp).
  - intros e (i & t & Hi & Hb & Hbad). rewrite <- member_types in Hi.
    destruct (run_stop of_int (members pt) 0 s0 p i t e (members_nodup pt) Hi) as (s & E & _).
    { intros j u Hj Hu. rewrite member_types in Hu. by apply (Hb j u). }
    { exact Hbad. }
    by exists s.
  - unfold Fills, FailsWith. generalize (field_types pt). intros ts. clear.
    assert (H : forall (ts : list ctype) k, (forall i t, ts !! i = Some t -> exists v w, p !! (k + i)%nat = Some v /\ Stores of_int t v w) \/
      exists e i t, ts !! i = Some t /\
        (forall j u, (j < i)%nat -> ts !! j = Some u -> exists v w, p !! (k + j)%nat = Some v /\ Stores of_int u v w) /\
        ((p !! (k + i)%nat = None /\ e = IndexError) \/ (exists v, p !! (k + i)%nat = Some v /\ (forall w, ~ Stores of_int t v w) /\ e = RuntimeError))).
    { clear ts. intros ts. induction ts as [|t ts IH]; intros k; [left; intros; discriminate|].
      destruct (p !! k) as [v|] eqn:Ep.
      - destruct (stores_dec of_int t v) as [[w Hw]|Hn].
        + destruct (IH (S k)) as [Hl|(e & i & u & Hi & Hb & Hbad)].
          * left. intros [|i] u Hi; [cbn in Hi; injection Hi as <-; exists v, w; by rewrite Nat.add_0_r|].
            rewrite Nat.add_succ_r. by apply (Hl i).
          * right. exists e, (S i), u. split; [exact Hi|]. split; [|by rewrite Nat.add_succ_r].
            intros [|j] u' Hj Hu'; [cbn in Hu'; injection Hu' as <-; exists v, w; by rewrite Nat.add_0_r|].
            rewrite Nat.add_succ_r. apply (Hb j); [lia|exact Hu'].
        + right. exists RuntimeError, 0%nat, t. split; [reflexivity|]. split; [lia|]. right. exists v. by rewrite Nat.add_0_r.
      - right. exists IndexError, 0%nat, t. split; [reflexivity|]. split; [lia|]. left. by rewrite Nat.add_0_r. }
    destruct (H ts 0%nat) as [Hl|Hr]; [by left|by right].
Qed.
(** Converting a record to a tuple or a list and back gives the same record. *)
Theorem C38_round_trip {F} of_int pt (tuple : bool) (s s0 : pstruct F) : IntRange s ->
  exists s', run_assigns of_int s0 (if tuple then as_tuple pt s else as_list pt s) (if tuple then set_from_tuple pt else set_from_list pt) = (s', None) /\
    numpy_record pt s' = numpy_record pt s.
Proof.
  intros Hr. assert (Hp : (if tuple then as_tuple pt s else as_list pt s) = as_tuple pt s).
  { destruct tuple; [reflexivity|]. apply (C38_views pt s). }
  rewrite Hp. assert (Hself : forall i t, field_types pt !! i = Some t -> exists w, as_tuple pt s !! i = Some w /\ Stores of_int t w w).
  { intros i t Hi. rewrite as_tuple_vals. rewrite <- member_types in Hi. change (map snd (members pt)) with (snd <$> members pt) in Hi.
    rewrite list_lookup_fmap in Hi. destruct (members pt !! i) as [[m u]|] eqn:Em; [|done]. cbn in Hi. injection Hi as ->.
    change (map ?f (members pt)) with (f <$> members pt). rewrite list_lookup_fmap, Em. cbn. eexists. split; [reflexivity|].
    destruct t; cbn; [eexists; split; [reflexivity|by left]|]. eexists. split; [reflexivity|]. split; [reflexivity|apply Hr]. }
  destruct (C38_convert of_int pt tuple s0 (as_tuple pt s)) as [Hc _]. destruct Hc as (s' & E & Hlen & Hst).
  { intros i t Hi. destruct (Hself i t Hi) as (w & Hw & Hs). by exists w, w. }
  exists s'. split; [exact E|].
  assert (Heq : as_tuple pt s' = as_tuple pt s).
  { apply list_eq. intros i. destruct (field_types pt !! i) as [t|] eqn:Ei.
    - destruct (Hself i t Ei) as (w & Hw & Hs). destruct (Hst i t Ei) as (v & w' & Hv & Hw' & Hs'). rewrite Hw in Hv. injection Hv as <-.
      rewrite Hw, Hw'. f_equal. by eapply stores_fun.
    - apply lookup_ge_None in Ei. rewrite !lookup_ge_None_2; [reflexivity| |].
      + rewrite as_tuple_vals, map_length. by rewrite <- member_types, map_length in Ei.
      + by rewrite Hlen. }
  destruct (C38_views pt s) as (_ & H1 & _ & H2 & _). destruct (C38_views pt s') as (_ & H3 & _ & H4 & _).
  rewrite H1, H3 in Heq. assert (Hz : forall l l' : list (string * pyval F), map fst l = map fst l' -> map snd l = map snd l' -> l = l').
  { clear. induction l as [|[a b] l IH]; intros [|[a' b'] l'] Ha Hb; try discriminate; [reflexivity|]. cbn in *. injection Ha as -> Ha. injection Hb as -> Hb.
    f_equal. by apply IH. }
  apply Hz; [by rewrite H2, H4|exact Heq].
Qed.
(** Items after the last field are ignored: a list that is too long is accepted. *)
Theorem C38_too_long_accepted {F} of_int pt (tuple : bool) (s0 : pstruct F) (p q : list (pyval F)) : Fills of_int pt p ->
  Fills of_int pt (p ++ q) /\
  run_assigns of_int s0 (p ++ q) (if tuple then set_from_tuple pt else set_from_list pt) =
  run_assigns of_int s0 p (if tuple then set_from_tuple pt else set_from_list pt).
Proof.
  intros Hf. split; [intros i t Hi; destruct (Hf i t Hi) as (v & w & Hp & Hs); exists v, w; split; [by apply lookup_app_l_Some|exact Hs]|].
  assert (Ht : (if tuple then set_from_tuple pt else set_from_list pt) = table_of pt).
  { destruct tuple; [apply tuple_table|apply list_table]. }
  rewrite Ht, table_zero. assert (Hall : forall i t, map snd (members pt) !! i = Some t -> is_Some (p !! (0 + i)%nat)).
  { intros i t Hi. rewrite member_types in Hi. destruct (Hf i t Hi) as (v & w & Hp & _). by exists v. }
  clear Ht Hf. revert Hall. generalize 0%nat. revert s0. induction (members pt) as [|[m t] ms IH]; intros s0 k Hall; [reflexivity|].
  rewrite imap_cons. cbn [run_assigns fst snd]. assert (E : run_assign of_int s0 (p ++ q) (m, (k + 0)%nat, t) = run_assign of_int s0 p (m, (k + 0)%nat, t)).
  { destruct (Hall 0%nat t eq_refl) as [v Hv]. unfold run_assign, item. rewrite Hv. by rewrite (lookup_app_l_Some _ _ _ _ Hv). }
  rewrite E. destruct (run_assign of_int s0 p (m, (k + 0)%nat, t)) as [s1|]; [|reflexivity].
  assert (Ei : imap ((fun i mt => (fst mt, (k + i)%nat, snd mt)) ∘ S) ms = imap (fun i mt => (fst mt, (S k + i)%nat, snd mt)) ms).
  { apply imap_ext. intros i [m' t'] _. cbn. do 2 f_equal. lia. }
  rewrite Ei. apply IH. intros i u Hi. replace (S k + i)%nat with (k + S i)%nat by lia. by apply (Hall (S i) u).
Qed.
Example C38_convert_case :
  let p := [VInt 1; VFloat 2; VInt 3; VFloat 4; VInt 0; VInt 5; VInt 9; VInt 0] in
  let rd := fun s => as_tuple cartesian_x s in
  (* an int is accepted for a double *)
  rd (fst (run_assigns Some c38_record p (set_from_tuple cartesian_x))) =
    [VFloat 1; VFloat 2; VFloat 3; VFloat 4; VInt 0; VInt 5; VInt 9; VInt 0] /\
  (* too short, a float for an int, an int out of range *)
  snd (run_assigns Some c38_record (take 7 p) (set_from_list cartesian_x)) = Some IndexError /\
  snd (run_assigns Some c38_record (take 5 p ++ [VFloat 5; VInt 9; VInt 0]) (set_from_list cartesian_x)) = Some RuntimeError /\
  snd (run_assigns Some c38_record (take 6 p ++ [VInt 2147483648; VInt 0]) (set_from_list cartesian_x)) = Some RuntimeError /\
  (* too long *)
  snd (run_assigns Some c38_record (p ++ [VOther]) (set_from_list cartesian_x)) = None.
Proof. repeat split; reflexivity. Qed.

(** *** Into the container *)
Lemma store_shape {A} (a a' : sarr A) f o x : c_store a f o x = Ok a' -> fnf a' = fnf a /\ fao a' = fao a /\ cur a' = cur a /\ nseg a' = nseg a.
Proof.
  unfold c_store. destruct (c_get (segs a) f) as [v|]; [|discriminate]. destruct (c_set v o x) as [v'|]; [|discriminate].
  destruct (c_set (segs a) f v') as [ss|]; [|discriminate]. intros [= <-]. done.
Qed.
Lemma store_result {A} (a : sarr A) f o x :
  c_store a f o x =
  match (let! v := c_get (segs a) f in c_get v o) with
  | Ok _ => match c_get (segs a) f with
            | Ok v => Ok (SArr (<[Z.to_nat f := <[Z.to_nat o := x]> v]> (segs a)) (fnf a) (fao a) (cur a) (nseg a))
            | Raise e => Raise e
            end
  | Raise e => Raise e
  end.
Proof.
  unfold c_store, c_get, c_set. destruct (0 <=? f) eqn:Ef; [|reflexivity]. destruct (segs a !! Z.to_nat f) as [v|] eqn:Ev; [|reflexivity].
  pose proof (lookup_lt_Some _ _ _ Ev). replace (f <? Z.of_nat (length (segs a))) with true by lia. cbn [andb].
  destruct (0 <=? o) eqn:Eo; [|reflexivity]. destruct (v !! Z.to_nat o) as [y|] eqn:Ey.
  - pose proof (lookup_lt_Some _ _ _ Ey). replace (o <? Z.of_nat (length v)) with true by lia. reflexivity.
  - apply lookup_ge_None in Ey. replace (o <? Z.of_nat (length v)) with false by lia. reflexivity.
Qed.
Lemma store_twice {A} (a a' : sarr A) x y : c_store a (fnf a) (fao a) x = Ok a' -> c_store a' (fnf a') (fao a') y = c_store a (fnf a) (fao a) y.
Proof.
  intros H. destruct (store_shape _ _ _ _ _ H) as (-> & -> & H3 & H4). rewrite (store_result a') , (store_result a _ _ y).
  rewrite store_result in H. destruct (let! v := c_get (segs a) (fnf a) in c_get v (fao a)) as [z|e] eqn:Ez; [|discriminate].
  unfold c_get in *. destruct (0 <=? fnf a) eqn:Ef; [|discriminate]. destruct (segs a !! Z.to_nat (fnf a)) as [v|] eqn:Ev; [|discriminate].
  injection H as <-. cbn [segs fnf fao cur nseg]. pose proof (lookup_lt_Some _ _ _ Ev). rewrite list_lookup_insert by done.
  destruct (0 <=? fao a) eqn:Eo; [|discriminate]. destruct (v !! Z.to_nat (fao a)) as [u|] eqn:Eu; [|discriminate].
  pose proof (lookup_lt_Some _ _ _ Eu). rewrite list_lookup_insert by done. rewrite !list_insert_insert. reflexivity.
Qed.
(** The slot for the next item. *)
Definition room {A} (sp : sap A) : sarr A :=
  let a := arr sp (out_sa sp) in
  if fao a =? slen sp then
    let a1 := SArr (segs a) (fnf a) (fao a) (u32 (cur a + 1)) (nseg a) in
    if cur a1 <? nseg a1 then SArr (segs a1) (u32 (fnf a1 + 1)) 0 (cur a1) (nseg a1) else c_add_segment (slen sp) a1
  else a.
Lemma push_room {A} (sp : sap A) x : c_push_back false sp x =
  let a1 := room sp in
  let! a3 := c_store a1 (fnf a1) (fao a1) (Some x) in
  Ok (set_arr sp (out_sa sp) (SArr (segs a3) (fnf a3) (u32 (fao a3 + 1)) (cur a3) (nseg a3)), (fao a3, fnf a3 * slen sp + fao a3)).
Proof. unfold c_push_back, room. destruct (fao _ =? slen sp); [|reflexivity]. cbn zeta. cbn [negb orb]. reflexivity. Qed.
Lemma arr_set {A} (s : sap A) b a : arr (set_arr s b a) b = a.
Proof. by destruct b. Qed.
Lemma out_set {A} (s : sap A) b a : out_sa (set_arr s b a) = out_sa s.
Proof. by destruct b. Qed.
Lemma slen_set {A} (s : sap A) b a : slen (set_arr s b a) = slen s.
Proof. by destruct b. Qed.
Lemma set_set {A} (s : sap A) b a a' : set_arr (set_arr s b a) b a' = set_arr s b a'.
Proof. by destruct b. Qed.
Lemma room_fao {A} (sp : sap A) : 1 <= slen sp -> fao (room sp) <> slen sp.
Proof.
  intros HL. unfold room. destruct (fao (arr sp (out_sa sp)) =? slen sp) eqn:E; [|lia]. cbn zeta. cbn [cur nseg].
  destruct (_ <? _); cbn; lia.
Qed.

Lemma push_values_room {F} of_int pt (tuple : bool) (junk : pstruct F) (sp : sap (pstruct F)) p :
  push_values of_int pt tuple junk sp p =
  match (let! v := c_get (segs (room sp)) (fnf (room sp)) in c_get v (fao (room sp))) with
  | Raise e => (sp, Raise e)
  | Ok slot =>
    let '(s, failure) := run_assigns of_int (default junk slot) p (if tuple then set_from_tuple pt else set_from_list pt) in
    match c_store (room sp) (fnf (room sp)) (fao (room sp)) (Some s) with
    | Raise e => (sp, Raise e)
    | Ok a3 =>
      match failure with
      | Some e => (set_arr sp (out_sa sp) a3, Raise e)
      | None => (set_arr sp (out_sa sp) (SArr (segs a3) (fnf a3) (u32 (fao a3 + 1)) (cur a3) (nseg a3)), Ok (fao a3, fnf a3 * slen sp + fao a3))
      end
    end
  end.
Proof. reflexivity. Qed.

(** Adding a tuple or list that fills a record is adding that record. *)
Theorem C38_push {F} of_int pt (tuple : bool) (junk : pstruct F) (sp : sap (pstruct F)) p : Fills of_int pt p ->
  exists s, StoredAs of_int pt p (as_tuple pt s) /\
    push_values of_int pt tuple junk sp p = match c_push_back false sp s with Ok (sp', r) => (sp', Ok r) | Raise e => (sp, Raise e) end.
Proof.
  intros Hf. rewrite push_values_room.
  set (slot := let! v := c_get (segs (room sp)) (fnf (room sp)) in c_get v (fao (room sp))).
  destruct (C38_convert of_int pt tuple (match slot with Ok y => default junk y | Raise _ => junk end) p) as [Hc _].
  destruct (Hc Hf) as (s & E & Hs). exists s. split; [exact Hs|]. rewrite push_room. cbn zeta.
  destruct slot as [y|e] eqn:Ey.
  - cbn iota beta in E. rewrite E. destruct (c_store _ _ _ _) as [a3|e]; reflexivity.
  - rewrite store_result. fold slot. rewrite Ey. reflexivity.
Qed.
(** Reading it back gives the values put in. *)
Theorem C38_read_back {F} of_int pt (tuple : bool) (junk : pstruct F) (sp sp' : sap (pstruct F)) p off i :
  1 <= slen sp -> 0 <= fao (arr sp (out_sa sp)) <= slen sp ->
  push_values of_int pt tuple junk sp p = (sp', Ok (off, i)) ->
  exists q, StoredAs of_int pt p q /\ get_as_tuple pt junk sp' i = Ok q /\ get_as_list pt junk sp' i = Ok q /\
    exists d, get_as_dict pt junk sp' i = Ok d /\ map snd d = q /\ map fst d = field_names pt.
Proof.
  intros HL Hfao Hp.
  assert (Hfill : Fills of_int pt p).
  { destruct (C38_convert of_int pt tuple junk p) as (_ & _ & [?|[e He]]); [done|exfalso]. rewrite push_values_room in Hp.
    destruct (let! v := c_get (segs (room sp)) (fnf (room sp)) in c_get v (fao (room sp))) as [y|?]; [|discriminate].
    destruct (C38_convert of_int pt tuple (default junk y) p) as (_ & Hc & _). destruct (Hc e He) as [s E]. rewrite E in Hp.
    destruct (c_store _ _ _ _); discriminate. }
  destruct (C38_push of_int pt tuple junk sp p Hfill) as (s & Hs & E). rewrite E in Hp. clear E.
  exists (as_tuple pt s). split; [exact Hs|].
  rewrite push_room in Hp. cbn zeta in Hp. rewrite store_result in Hp.
  assert (Hro : 0 <= fao (room sp) < slen sp).
  { pose proof (room_fao sp HL). unfold room in *. destruct (fao (arr sp (out_sa sp)) =? slen sp) eqn:Ee; cbn zeta in *; cbn [cur nseg] in *;
      [destruct (_ <? _); cbn in *; lia|lia]. }
  unfold c_get in Hp. destruct (0 <=? fnf (room sp)) eqn:Ef; [|discriminate].
  destruct (segs (room sp) !! Z.to_nat (fnf (room sp))) as [v|] eqn:Ev; [|discriminate].
  destruct (0 <=? fao (room sp)) eqn:Eo; [|discriminate]. destruct (v !! Z.to_nat (fao (room sp))) as [y|] eqn:Ey; [|discriminate].
  cbn iota beta in Hp. cbn [segs fnf fao cur nseg] in Hp. injection Hp as <- <- <-.
  assert (Hg : c_get_item (set_arr sp (out_sa sp)
      (SArr (<[Z.to_nat (fnf (room sp)) := <[Z.to_nat (fao (room sp)) := Some s]> v]> (segs (room sp))) (fnf (room sp))
         (u32 (fao (room sp) + 1)) (cur (room sp)) (nseg (room sp)))) (fnf (room sp) * slen sp + fao (room sp)) = Ok (Some s)).
  { unfold c_get_item. rewrite out_set, arr_set, slen_set. cbn [segs].
    rewrite Z.quot_div_nonneg, Z.rem_mod_nonneg by nia.
    rewrite Z.div_add_l, (Z.div_small (fao (room sp)) (slen sp)) by lia. rewrite Z.add_0_r, (Z.add_comm (_ * _)), Z.mod_add, Z.mod_small by lia.
    unfold c_get. rewrite Ef, Eo. pose proof (lookup_lt_Some _ _ _ Ev). pose proof (lookup_lt_Some _ _ _ Ey).
    rewrite list_lookup_insert by done. cbn iota beta. by rewrite list_lookup_insert by done. }
  unfold get_as_tuple, get_as_list, get_as_dict. rewrite Hg. cbn [default]. destruct (C38_views pt s) as (H1 & H2 & H3 & H4 & _).
  split; [reflexivity|]. split; [cbn; by rewrite H3|]. eexists. split; [reflexivity|]. cbn; rewrite H1. split; [by rewrite H2|exact H4].
Qed.
(** Adding a tuple or list that does not fill a record throws, and is as if it had not been done: the number of items and the
    items are the same, and what is added next is added as it would have been.  (The slot after the last item has been written to,
    and a new segment may have been started.) *)
Theorem C38_failed_push {F} of_int pt (tuple : bool) (junk : pstruct F) (sp : sap (pstruct F)) p e :
  1 <= slen sp -> 0 <= fnf (arr sp (out_sa sp)) < 2 ^ 32 - 1 -> 0 <= fao (arr sp (out_sa sp)) <= slen sp ->
  FailsWith of_int pt p e ->
  exists sp' e', push_values of_int pt tuple junk sp p = (sp', Raise e') /\ (e' = e \/ e' = UndefinedBehaviour) /\
    ((exists x r, c_push_back false sp x = Ok r) -> e' = e) /\
    c_get_number_of_items sp' = c_get_number_of_items sp /\
    (forall i, 0 <= i < c_get_number_of_items sp -> c_get_item sp i <> Raise UndefinedBehaviour -> c_get_item sp' i = c_get_item sp i) /\
    (forall x, c_push_back false sp' x = c_push_back false sp x) /\
    (forall x r, c_push_back true sp x = Ok r -> c_push_back true sp' x = Ok r).
Proof.
  intros HL Hfnf Hfao He. rewrite push_values_room. set (slot := let! v := c_get (segs (room sp)) (fnf (room sp)) in c_get v (fao (room sp))).
  destruct slot as [y|e0] eqn:Ey.
  2: { exists sp, e0. assert (e0 = UndefinedBehaviour) as ->.
       { revert Ey. unfold slot, c_get. destruct (0 <=? fnf (room sp)); [|by intros [= <-]]. destruct (_ !! _) as [v|]; [|by intros [= <-]].
         destruct (0 <=? fao (room sp)); [|by intros [= <-]]. destruct (v !! _); [discriminate|by intros [= <-]]. }
       repeat split; try done; [by right|]. intros (x & r & Hx). rewrite push_room in Hx. cbn zeta in Hx. rewrite store_result in Hx.
       fold slot in Hx. rewrite Ey in Hx. discriminate. }
  destruct (C38_convert of_int pt tuple (default junk y) p) as (_ & Hc & _). destruct (Hc e He) as [s Es]. rewrite Es.
  destruct (c_store (room sp) (fnf (room sp)) (fao (room sp)) (Some s)) as [a3|e1] eqn:Est.
  2: { exfalso. rewrite store_result in Est. fold slot in Est. rewrite Ey in Est. revert Ey. unfold slot. destruct (c_get (segs (room sp)) _); [discriminate|discriminate]. }
  destruct (store_shape _ _ _ _ _ Est) as (H1 & H2 & H3 & H4).
  assert (Ho : out_sa (set_arr sp (out_sa sp) a3) = out_sa sp) by apply out_set.
  assert (Hl : slen (set_arr sp (out_sa sp) a3) = slen sp) by apply slen_set.
  assert (Hcount : fnf (room sp) * slen sp + fao (room sp) = c_get_number_of_items sp).
  { unfold c_get_number_of_items, room. destruct (fao (arr sp (out_sa sp)) =? slen sp) eqn:Ee; [|reflexivity].
    assert (u32 (fnf (arr sp (out_sa sp)) + 1) = fnf (arr sp (out_sa sp)) + 1) as Hu.
    { unfold u32. apply Z.mod_small. lia. }
    cbn zeta. cbn [cur nseg fnf segs]. destruct (_ <? _); cbn [fnf fao c_add_segment]; rewrite Hu; lia. }
  assert (Hroom : room (set_arr sp (out_sa sp) a3) = a3).
  { unfold room. rewrite Ho, Hl, arr_set. pose proof (room_fao sp HL). destruct (fao a3 =? slen sp) eqn:Ee; [lia|reflexivity]. }
  assert (Hnext : forall x, c_push_back false (set_arr sp (out_sa sp) a3) x = c_push_back false sp x).
  { intros x. rewrite !push_room. cbn zeta. rewrite Hroom, Ho, Hl. rewrite (store_twice _ _ _ _ Est).
    destruct (c_store (room sp) (fnf (room sp)) (fao (room sp)) (Some x)) as [a4|]; [|reflexivity]. by rewrite set_set. }
  exists (set_arr sp (out_sa sp) a3), e. split; [reflexivity|]. split; [by left|]. split; [done|]. split; [|split; [|split]].
  - unfold c_get_number_of_items at 1. rewrite Ho, Hl, arr_set, H1, H2. exact Hcount.
  - intros i Hi Hdef. unfold c_get_item in *. rewrite Ho, Hl, arr_set. rewrite store_result in Est. fold slot in Est. rewrite Ey in Est.
    unfold slot, c_get in Ey. unfold c_get in Est.
    destruct (0 <=? fnf (room sp)) eqn:Ef; [|discriminate].
    destruct (segs (room sp) !! Z.to_nat (fnf (room sp))) as [v|] eqn:Ev; [|discriminate]. injection Est as <-. cbn [segs].
    destruct (0 <=? fao (room sp)) eqn:Eo; [|discriminate]. clear Ey.
    unfold c_get in *. rewrite Z.quot_div_nonneg in * by lia. rewrite Z.rem_mod_nonneg in * by lia.
    pose proof (Z.div_mod i (slen sp) ltac:(lia)) as Hdm. pose proof (Z.mod_pos_bound i (slen sp) ltac:(lia)).
    assert (0 <= i / slen sp) by (apply Z.div_pos; lia).
    set (g := i / slen sp) in *. set (o := i mod slen sp) in *. replace (0 <=? g) with true in * by lia. replace (0 <=? o) with true in * by lia.
    destruct (segs (arr sp (out_sa sp)) !! Z.to_nat g) as [w|] eqn:Ew; [|done]. cbn iota beta in *.
    assert (Ew' : segs (room sp) !! Z.to_nat g = Some w).
    { unfold room. destruct (_ =? _); [|exact Ew]. cbn zeta. destruct (_ <? _); cbn [segs c_add_segment]; [exact Ew|]. by apply lookup_app_l_Some. }
    destruct (decide (fnf (room sp) = g)) as [Eg|Ng].
    + rewrite Eg in Ev |- *. rewrite Ew' in Ev. injection Ev as <-. rewrite list_lookup_insert by (by eapply lookup_lt_Some). cbn iota beta.
      rewrite list_lookup_insert_ne; [reflexivity|]. intros E. assert (fao (room sp) = o) by lia. nia.
    + rewrite list_lookup_insert_ne by lia. rewrite Ew'. reflexivity.
  - exact Hnext.
  - intros x r Hx. assert (Hx' : c_push_back false sp x = Ok r).
    { revert Hx. unfold c_push_back. destruct (fao _ =? slen sp); [|done]. cbn zeta. cbn [negb orb]. destruct (_ =? _); [done|discriminate]. }
    rewrite <- Hnext in Hx'. rewrite <- Hx'. unfold c_push_back. rewrite Ho, Hl, arr_set. pose proof (room_fao sp HL).
    replace (fao a3 =? slen sp) with false by lia. reflexivity.
Qed.
(** A container with segments of two, holding two records: the failed attempt starts a segment, and the next attempt uses it. *)
Definition c38_push (sp : sap (pstruct Z)) (p : list (pyval Z)) := push_values Some cartesian_x true c38_record sp p.
Definition c38_tuple (x : Z) : list (pyval Z) := [VInt x; VInt 0; VInt 0; VInt 1; VInt 0; VInt 0; VInt 0; VInt 0].
Example C38_push_case :
  let s2 := fst (c38_push (fst (c38_push (c_init 2) (c38_tuple 1))) (c38_tuple 2)) in
  let bad := c38_push s2 [VInt 9; VOther] in
  let good := c38_push (fst bad) (c38_tuple 3) in
  snd bad = Raise RuntimeError /\ c_get_number_of_items (fst bad) = 2 /\ c_get_number_of_segments (fst bad) = (1, 2) /\
  snd good = Ok (0, 2) /\ c_get_number_of_items (fst good) = 3 /\
  get_as_tuple cartesian_x c38_record (fst good) 2 = Ok [VFloat 3; VFloat 0; VFloat 0; VFloat 1; VInt 0; VInt 0; VInt 0; VInt 0] /\
  get_as_tuple cartesian_x c38_record (fst good) 1 = Ok [VFloat 2; VFloat 0; VFloat 0; VFloat 1; VInt 0; VInt 0; VInt 0; VInt 0].
Proof. repeat split; reflexivity. Qed.

Print Assumptions C38_views.
Print Assumptions C38_layout.
Print Assumptions C38_single_precision_refuted.
Print Assumptions C38_convert.
Print Assumptions C38_round_trip.
Print Assumptions C38_too_long_accepted.
Print Assumptions C38_push.
Print Assumptions C38_read_back.
Print Assumptions C38_failed_push.
