(** C39: charged and neutral species, their numbers, their tables and their movers. *)
From stdpp Require Import strings.
From Coq Require Import String Ascii Reals Lra.
From Verif Require Import SpeciesModel BcTableProps.
From Verif Require Import Vec VecProofs.
From Coq Require Import ZifyBool ZifyNat.
Local Open Scope string_scope.
Local Open Scope list_scope.
Local Open Scope Z_scope.

(** ** What is meant *)

(** The coordinate systems. *)
Definition Known (cs : string) : Prop :=
  cs = "cartesian_x" \/ cs = "spherical_r" \/ cs = "cartesian_xy" \/ cs = "cartesian_xyz".
(** The combinations of coordinate system and mesh dimension for which there is a C++ mover of charged particles, and of
    neutral particles. *)
Definition CppMovesCharged (cs : string) (t : Z) : Prop :=
  (cs = "cartesian_xy" /\ t = 2) \/ ((cs = "cartesian_x" \/ cs = "spherical_r") /\ t = 1).
Definition CppMovesNeutral (cs : string) (t : Z) : Prop :=
  (cs = "cartesian_xyz" /\ 1 <= t <= 3) \/ (cs = "cartesian_xy" /\ 1 <= t <= 2).
(** An empty container of the chosen kind. *)
Definition Empty {A} (cs : string) (uc : cpp_choice) (dt : list (string * npfmt)) (st : storage A) : Prop :=
  match st with
  | CppStorage c s => uc = CppTrue /\ c = cs /\ c_get_number_of_items s = 0
  | PyStorage d s => uc = CppOther /\ d = dt /\ get_number_of_items s = 0
  end.

(** ** The loops *)
Section Dict.
Context {V : Type}.
Lemma set_new (d : list (string * V)) k v : k ∉ map fst d -> dict_set d k v = d ++ [(k, v)].
Proof.
  induction d as [|[k1 v1] d IH]; intros Hk; [reflexivity|]. cbn in *. rewrite decide_False.
  - f_equal. apply IH. intros H. apply Hk. by right.
  - intros ->. apply Hk. left.
Qed.
Lemma fold_new (items d : list (string * V)) : NoDup (map fst (d ++ items)) ->
  fold_left (fun d kv => dict_set d (fst kv) (snd kv)) items d = d ++ items.
Proof.
  revert d. induction items as [|[k v] items IH]; intros d Hnd; [by rewrite app_nil_r|]. cbn.
  rewrite set_new.
  - rewrite IH, <- app_assoc; [reflexivity|]. by rewrite <- app_assoc.
  - rewrite map_app in Hnd. apply NoDup_app in Hnd as (_ & Hd & _). intros Hin. apply (Hd k Hin). cbn. left.
Qed.
Lemma get_pair {X} (f : X -> string) (g : X -> V) (l : list X) x : NoDup (map f l) -> x ∈ l ->
  dict_get (map (fun x => (f x, g x)) l) (f x) = Some (g x).
Proof.
  intros Hnd Hx. apply nodup_get.
  - rewrite map_map. exact Hnd.
  - apply elem_of_list_In, in_map_iff. exists x. split; [reflexivity|by apply elem_of_list_In].
Qed.
End Dict.

Definition charged_of (sps : list species) : list species := List.filter (fun sp => negb (Reqb (sp_charge sp) 0)) sps.
Definition neutral_of (sps : list species) : list species := List.filter (fun sp => Reqb (sp_charge sp) 0) sps.
Definition new_store {A} (P : plasma A) : storage A :=
  match P_use_cpp P with
  | CppTrue => CppStorage (P_coordinates P) (c_init SEGMENT_LENGTH)
  | _ => PyStorage (P_dtype P) (sap_init SEGMENT_LENGTH)
  end.
Definition put_all {V} (f : species -> V) (sps : list species) (d : list (string * V)) : list (string * V) :=
  fold_left (fun d kv => dict_set d (fst kv) (snd kv)) (map (fun sp => (sp_name sp, f sp)) sps) d.

Lemma loop_result {A} fl (sps : list species) (P : plasma A) :
  (Forall (fun sp => sp_mass sp <> 0%R) sps /\ (sps <> [] -> P_use_cpp P <> CppNone)) ->
  species_loop fl P sps =
  Ok (Plasma (P_coordinates P) (P_use_cpp P) (P_position P) (P_dtype P) (P_number_of_species P) (P_names P) (P_class P) (P_index P)
        (put_all sp_charge sps (P_charge P)) (put_all sp_mass sps (P_mass P))
        (put_all (fun sp => fl (sp_charge sp / sp_mass sp)%R) sps (P_qom P))
        (put_all sp_dynamics sps (P_dynamics P))
        (P_charged P ++ map sp_name (charged_of sps)) (P_neutral P ++ map sp_name (neutral_of sps))
        (put_all (fun _ => new_store P) sps (P_storage P)) (put_all (fun _ => 0) sps (P_count P)) (P_h5_buffer_length P)).
Proof.
  revert P. induction sps as [|sp sps IH]; intros P [Hm Hu]; cbn [species_loop].
  - cbn. rewrite !app_nil_r. by destruct P.
  - inversion_clear Hm as [|? ? Hm1 Hm2]. unfold species_turn. rewrite (proj2 (Reqb_false _ _) Hm1).
    specialize (Hu ltac:(done)). destruct (P_use_cpp P) eqn:Eu; [done| |];
    (rewrite IH; [|split; [exact Hm2|done]]);
    cbn [P_coordinates P_use_cpp P_position P_dtype P_number_of_species P_names P_class P_index P_charge P_mass P_qom P_dynamics P_charged P_neutral P_storage P_count P_h5_buffer_length];
    unfold put_all, new_store, charged_of, neutral_of; cbn [P_use_cpp P_coordinates P_dtype map fold_left fst snd List.filter]; rewrite Eu;
    destruct (Reqb (sp_charge sp) 0); cbn [negb map]; rewrite <- ?app_assoc; reflexivity.
Qed.
Lemma loop_fails {A} fl (sps : list species) (P : plasma A) e :
  species_loop fl P sps = Raise e <->
  (exists l1 sp l2, sps = l1 ++ sp :: l2 /\ Forall (fun sp => sp_mass sp <> 0%R) l1 /\ (l1 = [] \/ P_use_cpp P <> CppNone) /\
     ((sp_mass sp = 0%R /\ e = ZeroDivisionError) \/ (sp_mass sp <> 0%R /\ P_use_cpp P = CppNone /\ e = RuntimeError))).
Proof.
  revert P. induction sps as [|sp sps IH]; intros P; cbn [species_loop].
  - split; [discriminate|]. intros (l1 & s & l2 & E & _). destruct l1; discriminate.
  - destruct (Req_EM_T (sp_mass sp) 0) as [Hm|Hm].
    + unfold species_turn. rewrite (proj2 (Reqb_true _ _) Hm). split.
      * intros [= <-]. exists [], sp, sps. split; [reflexivity|]. split; [constructor|]. split; [by left|]. by left.
      * intros (l1 & s & l2 & E & Hl & Hc & H). destruct l1 as [|s1 l1].
        { injection E as <- _. destruct H as [[_ ->]|[H _]]; done. }
        injection E as <- _. inversion_clear Hl. done.
    + destruct (P_use_cpp P) eqn:Eu.
      * unfold species_turn. rewrite (proj2 (Reqb_false _ _) Hm), Eu. split.
        { intros [= <-]. exists [], sp, sps. split; [reflexivity|]. split; [constructor|]. split; [by left|]. right. done. }
        intros (l1 & s & l2 & E & Hl & [->|Hc] & H); [|done]. injection E as <- _. destruct H as [[? _]|(_ & _ & ->)]; done.
      * unfold species_turn. rewrite (proj2 (Reqb_false _ _) Hm), Eu. rewrite IH. cbn [P_use_cpp]. split.
        { intros (l1 & s & l2 & -> & Hl & _ & [[H ->]|(_ & ? & _)]); [|done]. exists (sp :: l1), s, l2. split; [reflexivity|].
          split; [by constructor|]. split; [by right|]. by left. }
        intros (l1 & s & l2 & E & Hl & _ & [[H ->]|(_ & ? & _)]); [|done]. destruct l1 as [|s1 l1]; injection E as <- E; [done|].
        inversion_clear Hl. exists l1, s, l2. split; [exact E|]. split; [assumption|]. split; [by right|]. by left.
      * unfold species_turn. rewrite (proj2 (Reqb_false _ _) Hm), Eu. rewrite IH. cbn [P_use_cpp]. split.
        { intros (l1 & s & l2 & -> & Hl & _ & [[H ->]|(_ & ? & _)]); [|done]. exists (sp :: l1), s, l2. split; [reflexivity|].
          split; [by constructor|]. split; [by right|]. by left. }
        intros (l1 & s & l2 & E & Hl & _ & [[H ->]|(_ & ? & _)]); [|done]. destruct l1 as [|s1 l1]; injection E as <- E; [done|].
        inversion_clear Hl. exists l1, s, l2. split; [exact E|]. split; [assumption|]. split; [by right|]. by left.
Qed.

(** The coordinate system names of the input that are accepted. *)
Lemma known_pos cs : (exists c, cs = Some c /\ Known c) <-> exists pos, position_coordinates cs = Ok pos.
Proof.
  unfold position_coordinates. destruct cs as [c|]; [|split; [intros (? & ? & _)|intros (? & ?)]; discriminate].
  split.
  - intros (c' & [= <-] & [->|[->|[->| ->]]]); cbn; by eexists.
  - intros (pos & H). exists c. split; [reflexivity|]. unfold Known.
    destruct (String.eqb_spec c "cartesian_x") as [->|]; [tauto|]. destruct (String.eqb_spec c "spherical_r") as [->|]; [tauto|].
    destruct (String.eqb_spec c "cartesian_xy") as [->|]; [tauto|]. destruct (String.eqb_spec c "cartesian_xyz") as [->|]; [tauto|]. discriminate.
Qed.
Lemma pos_fails cs e : position_coordinates cs = Raise e -> e = RuntimeError.
Proof. unfold position_coordinates. destruct cs; [|by intros [= <-]]. repeat destruct (String.eqb _ _); intros H; congruence. Qed.

(** What the constructor makes. *)
Lemma new_result {A} fl prec cs uc sps (P : plasma A) : new_plasma fl prec cs uc sps = Ok P ->
  exists c pos, cs = Some c /\ Known c /\ position_coordinates cs = Ok pos /\
    Forall (fun sp => sp_mass sp <> 0%R) sps /\ (sps <> [] -> uc <> CppNone) /\
    P = Plasma c uc pos (particle_dtype prec pos) (Z.of_nat (length sps)) (map sp_name sps)
       (dict_of (map (fun sp => (sp_name sp, sp)) sps)) (index_loop (map sp_name sps) 0 [])
        (put_all sp_charge sps []) (put_all sp_mass sps []) (put_all (fun sp => fl (sp_charge sp / sp_mass sp)%R) sps [])
        (put_all sp_dynamics sps []) (map sp_name (charged_of sps)) (map sp_name (neutral_of sps))
        (put_all (fun _ => match uc with CppTrue => CppStorage c (c_init SEGMENT_LENGTH)
                           | _ => PyStorage (particle_dtype prec pos) (sap_init SEGMENT_LENGTH) end) sps [])
        (put_all (fun _ => 0) sps []) (Z.of_nat (length sps) * SEGMENT_LENGTH).
Proof.
  unfold new_plasma. destruct (position_coordinates cs) as [pos|] eqn:Ep; [|discriminate].
  destruct (proj2 (known_pos cs) ltac:(by eexists)) as (c & -> & Hk). set (P0 := Plasma _ _ _ _ _ _ _ _ _ _ _ _ _ _ _ _ _).
  intros H. exists c, pos. split; [reflexivity|]. split; [exact Hk|]. split; [reflexivity|].
  assert (Hok : Forall (fun sp => sp_mass sp <> 0%R) sps /\ (sps <> [] -> P_use_cpp P0 <> CppNone)).
  { split.
    - apply list.Forall_forall. intros sp Hsp Hm.
      assert (exists l1 sp l2, sps = l1 ++ sp :: l2 /\ Forall (fun sp => sp_mass sp <> 0%R) l1 /\ sp_mass sp = 0%R) as (l1 & sp1 & l2 & -> & Hl & Hm1).
      { clear - Hsp Hm. induction sps as [|s sps IH]; [inversion Hsp|]. destruct (Req_EM_T (sp_mass s) 0) as [Hs|Hs].
        - by exists [], s, sps.
        - apply elem_of_cons in Hsp as [->|Hsp]; [done|]. destruct (IH Hsp) as (l1 & s1 & l2 & -> & Hl & Hs1).
          exists (s :: l1), s1, l2. split; [reflexivity|]. split; [by constructor|done]. }
      destruct (decide (l1 = [])) as [->|Hne].
      + assert (Hr : species_loop fl P0 ([] ++ sp1 :: l2) = Raise ZeroDivisionError); [|by rewrite Hr in H].
        apply loop_fails. exists [], sp1, l2. split; [reflexivity|]. split; [constructor|]. split; [by left|]. by left.
      + destruct uc eqn:Eu.
        * destruct l1 as [|s1 l1]; [done|]. assert (Hr : species_loop fl P0 ((s1 :: l1) ++ sp1 :: l2) = Raise RuntimeError); [|by rewrite Hr in H].
          apply loop_fails. inversion_clear Hl. exists [], s1, (l1 ++ sp1 :: l2). split; [reflexivity|]. split; [constructor|]. split; [by left|]. by right.
        * assert (Hr : species_loop fl P0 (l1 ++ sp1 :: l2) = Raise ZeroDivisionError); [|by rewrite Hr in H].
          apply loop_fails. exists l1, sp1, l2. split; [reflexivity|]. split; [exact Hl|]. split; [by right|]. by left.
        * assert (Hr : species_loop fl P0 (l1 ++ sp1 :: l2) = Raise ZeroDivisionError); [|by rewrite Hr in H].
          apply loop_fails. exists l1, sp1, l2. split; [reflexivity|]. split; [exact Hl|]. split; [by right|]. by left.
    - cbn. intros Hne ->. destruct sps as [|s sps]; [done|].
      destruct (Req_EM_T (sp_mass s) 0) as [Hs|Hs]; cbn in H; unfold species_turn in H.
      + by rewrite (proj2 (Reqb_true _ _) Hs) in H.
      + by rewrite (proj2 (Reqb_false _ _) Hs) in H. }
  split; [apply Hok|]. split; [apply Hok|].
  rewrite (loop_result fl sps P0 Hok) in H. by injection H as <-.
Qed.

Lemma put_nodup {V} (f : species -> V) sps : NoDup (map sp_name sps) -> put_all f sps [] = map (fun sp => (sp_name sp, f sp)) sps.
Proof. intros Hnd. unfold put_all. rewrite fold_new; [reflexivity|]. cbn. by rewrite map_map. Qed.
Lemma get_put {V} (f : species -> V) sps sp : NoDup (map sp_name sps) -> sp ∈ sps -> dict_get (put_all f sps []) (sp_name sp) = Some (f sp).
Proof. intros Hnd Hsp. rewrite put_nodup by exact Hnd. by apply (get_pair sp_name f). Qed.
Lemma charged_in sps sp : sp ∈ charged_of sps <-> sp ∈ sps /\ sp_charge sp <> 0%R.
Proof.
  unfold charged_of. rewrite elem_of_list_In, filter_In, <- elem_of_list_In, negb_true_iff, Reqb_false. done.
Qed.
Lemma neutral_in sps sp : sp ∈ neutral_of sps <-> sp ∈ sps /\ sp_charge sp = 0%R.
Proof. unfold neutral_of. rewrite elem_of_list_In, filter_In, <- elem_of_list_In, Reqb_true. done. Qed.
Lemma in_names l sn : sn ∈ map sp_name l <-> exists sp, sp ∈ l /\ sp_name sp = sn.
Proof. rewrite elem_of_list_In, in_map_iff. setoid_rewrite elem_of_list_In. split; intros (sp & ? & ?); exists sp; done. Qed.
Lemma name_inj sps a b : NoDup (map sp_name sps) -> a ∈ sps -> b ∈ sps -> sp_name a = sp_name b -> a = b.
Proof.
  induction sps as [|s sps IH]; intros Hnd Ha Hb E; [inversion Ha|]. cbn in Hnd. apply list.NoDup_cons in Hnd as [Hni Hnd].
  apply elem_of_cons in Ha as [->|Ha], Hb as [->|Hb]; [reflexivity| | |by apply IH];
    exfalso; apply Hni; apply in_names; [exists b|exists a]; done.
Qed.
Lemma sublist_map_filter {X Y} (f : X -> Y) (p : X -> bool) l : sublist (map f (List.filter p l)) (map f l).
Proof. induction l as [|x l IH]; cbn; [constructor|]. destruct (p x); cbn; by constructor. Qed.

(** ** C39 *)

(** Of species with different names, exactly those with a charge are in the charged list and exactly the others in the
    neutral list; both lists are in the order of the input and together hold every species once. *)
Theorem C39_partition {A} fl prec cs uc sps (P : plasma A) :
  new_plasma fl prec cs uc sps = Ok P -> NoDup (map sp_name sps) ->
  (forall sp, sp ∈ sps ->
     (sp_charge sp <> 0%R -> sp_name sp ∈ P_charged P /\ sp_name sp ∉ P_neutral P) /\
     (sp_charge sp = 0%R -> sp_name sp ∈ P_neutral P /\ sp_name sp ∉ P_charged P)) /\
  sublist (P_charged P) (map sp_name sps) /\ sublist (P_neutral P) (map sp_name sps) /\
  P_charged P ++ P_neutral P ≡ₚ map sp_name sps.
Proof.
  intros H Hnd. destruct (new_result _ _ _ _ _ _ H) as (c & pos & _ & _ & _ & _ & _ & ->). cbn [P_charged P_neutral].
  split; [|split; [apply sublist_map_filter|split; [apply sublist_map_filter|]]].
  - intros sp Hsp. split; intros Hq.
    + split; [apply in_names; exists sp; split; [by apply charged_in|reflexivity]|].
      intros (b & Hb & E)%in_names. apply neutral_in in Hb as [Hb Hb0]. rewrite (name_inj sps b sp Hnd Hb Hsp E) in Hb0. done.
    + split; [apply in_names; exists sp; split; [by apply neutral_in|reflexivity]|].
      intros (b & Hb & E)%in_names. apply charged_in in Hb as [Hb Hb0]. rewrite (name_inj sps b sp Hnd Hb Hsp E) in Hb0. done.
  - clear. rewrite <- map_app. apply Permutation_map. unfold charged_of, neutral_of. induction sps as [|s sps IH]; cbn; [reflexivity|].
    destruct (Reqb (sp_charge s) 0); cbn; [|by constructor]. rewrite <- Permutation_middle. by constructor.
Qed.

Lemma index_get names isp d sn : NoDup names ->
  dict_get (index_loop names isp d) sn =
  match list_find (fun n => n = sn) names with Some (i, _) => Some (isp + 1 + Z.of_nat i) | None => dict_get d sn end.
Proof.
  revert isp d. induction names as [|n names IH]; intros isp d Hnd; [reflexivity|]. apply list.NoDup_cons in Hnd as [Hni Hnd].
  cbn [index_loop]. rewrite IH by exact Hnd. cbn [list_find]. destruct (decide (n = sn)) as [->|Hne].
  - rewrite (proj2 (list_find_None _ _)).
    + rewrite dict_get_set, decide_True by reflexivity. f_equal. lia.
    + apply list.Forall_forall. intros x Hx ->. done.
  - destruct (list_find (fun n => n = sn) names) as [[i x]|] eqn:Ef; cbn.
    + f_equal. lia.
    + rewrite dict_get_set, decide_False by exact Hne. reflexivity.
Qed.
(** The species numbers: the k-th species of the input, counted from 1, has the number k, and no name has any other number. *)
Theorem C39_numbers {A} fl prec cs uc sps (P : plasma A) :
  new_plasma fl prec cs uc sps = Ok P -> NoDup (map sp_name sps) ->
  P_names P = map sp_name sps /\ P_number_of_species P = Z.of_nat (length sps) /\
  forall sn k, dict_get (P_index P) sn = Some k <->
    1 <= k <= Z.of_nat (length sps) /\ exists sp, sps !! Z.to_nat (k - 1) = Some sp /\ sp_name sp = sn.
Proof.
  intros H Hnd. destruct (new_result _ _ _ _ _ _ H) as (c & pos & _ & _ & _ & _ & _ & ->). cbn [P_names P_number_of_species P_index].
  split; [reflexivity|]. split; [reflexivity|]. intros sn k. rewrite index_get by exact Hnd. cbn [dict_get].
  assert (Hl : forall i, map sp_name sps !! i = Some sn <-> exists sp, sps !! i = Some sp /\ sp_name sp = sn).
  { intros i. change (map sp_name sps) with (sp_name <$> sps). rewrite list_lookup_fmap. destruct (sps !! i) as [sp|]; cbn.
    - split; [intros [= <-]; by exists sp|intros (? & [= <-] & <-); reflexivity].
    - split; [done|intros (? & ? & _); done]. }
  destruct (list_find (fun n => n = sn) (map sp_name sps)) as [[i x]|] eqn:Ef.
  - apply list_find_Some in Ef as (Hi & -> & _). pose proof (lookup_lt_Some _ _ _ Hi) as Hlt. rewrite map_length in Hlt. split.
    + intros [= <-]. split; [lia|]. apply Hl. replace (Z.to_nat _) with i by lia. exact Hi.
    + intros [Hk Hs]. apply Hl in Hs. f_equal. pose proof (NoDup_lookup _ _ _ _ Hnd Hi Hs) as E. lia.
  - split; [discriminate|]. intros [Hk Hs]. apply Hl in Hs. apply list_find_None in Ef. pose proof (Forall_lookup_1 _ _ _ _ Ef Hs). done.
Qed.

(** The tables: every species has its own charge, mass, charge-to-mass ratio, dynamics and an empty container, and the tables
    hold nothing else. *)
Theorem C39_tables {A} fl prec cs uc sps (P : plasma A) :
  new_plasma fl prec cs uc sps = Ok P -> NoDup (map sp_name sps) ->
  (forall sp, sp ∈ sps -> let sn := sp_name sp in
     dict_get (P_class P) sn = Some sp /\
     dict_get (P_charge P) sn = Some (sp_charge sp) /\ dict_get (P_mass P) sn = Some (sp_mass sp) /\
     dict_get (P_qom P) sn = Some (fl (sp_charge sp / sp_mass sp)%R) /\ dict_get (P_dynamics P) sn = Some (sp_dynamics sp) /\
     dict_get (P_count P) sn = Some 0 /\
     exists st, dict_get (P_storage P) sn = Some st /\ Empty (default "" cs) uc (P_dtype P) st) /\
  Forall (fun keys => keys = map sp_name sps)
    [map fst (P_class P); map fst (P_charge P); map fst (P_mass P); map fst (P_qom P); map fst (P_dynamics P);
     map fst (P_count P); map fst (P_storage P)].
Proof.
  intros H Hnd. destruct (new_result _ _ _ _ _ _ H) as (c & pos & -> & Hk & Hp & Hm & Hu & ->).
  cbn [P_class P_charge P_mass P_qom P_dynamics P_count P_storage P_dtype]. change (dict_of (map (fun sp => (sp_name sp, sp)) sps)) with (put_all (fun sp => sp) sps []).
  split.
  - intros sp Hsp. cbv zeta. rewrite !get_put by assumption. repeat (split; [reflexivity|]). eexists. split; [reflexivity|].
    assert (Hne : sps <> []) by (intros ->; inversion Hsp). specialize (Hu Hne). destruct uc; [done| |]; cbn [Empty default]; split; try reflexivity; split; reflexivity.
  - repeat (apply Forall_cons_2; [rewrite put_nodup by exact Hnd; rewrite map_map; reflexivity|]). constructor.
Qed.

(** When the constructor fails, and how: the coordinate system is not one of the four; or the first species has no mass or,
    that failing, the choice between Python and C++ is missing; or a later species has no mass. *)
Theorem C39_fails {A} fl prec cs uc sps e :
  new_plasma (A:=A) fl prec cs uc sps = Raise e <->
  (~ (exists c, cs = Some c /\ Known c) /\ e = RuntimeError) \/
  ((exists c, cs = Some c /\ Known c) /\
   ((uc = CppNone /\ exists sp l, sps = sp :: l /\ e = if Req_EM_T (sp_mass sp) 0 then ZeroDivisionError else RuntimeError) \/
    (uc <> CppNone /\ (exists sp, sp ∈ sps /\ sp_mass sp = 0%R) /\ e = ZeroDivisionError))).
Proof.
  rewrite known_pos. unfold new_plasma. destruct (position_coordinates cs) as [pos|e1] eqn:Ep.
  2: { pose proof (pos_fails _ _ Ep) as ->. split.
       - intros [= <-]. left. split; [intros (? & ?); discriminate|reflexivity].
       - intros [[_ ->]|[(? & ?) _]]; [reflexivity|discriminate]. }
  rewrite loop_fails. cbn [P_use_cpp]. split.
  - intros (l1 & sp & l2 & -> & Hl & Hc & H). right. split; [by eexists|]. destruct uc eqn:Eu.
    + left. split; [reflexivity|]. destruct Hc as [->|Hc]; [|done]. exists sp, l2. split; [reflexivity|].
      destruct (Req_EM_T (sp_mass sp) 0); destruct H as [[? ->]|(? & _ & ->)]; done.
    + right. split; [done|]. destruct H as [[Hm ->]|(_ & ? & _)]; [|done]. split; [|reflexivity]. exists sp. split; [apply elem_of_app; right; left|done].
    + right. split; [done|]. destruct H as [[Hm ->]|(_ & ? & _)]; [|done]. split; [|reflexivity]. exists sp. split; [apply elem_of_app; right; left|done].
  - intros [[Hn _]|[_ [(-> & sp & l & -> & ->)|(Hu & (sp & Hsp & Hm) & ->)]]].
    + exfalso. apply Hn. by eexists.
    + exists [], sp, l. split; [reflexivity|]. split; [constructor|]. split; [by left|]. destruct (Req_EM_T (sp_mass sp) 0); [by left|by right].
    + assert (exists l1 sp l2, sps = l1 ++ sp :: l2 /\ Forall (fun sp => sp_mass sp <> 0%R) l1 /\ sp_mass sp = 0%R) as (l1 & sp1 & l2 & -> & Hl & Hm1).
      { clear - Hsp Hm. induction sps as [|s sps IH]; [inversion Hsp|]. destruct (Req_EM_T (sp_mass s) 0) as [Hs|Hs].
        - by exists [], s, sps.
        - apply elem_of_cons in Hsp as [->|Hsp]; [done|]. destruct (IH Hsp) as (l1 & s1 & l2 & -> & Hl & Hs1).
          exists (s :: l1), s1, l2. split; [reflexivity|]. split; [by constructor|done]. }
      exists l1, sp1, l2. split; [reflexivity|]. split; [exact Hl|]. split; [by right|]. by left.
Qed.

(** *** The movers *)
Lemma bound_charged cs t : has_mover cs (CppCharged (t + 1)) = true <-> CppMovesCharged cs t.
Proof.
  unfold has_mover, CppMovesCharged. destruct (String.eqb_spec cs "cartesian_xy") as [->|H1].
  - split; [intros; left; split; [reflexivity|lia]|intros [[_ ->]|[[?|?] _]]; [reflexivity|discriminate|discriminate]].
  - destruct (String.eqb_spec cs "cartesian_x") as [->|H2].
    + split; [intros; right; split; [by left|lia]|intros [[? _]|[_ ->]]; [discriminate|reflexivity]].
    + destruct (String.eqb_spec cs "spherical_r") as [->|H3].
      * split; [intros; right; split; [by right|lia]|intros [[? _]|[_ ->]]; [discriminate|reflexivity]].
      * split; [discriminate|]. intros [[? _]|[[?|?] _]]; done.
Qed.
Lemma bound_neutral cs t : has_mover cs (CppNeutral (t + 1)) = true <-> CppMovesNeutral cs t.
Proof.
  unfold has_mover, CppMovesNeutral. destruct (String.eqb_spec cs "cartesian_xyz") as [->|H1].
  - split; [intros; left; split; [reflexivity|lia]|intros [[_ ?]|[? _]]; [lia|discriminate]].
  - destruct (String.eqb_spec cs "cartesian_xy") as [->|H2].
    + split; [intros; right; split; [reflexivity|lia]|intros [[? _]|[_ ?]]; [discriminate|lia]].
    + split; [discriminate|]. intros [[? _]|[? _]]; done.
Qed.
Lemma assign_ok cs i sns d : (sns = [] \/ has_mover cs i = true) ->
  exists d', assign_integrator cs i sns d = Ok d' /\ forall sn, dict_get d' sn = if decide (sn ∈ sns) then Some i else dict_get d sn.
Proof.
  revert d. induction sns as [|s sns IH]; intros d H; cbn [assign_integrator].
  - exists d. split; [reflexivity|]. intros sn. rewrite decide_False; [reflexivity|]. intros Hs. inversion Hs.
  - destruct H as [?|H]; [discriminate|]. rewrite H. destruct (IH (dict_set d s i) (or_intror H)) as (d' & E & Hd). exists d'. split; [exact E|].
    intros sn. rewrite Hd, dict_get_set. destruct (decide (sn ∈ s :: sns)) as [Hin|Hni].
    + destruct (decide (sn ∈ sns)) as [Hs|Hs]; [reflexivity|]. apply elem_of_cons in Hin as [->|?]; [|done]. by rewrite decide_True.
    + rewrite decide_False by (intros ?; apply Hni; by right). rewrite decide_False; [reflexivity|]. intros ->. apply Hni. left.
Qed.
Lemma assign_fails cs i sns d : sns <> [] -> has_mover cs i = false -> assign_integrator cs i sns d = Raise AttributeError.
Proof. destruct sns as [|s sns]; [done|]. intros _ H. cbn. by rewrite H. Qed.

(** The mover of a species: with Python movers, that of its kind; with C++ movers also, provided that the coordinate system
    has such a mover for the mesh; if one of the species has none, the call fails. *)
Theorem C39_movers {A} fl prec c uc sps (P : plasma A) t :
  new_plasma fl prec (Some c) uc sps = Ok P -> NoDup (map sp_name sps) ->
  (uc = CppOther -> exists d, integrators P t = Ok d /\
     forall sp, sp ∈ sps -> dict_get d (sp_name sp) = Some (if Req_EM_T (sp_charge sp) 0 then PyNeutral else PyCharged)) /\
  (forall n, uc = CppTrue -> t = Some n ->
     ((forall sp, sp ∈ sps -> sp_charge sp <> 0%R -> CppMovesCharged c n) /\
      (forall sp, sp ∈ sps -> sp_charge sp = 0%R -> CppMovesNeutral c n) ->
      exists d, integrators P t = Ok d /\
        forall sp, sp ∈ sps -> dict_get d (sp_name sp) = Some (if Req_EM_T (sp_charge sp) 0 then CppNeutral (n + 1) else CppCharged (n + 1))) /\
     ((exists sp, sp ∈ sps /\ ((sp_charge sp <> 0%R /\ ~ CppMovesCharged c n) \/ (sp_charge sp = 0%R /\ ~ CppMovesNeutral c n))) ->
      integrators P t = Raise AttributeError)).
Proof.
  intros H Hnd. destruct (new_result _ _ _ _ _ _ H) as (c' & pos & [= <-] & Hk & _ & Hm & Hu & ->).
  unfold integrators. cbn [P_use_cpp P_coordinates P_charged P_neutral].
  assert (Hget : forall (ic inn : integrator) d1 d2,
    (forall sn, dict_get d1 sn = if decide (sn ∈ map sp_name (charged_of sps)) then Some ic else dict_get [] sn) ->
    (forall sn, dict_get d2 sn = if decide (sn ∈ map sp_name (neutral_of sps)) then Some inn else dict_get d1 sn) ->
    forall sp, sp ∈ sps -> dict_get d2 (sp_name sp) = Some (if Req_EM_T (sp_charge sp) 0 then inn else ic)).
  { intros ic inn d1 d2 H1 H2 sp Hsp. rewrite H2. destruct (Req_EM_T (sp_charge sp) 0) as [Hq|Hq].
    - rewrite decide_True; [reflexivity|]. apply in_names. exists sp. split; [by apply neutral_in|reflexivity].
    - rewrite decide_False.
      + rewrite H1, decide_True; [reflexivity|]. apply in_names. exists sp. split; [by apply charged_in|reflexivity].
      + intros (b & Hb & E)%in_names. apply neutral_in in Hb as [Hb Hb0]. rewrite (name_inj sps b sp Hnd Hb Hsp E) in Hb0. done. }
  split.
  - intros ->. destruct (assign_ok c PyCharged (map sp_name (charged_of sps)) [] (or_intror eq_refl)) as (d1 & -> & H1).
    destruct (assign_ok c PyNeutral (map sp_name (neutral_of sps)) d1 (or_intror eq_refl)) as (d2 & -> & H2).
    exists d2. split; [reflexivity|]. by eapply Hget.
  - intros n -> ->. split.
    + intros [Hc Hn]. destruct (assign_ok c (CppCharged (n + 1)) (map sp_name (charged_of sps)) []) as (d1 & -> & H1).
      { destruct (charged_of sps) as [|sp l] eqn:E; [by left|right]. apply bound_charged.
        assert (Hin : sp ∈ charged_of sps) by (rewrite E; left). apply charged_in in Hin as [Hin Hq]. by apply (Hc sp). }
      destruct (assign_ok c (CppNeutral (n + 1)) (map sp_name (neutral_of sps)) d1) as (d2 & -> & H2).
      { destruct (neutral_of sps) as [|sp l] eqn:E; [by left|right]. apply bound_neutral.
        assert (Hin : sp ∈ neutral_of sps) by (rewrite E; left). apply neutral_in in Hin as [Hin Hq]. by apply (Hn sp). }
      exists d2. split; [reflexivity|]. by eapply Hget.
    + intros (sp & Hsp & [[Hq Hno]|[Hq Hno]]).
      * rewrite assign_fails; [reflexivity| |].
        { assert (Hin : sp ∈ charged_of sps) by (by apply charged_in). destruct (charged_of sps); [inversion Hin|done]. }
        apply not_true_is_false. by rewrite bound_charged.
      * destruct (has_mover c (CppCharged (n + 1))) eqn:Eb.
        -- destruct (assign_ok c (CppCharged (n + 1)) (map sp_name (charged_of sps)) [] (or_intror Eb)) as (d1 & -> & H1).
           apply assign_fails.
           { assert (Hin : sp ∈ neutral_of sps) by (by apply neutral_in). destruct (neutral_of sps); [inversion Hin|done]. }
           apply not_true_is_false. by rewrite bound_neutral.
        -- destruct (map sp_name (charged_of sps)) as [|s l] eqn:Ec; [|rewrite assign_fails; [reflexivity|done|exact Eb]].
           cbn [assign_integrator]. apply assign_fails.
           { assert (Hin : sp ∈ neutral_of sps) by (by apply neutral_in). destruct (neutral_of sps); [inversion Hin|done]. }
           apply not_true_is_false. by rewrite bound_neutral.
Qed.

Lemma called_all count d sns : (forall sn, sn ∈ sns -> exists i, dict_get d sn = Some i) ->
  exists l, movers_called count d sns = Ok l /\ map fst l = List.filter (fun sn => negb (count sn =? 0)) sns /\
    forall sn i, (sn, i) ∈ l -> dict_get d sn = Some i.
Proof.
  induction sns as [|s sns IH]; intros H; cbn [movers_called].
  - exists []. split; [reflexivity|]. split; [reflexivity|]. intros sn i Hi. inversion Hi.
  - destruct IH as (l & -> & Hl & Hg); [intros sn Hs; apply H; by right|]. cbn [List.filter]. destruct (count s =? 0); cbn [negb].
    + exists l. done.
    + destruct (H s ltac:(left)) as [i Hi]. rewrite Hi. exists ((s, i) :: l). split; [reflexivity|]. split; [cbn; by rewrite Hl|].
      intros sn j Hj. apply elem_of_cons in Hj as [[= -> ->]|Hj]; [exact Hi|by apply Hg].
Qed.
(** One step of the charged movers followed by one of the neutral movers moves every species that has particles exactly
    once, by the mover of its kind, the charged ones first, in the order of the input. *)
Theorem C39_each_moved_once {A} fl prec cs sps (P : plasma A) t count d :
  new_plasma fl prec cs CppOther sps = Ok P -> NoDup (map sp_name sps) -> integrators P t = Ok d ->
  exists lc ln, movers_called count d (P_charged P) = Ok lc /\ movers_called count d (P_neutral P) = Ok ln /\
    (forall sn i, (sn, i) ∈ lc -> i = PyCharged) /\ (forall sn i, (sn, i) ∈ ln -> i = PyNeutral) /\
    map fst lc = map sp_name (List.filter (fun sp => negb (count (sp_name sp) =? 0) && negb (Reqb (sp_charge sp) 0)) sps) /\
    map fst ln = map sp_name (List.filter (fun sp => negb (count (sp_name sp) =? 0) && Reqb (sp_charge sp) 0) sps).
Proof.
  intros H Hnd Hi. destruct (new_result _ _ _ _ _ _ H) as (c & pos & -> & _).
  destruct (C39_movers _ _ _ _ _ _ t H Hnd) as [Hm _]. destruct (Hm eq_refl) as (d' & E & Hd). rewrite E in Hi. injection Hi as ->.
  destruct (new_result _ _ _ _ _ _ H) as (c' & pos' & [= <-] & _ & _ & _ & _ & ->). cbn [P_charged P_neutral].
  destruct (called_all count d (map sp_name (charged_of sps))) as (lc & Elc & Hlc & Hgc).
  { intros sn (sp & Hsp & <-)%in_names. apply charged_in in Hsp as [Hsp _]. rewrite (Hd sp Hsp). by eexists. }
  destruct (called_all count d (map sp_name (neutral_of sps))) as (ln & Eln & Hln & Hgn).
  { intros sn (sp & Hsp & <-)%in_names. apply neutral_in in Hsp as [Hsp _]. rewrite (Hd sp Hsp). by eexists. }
  exists lc, ln. split; [exact Elc|]. split; [exact Eln|]. split; [|split; [|split]].
  - intros sn i Hi. pose proof (Hgc _ _ Hi) as Hg. assert (Hin : sn ∈ map fst lc).
    { apply elem_of_list_In, in_map_iff. exists (sn, i). split; [reflexivity|by apply elem_of_list_In]. }
    rewrite Hlc in Hin. apply elem_of_list_In, filter_In in Hin as [Hin _]. apply elem_of_list_In, in_names in Hin as (sp & Hsp & <-).
    apply charged_in in Hsp as [Hsp Hq]. rewrite (Hd sp Hsp) in Hg. injection Hg as <-. by destruct (Req_EM_T (sp_charge sp) 0).
  - intros sn i Hi. pose proof (Hgn _ _ Hi) as Hg. assert (Hin : sn ∈ map fst ln).
    { apply elem_of_list_In, in_map_iff. exists (sn, i). split; [reflexivity|by apply elem_of_list_In]. }
    rewrite Hln in Hin. apply elem_of_list_In, filter_In in Hin as [Hin _]. apply elem_of_list_In, in_names in Hin as (sp & Hsp & <-).
    apply neutral_in in Hsp as [Hsp Hq]. rewrite (Hd sp Hsp) in Hg. injection Hg as <-. by destruct (Req_EM_T (sp_charge sp) 0).
  - rewrite Hlc. unfold charged_of. clear. induction sps as [|s sps IH]; [reflexivity|]. cbn [List.filter].
    destruct (Reqb (sp_charge s) 0); cbn [negb map List.filter]; [rewrite andb_false_r; exact IH|]. rewrite andb_true_r.
    destruct (negb (count (sp_name s) =? 0)); cbn [map]; [by f_equal|exact IH].
  - rewrite Hln. unfold neutral_of. clear. induction sps as [|s sps IH]; [reflexivity|]. cbn [List.filter].
    destruct (Reqb (sp_charge s) 0); cbn [negb map List.filter]; [|rewrite andb_false_r; exact IH]. rewrite andb_true_r.
    destruct (negb (count (sp_name s) =? 0)); cbn [map]; [by f_equal|exact IH].
Qed.

(** [ParticleSpecies_C] warns that the charge of a species with neutral dynamics will be ignored.  It is not: the species is
    charged, has its charge-to-mass ratio, and is moved by the mover of charged particles. *)
Theorem C39_warning_refuted {A} fl prec cs sps (P : plasma A) sp t :
  new_plasma fl prec cs CppOther sps = Ok P -> NoDup (map sp_name sps) -> sp ∈ sps -> charge_warning sp = true ->
  sp_dynamics sp = "neutral" /\ sp_name sp ∈ P_charged P /\ sp_name sp ∉ P_neutral P /\
  dict_get (P_charge P) (sp_name sp) = Some (sp_charge sp) /\ sp_charge sp <> 0%R /\
  dict_get (P_qom P) (sp_name sp) = Some (fl (sp_charge sp / sp_mass sp)%R) /\
  exists d, integrators P t = Ok d /\ dict_get d (sp_name sp) = Some PyCharged.
Proof.
  intros H Hnd Hsp Hw. unfold charge_warning in Hw. apply andb_prop in Hw as [Hdy Hq]. apply String.eqb_eq in Hdy.
  apply negb_true_iff, Reqb_false in Hq. split; [exact Hdy|].
  destruct (C39_partition _ _ _ _ _ _ H Hnd) as [Hp _]. destruct (proj1 (Hp sp Hsp) Hq) as [H1 H2]. split; [exact H1|]. split; [exact H2|].
  destruct (C39_tables _ _ _ _ _ _ H Hnd) as [Ht _]. destruct (Ht sp Hsp) as (_ & Hc & _ & Hqm & _). split; [exact Hc|]. split; [exact Hq|]. split; [exact Hqm|].
  destruct (new_result _ _ _ _ _ _ H) as (c & pos & -> & _). destruct (C39_movers _ _ _ _ _ _ t H Hnd) as [Hm _].
  destruct (Hm eq_refl) as (d & E & Hd). exists d. split; [exact E|]. rewrite (Hd sp Hsp). by destruct (Req_EM_T (sp_charge sp) 0).
Qed.

(** *** Examples *)
Definition electrons : species := Species "electrons" (-1) (1 / 2) "explicit".
Definition argon : species := Species "argon" 0 40 "neutral".
Definition ions : species := Species "ions" 1 40 "explicit".
Ltac no_mass := apply Reqb_false; cbn; lra.
Ltac kinds := repeat match goal with
  | |- context [Reqb ?x ?y] => first [replace (Reqb x y) with true by (symmetry; apply Reqb_true; cbn; lra)
                                     |replace (Reqb x y) with false by (symmetry; apply Reqb_false; cbn; lra)]
  end.
(** Electrons, argon and ions on a radial mesh, in that order. *)
Example C39_case :
  exists P : plasma unit, new_plasma (fun x => x) Float64 (Some "spherical_r") CppOther [electrons; argon; ions] = Ok P /\
    P_charged P = ["electrons"; "ions"] /\ P_neutral P = ["argon"] /\
    dict_get (P_index P) "ions" = Some 3 /\ dict_get (P_qom P) "electrons" = Some (-2)%R /\
    integrators P None = Ok [("electrons", PyCharged); ("ions", PyCharged); ("argon", PyNeutral)] /\
    match integrators (Plasma (P_coordinates P) CppTrue (P_position P) (P_dtype P) 3 (P_names P) (P_class P) (P_index P) (P_charge P) (P_mass P)
      (P_qom P) (P_dynamics P) (P_charged P) (P_neutral P) (P_storage P) (P_count P) 300) (Some 1) with Raise AttributeError => True | _ => False end.
Proof.
  eexists. split.
  - unfold new_plasma, position_coordinates. cbn [String.eqb Ascii.eqb Bool.eqb species_loop]. unfold species_turn. kinds.
    cbn [P_use_cpp P_charged P_neutral P_charge P_mass P_qom P_dynamics P_storage P_count P_coordinates P_position P_dtype P_number_of_species P_names P_class P_index P_h5_buffer_length].
    reflexivity.
  - cbn [P_charged P_neutral]. split; [reflexivity|]. split; [reflexivity|]. split; [reflexivity|]. split.
    + change (Some (-1 / (1 / 2))%R = Some (-2)%R). apply (f_equal Some). lra.
    + split; [reflexivity|]. exact I.
Qed.
(** Two species of the same name, one charged and one not: the name is in both lists, there is one container for both, the
    number is that of the second, and the mover is that of neutral particles, called twice in every step. *)
Theorem C39_same_name_refuted :
  exists P : plasma unit, new_plasma (fun x => x) Float64 (Some "cartesian_x") CppOther
      [Species "a" 1 1 "explicit"; Species "a" 0 1 "neutral"] = Ok P /\
    P_charged P = ["a"] /\ P_neutral P = ["a"] /\ P_number_of_species P = 2 /\ length (P_storage P) = 1%nat /\
    dict_get (P_index P) "a" = Some 2 /\
    exists d, integrators P None = Ok d /\ movers_called (fun _ => 1) d (P_charged P) = Ok [("a", PyNeutral)] /\
      movers_called (fun _ => 1) d (P_neutral P) = Ok [("a", PyNeutral)].
Proof.
  eexists. split.
  - unfold new_plasma, position_coordinates. cbn [String.eqb Ascii.eqb Bool.eqb species_loop]. unfold species_turn. kinds.
    cbn [P_use_cpp P_charged P_neutral P_charge P_mass P_qom P_dynamics P_storage P_count P_coordinates P_position P_dtype P_number_of_species P_names P_class P_index P_h5_buffer_length].
    reflexivity.
  - cbn [P_charged P_neutral]. split; [reflexivity|]. split; [reflexivity|]. split; [reflexivity|]. split; [reflexivity|]. split; [reflexivity|].
    eexists. split; [reflexivity|]. split; reflexivity.
Qed.

Print Assumptions C39_partition.
Print Assumptions C39_numbers.
Print Assumptions C39_tables.
Print Assumptions C39_fails.
Print Assumptions C39_movers.
Print Assumptions C39_each_moved_once.
Print Assumptions C39_warning_refuted.
Print Assumptions C39_same_name_refuted.
