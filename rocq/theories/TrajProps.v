(** C16 and C21: movers keep the identity of particles, and the trajectories follow them. *)
From Verif Require Import Vec VecProofs TrackModel BcModel Conforming TrackProofs TrackEval TrackGeomProofs.
From Verif Require Import SapModel MoverModel StorageProps TrajModel TrajProofs.

(** The two movers of one species, with boundary functions that change neither weight, unique_ID nor
    trajectory flag and do not touch the trajectories ([Civil]; the shipped ones are such, [ships_civil]). *)
Inductive MoverOf (fl : R -> R) (sn : string) : hooks particle (tctx (K:=option traj)) -> Prop :=
| mo_charged step time dt qom maxc m bcs dE negE Eext solved ext ao : Civil bcs ->
    MoverOf fl sn (charged_hooks fl sn step time dt qom maxc m bcs dE negE Eext solved ext ao)
| mo_neutral step time dt maxc m bcs : Civil bcs ->
    MoverOf fl sn (neutral_hooks fl sn step time dt maxc m bcs).

Lemma mover_identity fl sn hk c i p q c1 : MoverOf fl sn hk -> adv hk c i p = Ok (q, c1) -> same_identity p q.
Proof.
  intros [] E.
  - by eapply (charged_identity _ _ _ _ _ _ _ _ _ _ _ _ _ _ _ _ _ _ _ _ (fun _ => True)) in E as [? _].
  - by eapply (neutral_identity _ _ _ _ _ _ _ _ _ _ _ _ _ (fun _ => True)) in E as [? _].
Qed.

(** C16.  [fate] tells for each particle of the old list what became of it. *)
Theorem C16_movers_preserve_identity fl sn (L : Z) s xs hk c s' c' : (1 <= L)%Z ->
  Reachable L s -> Stores s xs -> MoverOf fl sn hk ->
  guarded_mover (py_ops particle) hk s c = Ok (s', c') ->
  exists fate, Stores s' (survivors fate) /\
    Forall2 (fun p r => match r with
      | Some q => pw q = pw p /\ puid q = puid p /\ is_traj q = is_traj p /\ is_deleted q = false
      | None => exists c0 i q c1, adv hk c0 i p = Ok (q, c1) /\ is_deleted q = true
      end) xs fate.
Proof.
  intros HL HR Hs Hm E. pose proof (C04_pass_is_sequential L s xs hk c HL HR Hs) as H.
  destruct (seq_pass hk 0 [] false c xs) as [[ys c1]|e] eqn:Ep; [|congruence].
  destruct H as (s1 & E1 & Hs1 & _). rewrite E in E1. injection E1 as <- <-.
  apply seq_pass_fate in Ep as (fate & -> & HF). exists fate. split; [done|].
  assert (Hd : deleted hk = is_deleted) by (by destruct Hm).
  eapply Forall2_impl; [exact HF|]. intros p r (c0 & i & q & c2 & Ea & ->). rewrite Hd.
  destruct (is_deleted q) eqn:Eq; [by exists c0, i, q, c2|].
  destruct (mover_identity _ _ _ _ _ _ _ _ Hm Ea) as (? & ? & ?). done.
Qed.

(** C21, one pass: every entry of the species follows its particle.  [reindex fate] maps an old index to
    the number of survivors before it, or to NO_PINDEX for a deleted particle. *)
Theorem C21_pass_reindexes fl sn (L : Z) s xs hk c s' c' T : (1 <= L)%Z ->
  Reachable L s -> Stores s xs -> MoverOf fl sn hk ->
  usr c = Some T -> Indexed xs (map e_index (t_sp T sn)) ->
  guarded_mover (py_ops particle) hk s c = Ok (s', c') ->
  exists fate T', Stores s' (survivors fate) /\ Reachable L s' /\
    Forall2 (fun p r => match r with
      | Some q => same_identity p q /\ is_deleted q = false | None => True end) xs fate /\
    usr c' = Some T' /\
    map e_index (t_sp T' sn) = map (reindex fate) (map e_index (t_sp T sn)) /\
    map e_uid (t_sp T' sn) = map e_uid (t_sp T sn) /\
    Indexed (survivors fate) (map e_index (t_sp T' sn)) /\
    (forall s, s <> sn -> t_sp T' s = t_sp T s).
Proof.
  intros HL HR Hs Hm HT HI E. pose proof (C04_pass_is_sequential L s xs hk c HL HR Hs) as H.
  destruct (seq_pass hk 0 [] false c xs) as [[ys c1]|e] eqn:Ep; [|congruence].
  destruct H as (s1 & E1 & Hs1 & HR1). rewrite E in E1. injection E1 as <- <-.
  set (idx0 := map e_index (t_sp T sn)) in *.
  assert (Hex : exists step time dt zE, deleted hk = is_deleted /\ on_keep hk = keep_particle sn /\
    on_drop hk = drop_particle fl sn step time dt zE).
  { destruct Hm; cbn; eauto 10. }
  destruct Hex as (step & time & dt & zE & Hd & Hk & Ho).
  destruct (pass_reindexes_gen hk sn fl step time dt zE Hd Hk Ho) with
    (xs := xs) (idx0 := idx0) (rest := xs) (f := @nil (option particle)) (ch := false) (c := c) (T := T) (ys := ys) (c' := c')
    as (g & T' & G1 & G2 & G3 & G4 & G5 & G6); try done.
  - intros c0 i p q c2 T0 Ea HT0.
    set (G := fun o : option traj => exists T1, o = Some T1 /\ frame sn T0 T1 /\
      map e_index (t_sp T1 sn) = map e_index (t_sp T0 sn)).
    assert (HG : forall step T T' p t E Ex, G T -> record_datum T sn p i step t E Ex true = Ok T' -> G T').
    { intros step0 T1 T2 p0 t0 E0 Ex0 (T3 & -> & F3 & I3) Hr. apply record_datum_frame in Hr as (T4 & -> & F4 & I4).
      exists T4. split; [done|]. split; [by eapply frame_trans|congruence]. }
    assert (G0 : G (usr c0)) by (exists T0; rewrite HT0; auto using frame_refl).
    destruct Hm.
    + by eapply (charged_identity _ _ _ _ _ _ _ _ _ _ _ _ _ _ _ _ _ _ _ _ G) in Ea; [|done|apply HG|done].
    + by eapply (neutral_identity _ _ _ _ _ _ _ _ _ _ _ _ _ G) in Ea; [|done|apply HG|done].
  - change (idx0 = map (cur_index (@nil (option particle))) idx0). symmetry. etransitivity; [|apply map_id].
    apply map_ext_in. intros z Hz. apply elem_of_list_In in Hz.
    unfold cur_index. cbn [length]. destruct (z <? Z.of_nat 0)%Z eqn:Ez; [|done].
    destruct (decide (z = NO_PINDEX)) as [->|Hn]; [done|]. destruct HI as (_ & Hl & _). destruct (Hl z Hz Hn). lia.
  - cbn [app] in *. exists g, T'. subst ys.
    assert (Hre : map e_index (t_sp T' sn) = map (reindex g) idx0).
    { rewrite G6. apply map_ext_in. intros z Hz. apply elem_of_list_In in Hz. unfold cur_index.
      destruct (z <? Z.of_nat (length g))%Z eqn:Ez; [done|]. destruct HI as (_ & Hl & _).
      destruct (decide (z = NO_PINDEX)) as [->|Hn]; [unfold NO_PINDEX in Ez; lia|].
      destruct (Hl z Hz Hn) as (Hz0 & p & Hp & _). apply lookup_lt_Some in Hp. lia. }
    destruct G5 as (_ & _ & F3 & F4).
    split; [done|]. split; [done|]. split; [done|]. split; [done|]. split; [done|]. split; [done|]. split; [|done].
    rewrite Hre. by apply (Indexed_reindex xs).
Qed.

(** C21, histories: the storage of one species and the trajectories, under creation of particles, mover
    passes and periodic sampling. *)
Definition tstate : Type := sap particle * tctx (K:=option traj).
Inductive tstep (fl : R -> R) (sn : string) : tstate -> tstate -> Prop :=
| ts_pass hk s c s' c' : MoverOf fl sn hk -> guarded_mover (py_ops particle) hk s c = Ok (s', c') ->
    tstep fl sn (s, c) (s', c')
| ts_add first step time E Ex p s c s' T' :
    add_particle first sn step time E Ex s (usr c) p = Ok (s', T') -> tstep fl sn (s, c) (s', TCtx (scr c) T')
| ts_sample ch ne get dE negE Eext step time s c T T' : usr c = Some T ->
    record_trajectory_data fl T ch ne get dE negE Eext step time = Ok T' ->
    tstep fl sn (s, c) (s, TCtx (scr c) (Some T')).

(** Every live entry gives the place of a stored particle with the identity for which it was made, and every
    stored flagged particle has its entry. *)
Record Follows (sn : string) (L : Z) (st : tstate) (T : traj) (xs : list particle) : Prop := {
  fo_reach : Reachable L (fst st);
  fo_stores : Stores (fst st) xs;
  fo_traj : usr (snd st) = Some T;
  fo_index : Indexed xs (map e_index (t_sp T sn));
  fo_uid : forall k e p, t_sp T sn !! k = Some e -> e_index e <> NO_PINDEX ->
    xs !! Z.to_nat (e_index e) = Some p -> puid p = e_uid e
}.

Lemma map_keys_lookup T T' sn k e' : map e_index (t_sp T' sn) = map e_index (t_sp T sn) ->
  map e_uid (t_sp T' sn) = map e_uid (t_sp T sn) -> t_sp T' sn !! k = Some e' ->
  exists e, t_sp T sn !! k = Some e /\ e_index e' = e_index e /\ e_uid e' = e_uid e.
Proof.
  intros H1 H2 Hk. pose proof (f_equal (fun l => l !! k) H1) as A. pose proof (f_equal (fun l => l !! k) H2) as B.
  cbn in A, B. rewrite !list_lookup_fmap, Hk in A, B. destruct (t_sp T sn !! k) as [e|]; [|done].
  cbn in A, B. injection A as A. injection B as B. by exists e.
Qed.

Theorem C21_trajectories_follow fl sn (L : Z) st st' T xs : (1 <= L)%Z ->
  Follows sn L st T xs -> tstep fl sn st st' ->
  exists T' xs', Follows sn L st' T' xs' /\
    (* entries keep their place and identity, and a dead one stays dead *)
    (forall k e, t_sp T sn !! k = Some e -> exists e', t_sp T' sn !! k = Some e' /\ e_uid e' = e_uid e /\
       (e_index e = NO_PINDEX -> e_index e' = NO_PINDEX) /\
       (* an entry dies only when its particle is gone *)
       (e_index e <> NO_PINDEX -> e_index e' = NO_PINDEX ->
          exists fate, xs' = survivors fate /\ length fate = length xs /\
            fate !! Z.to_nat (e_index e) = Some None)).
Proof.
  intros HL [HR HS HT HI HU] Hst. destruct Hst as [hk s c s' c' Hm E|first step time E0 Ex p s c s' T' E|ch ne get dE negE Eext step time s c T0 T' HT0 E]; cbn [fst snd] in *.
  - destruct (C21_pass_reindexes fl sn L s xs hk c s' c' T HL HR HS Hm HT HI E)
      as (fate & T' & H1 & H2 & H3 & H4 & H5 & H6 & H7 & H8).
    pose proof (Forall2_length _ _ _ H3) as Hlen.
    assert (Hl : forall k e', t_sp T' sn !! k = Some e' -> exists e, t_sp T sn !! k = Some e /\
      e_index e' = reindex fate (e_index e) /\ e_uid e' = e_uid e).
    { intros k e' Hk. pose proof (f_equal (fun l => l !! k) H5) as A. pose proof (f_equal (fun l => l !! k) H6) as B.
      cbn in A, B. rewrite map_map in A. rewrite !list_lookup_fmap, Hk in A, B.
      destruct (t_sp T sn !! k) as [e|]; [|done].
      cbn in A, B. injection A as A. injection B as B. by exists e. }
    exists T', (survivors fate). split; [split; try done|].
    + intros k e' q Hk Hne Hq. destruct (Hl k e' Hk) as (e & He & Hi & Hu). rewrite Hi in Hne, Hq. rewrite Hu.
      unfold reindex in Hne, Hq. destruct (e_index e <? 0)%Z eqn:Ez; [done|].
      destruct (fate !! Z.to_nat (e_index e)) as [[q0|]|] eqn:Ef; [|done..].
      rewrite Nat2Z.id in Hq. rewrite (survivors_rank _ _ _ Ef) in Hq. injection Hq as <-.
      destruct (Forall2_lookup_r _ _ _ _ _ H3 Ef) as (p & Hp & (_ & Hpu & _) & _).
      rewrite Hpu. apply (HU k e p He); [unfold NO_PINDEX; lia|done].
    + intros k e He. assert (Hk : (k < length (t_sp T' sn))%nat).
      { pose proof (f_equal length H6) as A. rewrite !map_length in A. rewrite A. by eapply lookup_lt_Some. }
      apply lookup_lt_is_Some in Hk as [e' Hk]. exists e'. split; [done|].
      destruct (Hl k e' Hk) as (e0 & He0 & Hi & Hu). rewrite He in He0. injection He0 as <-.
      split; [done|]. split; [intros Hd; rewrite Hi, Hd; done|].
      intros Hne Hd. exists fate. split; [done|]. split; [done|]. rewrite Hi in Hd.
      destruct HI as (_ & Hlive & _). destruct (Hlive (e_index e)) as (Hz & p & Hp & _); [|done|].
      { apply elem_of_list_fmap. exists e. split; [done|]. by eapply elem_of_list_lookup_2. }
      unfold reindex in Hd. replace (e_index e <? 0)%Z with false in Hd by lia.
      destruct (Forall2_lookup_l _ _ _ _ _ H3 Hp) as (r & Hr & _). rewrite Hr in Hd |- *.
      destruct r; [|done]. unfold NO_PINDEX in Hd. lia.
  - unfold add_particle in E. destruct (push_back s p) as [[s1 [sg full]]|] eqn:Ep; [|done].
    destruct (C06_push_or_assert L s xs p HL HR HS) as [(s2 & E2 & HS2)|[E2 _]]; [|congruence].
    rewrite Ep in E2. injection E2 as <- -> ->.
    assert (HR2 : Reachable L s1).
    { eapply (r_op L s (SapSpec.Push p)); [done|]. unfold SapRefine.py_step. by rewrite Ep. }
    assert (Hlt : forall i, i ∈ map e_index (t_sp T sn) -> i <> NO_PINDEX -> (0 <= i < Z.of_nat (length xs))%Z).
    { intros i Hi Hn. destruct HI as (_ & Hlive & _). destruct (Hlive i Hi Hn) as (? & q & Hq & _).
      apply lookup_lt_Some in Hq. lia. }
    destruct (is_traj p) eqn:Et.
    + rewrite HT in E.
      set (T1 := create_trajectory T sn (Z.of_nat (length xs)) (puid p)) in *.
      assert (HT2 : exists T2, T' = Some T2 /\ s' = s1 /\ frame sn T1 T2 /\ map e_index (t_sp T2 sn) = map e_index (t_sp T1 sn)).
      { destruct first.
        - destruct (current_out_item s1 _) as [[q|]|]; [|done..].
          destruct (record_datum _ _ _ _ _ _ _ _ _) as [T2|] eqn:Er; [|done]. injection E as <- <-.
          apply record_datum_frame in Er as (T3 & -> & F & I). eauto.
        - injection E as <- <-. exists T1. auto using frame_refl. }
      destruct HT2 as (T2 & -> & -> & (_ & _ & _ & Fu) & Fi).
      assert (Hes : t_sp T1 sn = t_sp T sn ++ [Entry (Z.of_nat (length xs)) (puid p) 0 (replicate (Z.to_nat (t_npoints T)) None)])
        by apply set_sp_same.
      exists T2, (xs ++ [p]). split; [split; try done|].
      * rewrite Fi, Hes, map_app. cbn. destruct HI as (Hnd & Hlive & Hflag). split; [|split].
        -- intros a b i Ha Hb Hi. apply lookup_app_Some in Ha, Hb.
           destruct Ha as [Ha|[Ha Ha']], Hb as [Hb|[Hb Hb']].
           ++ by eapply Hnd.
           ++ apply list_lookup_singleton_Some in Hb' as [Hb1 <-].
              apply elem_of_list_lookup_2 in Ha. apply Hlt in Ha; [lia|done].
           ++ apply list_lookup_singleton_Some in Ha' as [Ha1 <-].
              apply elem_of_list_lookup_2 in Hb. apply Hlt in Hb; [lia|done].
           ++ apply list_lookup_singleton_Some in Hb' as [Hb1 _]. apply list_lookup_singleton_Some in Ha' as [Ha1 _]. lia.
        -- intros i Hi Hn. apply elem_of_app in Hi as [Hi|Hi%elem_of_list_singleton].
           ++ destruct (Hlive i Hi Hn) as (? & q & Hq & ?). split; [done|]. exists q. split; [|done].
              by apply lookup_app_l_Some.
           ++ subst i. split; [lia|]. exists p. rewrite Nat2Z.id, list_lookup_middle by done. done.
        -- intros k q Hk Htq. apply elem_of_app. apply lookup_app_Some in Hk as [Hk|[Hk1 Hk2]]; [left; by eapply Hflag|].
           apply list_lookup_singleton_Some in Hk2 as [Hk2 <-]. right. apply elem_of_list_singleton. lia.
      * intros k e' q Hk Hne Hq. destruct (map_keys_lookup T1 T2 sn k e' Fi Fu Hk) as (e & He & Hi & Hu).
        rewrite Hi in Hne, Hq. rewrite Hu. rewrite Hes in He. apply lookup_app_Some in He as [He|[He1 He2]].
        -- assert (Hin : e_index e ∈ map e_index (t_sp T sn)).
           { apply elem_of_list_fmap. exists e. split; [done|]. by eapply elem_of_list_lookup_2. }
           pose proof (Hlt _ Hin Hne). rewrite lookup_app_l in Hq by lia. by eapply HU.
        -- apply list_lookup_singleton_Some in He2 as [_ <-]. cbn in Hq |- *.
           rewrite Nat2Z.id, list_lookup_middle in Hq by done. by injection Hq as <-.
      * intros k e He. assert (He1 : t_sp T1 sn !! k = Some e) by (rewrite Hes; by apply lookup_app_l_Some).
        assert (Hk : (k < length (t_sp T2 sn))%nat).
        { pose proof (f_equal length Fu) as A. rewrite !map_length in A. rewrite A. by eapply lookup_lt_Some. }
        apply lookup_lt_is_Some in Hk as [e' Hk]. destruct (map_keys_lookup T1 T2 sn k e' Fi Fu Hk) as (e0 & He0 & Hi & Hu).
        rewrite He1 in He0. injection He0 as <-. exists e'. split; [done|]. split; [done|]. split; congruence.
    + injection E as <- <-. exists T, (xs ++ [p]). split; [split; try done|].
      * destruct HI as (Hnd & Hlive & Hflag). split; [done|]. split.
        -- intros i Hi Hn. destruct (Hlive i Hi Hn) as (? & q & Hq & ?). split; [done|]. exists q. split; [|done].
           by apply lookup_app_l_Some.
        -- intros k q Hk Htq. apply lookup_app_Some in Hk as [Hk|[Hk1 Hk2]]; [by eapply Hflag|].
           apply list_lookup_singleton_Some in Hk2 as [_ <-]. congruence.
      * intros k e q Hk Hne Hq.
        assert (Hin : e_index e ∈ map e_index (t_sp T sn)).
        { apply elem_of_list_fmap. exists e. split; [done|]. by eapply elem_of_list_lookup_2. }
        pose proof (Hlt _ Hin Hne). rewrite lookup_app_l in Hq by lia. by eapply HU.
      * intros k e He. exists e. split; [done|]. split; [done|]. split; [done|]. congruence.
  - rewrite HT in HT0. injection HT0 as <-. apply record_data_keys in E. destruct (E sn) as [Ki Ku].
    exists T', xs. split; [split; try done|].
    + cbn. by rewrite Ki.
    + intros k e' q Hk Hne Hq. destruct (map_keys_lookup T T' sn k e' Ki Ku Hk) as (e & He & Hi & Hu).
      rewrite Hi in Hne, Hq. rewrite Hu. by eapply HU.
    + intros k e He. assert (Hk : (k < length (t_sp T' sn))%nat).
      { pose proof (f_equal length Ku) as A. rewrite !map_length in A. rewrite A. by eapply lookup_lt_Some. }
      apply lookup_lt_is_Some in Hk as [e' Hk]. destruct (map_keys_lookup T T' sn k e' Ki Ku Hk) as (e0 & He0 & Hi & Hu).
      rewrite He in He0. injection He0 as <-. exists e'. split; [done|]. split; [done|]. split; congruence.
Qed.

(** From an empty storage and no trajectories of the species, any run of creations, passes and samplings. *)
Inductive truns (fl : R -> R) (sn : string) : tstate -> tstate -> Prop :=
| tr_nil st : truns fl sn st st
| tr_step st st' st'' : truns fl sn st st' -> tstep fl sn st' st'' -> truns fl sn st st''.

Theorem C21_history fl sn (L : Z) c0 T0 st : (1 <= L)%Z ->
  usr c0 = Some T0 -> t_sp T0 sn = [] ->
  truns fl sn (sap_init L, c0) st ->
  exists T, usr (snd st) = Some T /\
    (* a live entry leads to its own particle *)
    (forall k e, t_sp T sn !! k = Some e -> e_index e <> NO_PINDEX ->
       exists p, get_item (fst st) (e_index e) = Ok (Some p) /\ puid p = e_uid e /\ is_traj p = true) /\
    (* two live entries lead to different places *)
    (forall j k e e', t_sp T sn !! j = Some e -> t_sp T sn !! k = Some e' ->
       e_index e <> NO_PINDEX -> e_index e = e_index e' -> j = k) /\
    (* every stored flagged particle has a live entry *)
    (forall i p, (0 <= i < get_number_of_items (fst st))%Z -> get_item (fst st) i = Ok (Some p) ->
       is_traj p = true -> exists k e, t_sp T sn !! k = Some e /\ e_index e = i /\ e_uid e = puid p).
Proof.
  intros HL HT0 H0 Hr. assert (HF : exists T xs, Follows sn L st T xs).
  { remember (sap_init L, c0) as st0 eqn:Es. induction Hr as [|st st' st'' Hr IH Hs].
    - subst st. exists T0, []. split; cbn; [constructor| |done| |by rewrite H0].
      + by destruct (C01_push_keeps_place L (@nil particle) HL) as (s & [= <-] & Hst).
      + rewrite H0. split; [by intros a b i|]. split; [|done]. cbn. by intros i ?%elem_of_nil.
    - destruct (IH Es) as (T & xs & HF). destruct (C21_trajectories_follow _ _ _ _ _ _ _ HL HF Hs) as (T' & xs' & HF' & _). eauto. }
  destruct HF as (T & xs & [HR [Hn Hg] HT (Hnd & Hlive & Hflag) HU]). exists T. split; [done|]. split; [|split].
  - intros k e Hk He. destruct (Hlive (e_index e)) as (Hz & p & Hp & Ht); [|done|].
    { apply elem_of_list_fmap. exists e. split; [done|]. by eapply elem_of_list_lookup_2. }
    exists p. split; [|by eauto]. specialize (Hg _ _ Hp). by rewrite Z2Nat.id in Hg by done.
  - intros j k e e' Hj Hk He Hee. eapply (Hnd j k (e_index e)); [..|done].
    + rewrite list_lookup_fmap, Hj. done.
    + rewrite list_lookup_fmap, Hk, Hee. done.
  - intros i p Hi Hp Ht. rewrite Hn in Hi.
    destruct (xs !! Z.to_nat i) as [p'|] eqn:Ex; [|apply lookup_ge_None in Ex; lia].
    pose proof (Hg _ _ Ex) as Hp'. rewrite Z2Nat.id in Hp' by lia. rewrite Hp in Hp'. injection Hp' as <-.
    pose proof (Hflag _ _ Ex Ht) as Hin. rewrite Z2Nat.id in Hin by lia.
    apply elem_of_list_fmap in Hin as (e & -> & He). apply elem_of_list_lookup in He as [k Hk].
    exists k, e. split; [done|]. split; [done|]. symmetry. apply (HU k e p Hk); [unfold NO_PINDEX; lia|done].
Qed.

(** Example: three flagged neutrals on the line mesh, in segments of two; the middle one leaves at the right
    end.  The first keeps its index, the entry of the second is closed with one point, the third moves
    from index 2 to index 1. *)
Definition tp (x u : R) (c uid : Z) : particle := Particle [x] [0] [u] 1 2 c uid 0.
Definition tp3 : list particle := [tp (1/4) (1/4) 0 10; tp 2 2 1 11; tp (3/2) (1/2) 1 12].
Definition tT : traj := Traj 5 None (fun s => if String.eqb s "H" then
  [Entry 0 10 0 (replicate 5 None); Entry 1 11 0 (replicate 5 None); Entry 2 12 0 (replicate 5 None)] else []).
Definition thk : hooks particle (tctx (K:=option traj)) := neutral_hooks exact "H" 7 3 1 10 line_mesh line_bcs.
Lemma line_civil : Civil (line_bcs (K:=option traj)).
Proof.
  apply (ships_civil exact). intros v b. unfold line_bcs. destruct (v =? 1)%Z; [|destruct (v =? 2)%Z; [|done]]; intros [= <-]; auto.
Qed.
Lemma thk_first c : adv thk c 0 (tp (1/4) (1/4) 0 10) = Ok (Particle [1/2] [1/4] [1/4] 1 2 0 10 0, c).
Proof.
  unfold thk, neutral_hooks, advance_neutral, tp, free_move. cbn [adv]. rewrite track_eq. change (track_fuel 10) with 12%nat.
  erewrite (loop_leave _ _ _ _ _ _ _ _ _ (Particle [1/2] [1/4] [1/4] 1 2 0 10 0) 0 c) by ieval. done.
Qed.
(** The crossing of the second particle: the point recorded at the wall. *)
Definition tp_wall : particle := Particle [4] [3] [2] 1 2 1 11 0.
Definition tT1 : traj := set_sp tT "H"
  [Entry 0 10 0 (replicate 5 None); Entry 1 11 1 (Some (Datum 7 (5/2) [3] tp_wall [] []) :: replicate 4 None);
   Entry 2 12 0 (replicate 5 None)].
Lemma thk_second : adv thk (TCtx [0] (Some tT)) 1 (tp 2 2 1 11) =
  Ok (Particle [4] [3] [2] 1 3 (-1) 11 1, TCtx [0] (Some tT1)).
Proof.
  unfold thk, neutral_hooks, advance_neutral, tp, free_move. cbn [adv]. rewrite track_eq. change (track_fuel 10) with 12%nat.
  erewrite (loop_leave _ _ _ _ _ _ _ _ _ (Particle [4] [3] [2] 1 3 (-1) 11 0) 1 (TCtx [0] (Some tT1))).
  2: { unfold iter; cbn [l_ci l_ml l_cnt l_t l_dt l_p l_c]; reval.
    unfold rec_crossing_neutral, record_datum, write_point, tT1, tp_wall. cbn. zdec. cbn. reval.
    change (0 + 1)%Z with 1%Z. change (Z.lor 2 DELETE_FLAG) with 3%Z. unfold py_set, py_pos. cbn. zdec. cbn. rsolve. }
  done.
Qed.
Lemma thk_third c : adv thk c 2 (tp (3/2) (1/2) 1 12) = Ok (Particle [2] [3/2] [1/2] 1 2 1 12 0, c).
Proof.
  unfold thk, neutral_hooks, advance_neutral, tp, free_move. cbn [adv]. rewrite track_eq. change (track_fuel 10) with 12%nat.
  erewrite (loop_leave _ _ _ _ _ _ _ _ _ (Particle [2] [3/2] [1/2] 1 2 1 12 0) 0 c) by ieval. done.
Qed.
Lemma push_all_reach {A} L (xs : list A) : forall s s' rs, Reachable L s -> push_all s xs = Ok (s', rs) -> Reachable L s'.
Proof.
  induction xs as [|x xs IH]; intros s s' rs HR E; cbn [push_all] in E; [by injection E as <- <-|].
  destruct (push_back s x) as [[s1 [a b]]|] eqn:Ep; [|done].
  destruct (push_all s1 xs) as [[s2 r2]|] eqn:Eq; [|done]. injection E as <- <-. apply (IH s1 s2 r2); [|exact Eq].
  eapply (r_op L s (SapSpec.Push x)); [done|]. unfold SapRefine.py_step. by rewrite Ep.
Qed.
Lemma seq_keep {A C} (hk : hooks A C) i kept ch c p xs q c1 c2 :
  adv hk c i p = Ok (q, c1) -> deleted hk q = false ->
  on_keep hk c1 ch i (Z.of_nat (length kept)) q = Ok c2 ->
  seq_pass hk i kept ch c (p :: xs) = seq_pass hk (i + 1) (kept ++ [q]) ch c2 xs.
Proof. intros E1 E2 E3. cbn [seq_pass]. by rewrite E1, E2, E3. Qed.
Lemma seq_drop {A C} (hk : hooks A C) i kept ch c p xs q c1 c2 :
  adv hk c i p = Ok (q, c1) -> deleted hk q = true -> on_drop hk c1 i p q = Ok c2 ->
  seq_pass hk i kept ch c (p :: xs) = seq_pass hk (i + 1) kept true c2 xs.
Proof. intros E1 E2 E3. cbn [seq_pass]. by rewrite E1, E2, E3. Qed.
Definition tT2 : traj := set_sp tT1 "H"
  [Entry 0 10 0 (replicate 5 None);
   Entry (-1) 11 2 (Some (Datum 7 (5/2) [3] tp_wall [] [])
     :: Some (Datum 7 3 [4] (Particle [4] [3] [2] 1 3 (-1) 11 1) [] []) :: replicate 3 None);
   Entry 2 12 0 (replicate 5 None)].
Definition tT3 : traj := set_sp tT2 "H"
  [Entry 0 10 0 (replicate 5 None);
   Entry (-1) 11 2 (Some (Datum 7 (5/2) [3] tp_wall [] [])
     :: Some (Datum 7 3 [4] (Particle [4] [3] [2] 1 3 (-1) 11 1) [] []) :: replicate 3 None);
   Entry 1 12 0 (replicate 5 None)].
Example C21_example : exists s s' T',
  push_all (sap_init 2) tp3 = Ok (s, [(0, 0); (1, 1); (0, 2)])%Z /\
  guarded_mover (py_ops particle) thk s (TCtx [0] (Some tT)) = Ok (s', TCtx [0] (Some T')) /\
  Stores s' [Particle [1/2] [1/4] [1/4] 1 2 0 10 0; Particle [2] [3/2] [1/2] 1 2 1 12 0] /\
  map e_index (t_sp T' "H") = [0; -1; 1]%Z /\ map e_uid (t_sp T' "H") = [10; 11; 12]%Z /\
  map e_len (t_sp T' "H") = [0; 2; 0]%Z /\ T' = tT3.
Proof.
  destruct (C01_push_keeps_place 2 tp3) as (s & Ep & Hs); [lia|].
  assert (HR : Reachable 2 s) by exact (push_all_reach 2 tp3 _ _ _ (r_new 2) Ep).
  pose proof (C04_pass_is_sequential 2 s tp3 thk (TCtx [0] (Some tT)) ltac:(lia) HR Hs) as H.
  revert H. unfold tp3.
  rewrite (seq_keep _ _ _ _ _ _ _ _ _ (TCtx [0] (Some tT)) (thk_first _)); [|done|reflexivity]. change (0 + 1)%Z with 1%Z.
  rewrite (seq_drop _ _ _ _ _ _ _ _ _ (TCtx [0] (Some tT2)) thk_second); [|done|reflexivity]. change (1 + 1)%Z with 2%Z.
  rewrite (seq_keep _ _ _ _ _ _ _ _ _ (TCtx [0] (Some tT3)) (thk_third _)); [|done|reflexivity].
  cbn [seq_pass app]. intros (s' & E & Hst & _). eexists s, s', _. split; [done|]. split; [exact E|]. split; [exact Hst|].
  unfold tT3. rewrite set_sp_same. split; [reflexivity|]. split; [reflexivity|]. split; reflexivity.
Qed.
(** The same run for C16: weights, unique_IDs and flags of the two survivors are those before the pass. *)
Example C16_example : exists s s' c', Stores s tp3 /\
  guarded_mover (py_ops particle) thk s (TCtx [0] (Some tT)) = Ok (s', c') /\
  exists ys, Stores s' ys /\ map pw ys = [1; 1] /\ map puid ys = [10; 12]%Z /\
    map is_traj ys = [true; true] /\ map is_deleted ys = [false; false].
Proof.
  destruct C21_example as (s & s' & T' & Ep & E & Hs' & _).
  destruct (C01_push_keeps_place 2 tp3) as (s0 & Ep0 & Hs); [lia|].
  assert (s0 = s) as -> by (rewrite Ep in Ep0; congruence).
  exists s, s', (TCtx [0] (Some T')). split; [exact Hs|]. split; [exact E|]. eexists. split; [exact Hs'|].
  split; [reflexivity|]. split; [reflexivity|]. split; reflexivity.
Qed.

Print Assumptions C16_movers_preserve_identity.
Print Assumptions C21_pass_reindexes.
Print Assumptions C21_trajectories_follow.
Print Assumptions C21_history.
