(** C54: the trajectory files of a whole program. *)
From stdpp Require Import strings pretty relations.
From Verif Require Import SapModel MoverModel SapProofs SapSpec SapRefine StorageProps Vec TrackModel TrajModel TrajProofs TrajProps TrajRecProps.
From Verif Require Import DiagModel SourceModel RunModel RunProps MainProps RunTotalProps MainTotalProps HarmlessProps PointRunProps TrajFileModel TrajFileProps.
From Coq Require Import Sorting.Sorted ZifyBool ZifyNat.

(** ** Which trajectories there are *)

(** Some trajectories were added while the counter went from [a] to [b]: none, or one for the number 500. *)
Definition Fed (a b : Z) (f g : string -> list Z) : Prop :=
  (a <= b)%Z /\ ((forall s, g s = f s) \/ ((a <= 500 < b)%Z /\ exists s0, forall s, g s = f s ++ if String.eqb s s0 then [500%Z] else [])).
Lemma fed_same a b f g : (a <= b)%Z -> (forall s, g s = f s) -> Fed a b f g.
Proof. intros H1 H2. split; [exact H1|by left]. Qed.
Lemma fed_trans a b c f g h : Fed a b f g -> Fed b c g h -> Fed a c f h.
Proof.
  intros [H1 H2] [H3 H4]. split; [lia|]. destruct H2 as [H2|[H2 (s0 & H5)]], H4 as [H4|[H4 (s1 & H6)]].
  - left. intros s. by rewrite H4.
  - right. split; [lia|]. exists s1. intros s. by rewrite H6, H2.
  - right. split; [lia|]. exists s0. intros s. by rewrite H4.
  - lia.
Qed.

Section Ids.
Context (fl st32 : R -> R) (u : setup) (HL : (1 <= u_L u)%Z) (Hsp : NoDup (u_charged u ++ u_neutral u)).
Context (HC : forall sn, Civil (u_bcs u sn)).

Definition ids (T : traj) (sn : string) : list Z := map e_uid (t_sp T sn).

Lemma advance_ids step time negE sns : forall saps c saps' c' T xs, usr c = Some T ->
  Traced u saps T xs -> advance_species fl u step time negE sns saps c = Ok (saps', c') ->
  exists T', usr c' = Some T' /\ forall s, ids T' s = ids T s.
Proof using HL HC.
  induction sns as [|sn sns IH]; intros saps c saps' c' T xs HT HF E; cbn [advance_species] in E.
  - injection E as <- <-. by exists T.
  - destruct (guarded_mover _ _ _ _) as [[s1 c1]|] eqn:E1; [|discriminate].
    assert (Hm := mo_charged fl sn step time (u_dt u) (u_qom u sn) (u_maxc u) (u_mesh u) (u_bcs u sn) (u_dE u) (Some negE) (u_Eext u step) (u_solved u sn) (u_ext u sn) false (HC sn)).
    destruct (HF sn) as [H1 H2 _ H4 H5]. cbn [fst] in H1, H2.
    destruct (C21_pass_reindexes _ _ _ _ _ _ _ _ _ _ HL H1 H2 Hm HT H4 E1) as (ft & T1 & _ & _ & _ & A4 & _ & A6 & _ & A8).
    destruct (C21_trajectories_follow fl sn (u_L u) (saps sn, c) (s1, c1) T (xs sn) HL) as (T2 & xs2 & HF2 & _); [by split|by eapply ts_pass|].
    assert (T2 = T1) as ->. { pose proof (fo_traj _ _ _ _ _ HF2) as H6. cbn [snd] in H6. congruence. }
    destruct (IH (set_key saps sn s1) c1 saps' c' T1 (fun s => if String.eqb s sn then xs2 else xs s) A4) as (T' & B1 & B2); [|exact E|].
    + intros s. unfold set_key. destruct (String.eqb_spec s sn) as [->|Hne].
      * eapply follows_same; [reflexivity|reflexivity|exact HF2].
      * eapply follows_same; [by apply A8|reflexivity|apply HF].
    + exists T'. split; [exact B1|]. intros s. rewrite B2. unfold ids. destruct (String.eqb_spec s sn) as [->|Hne]; [exact A6|by rewrite (A8 s Hne)].
Qed.
Lemma quiet_ids st st' : Quiet fl u st st' -> forall T, ss_traj st = Some T ->
  ss_uid st' = ss_uid st /\ exists T', ss_traj st' = Some T' /\ forall s, ids T' s = ids T s.
Proof using.
  clear. induction 1 as [st|st saps st' Hl Hq IH|step time negE st st1 st' E Hq IH]; intros T HT.
  - split; [done|]. by exists T.
  - exact (IH T HT).
  - unfold record_trajectories in E. rewrite HT in E.
    destruct (record_trajectory_data _ _ _ _ _ _ _ _ _ _) as [T1|] eqn:Er; [|discriminate]. injection E as <-.
    pose proof (record_data_keys _ _ _ _ _ _ _ _ _ _ _ Er) as Hk. destruct (IH T1 eq_refl) as (A1 & T' & A2 & A3). split; [exact A1|].
    exists T'. split; [exact A2|]. intros s. rewrite A3. destruct (Hk s) as [_ Ku]. exact Ku.
Qed.
Lemma add_ids first sn step time E Ex s T p s1 T1 : add_particle first sn step time E Ex s (Some T) p = Ok (s1, T1) ->
  exists T', T1 = Some T' /\ forall t, ids T' t = ids T t ++ if String.eqb t sn && is_traj p then [puid p] else [].
Proof using.
  clear. unfold add_particle. destruct (push_back s p) as [[s2 [sg full]]|]; [|discriminate].
  destruct (is_traj p); [|intros [= <- <-]; exists T; split; [reflexivity|]; intros t; by rewrite andb_false_r, app_nil_r].
  set (T2 := create_trajectory T sn full (puid p)).
  assert (H2 : forall t, ids T2 t = ids T t ++ if String.eqb t sn && true then [puid p] else []).
  { intros t. rewrite andb_true_r. unfold ids, T2, create_trajectory. destruct (String.eqb_spec t sn) as [->|Hne]; [by rewrite set_sp_same, map_app|].
    by rewrite set_sp_other, app_nil_r. }
  destruct first; [|intros [= <- <-]; by exists T2].
  destruct (current_out_item _ _) as [[q|]|]; [|discriminate..]. destruct (record_datum _ _ _ _ _ _ _ _ _) as [T3|] eqn:Er; [|discriminate]. intros [= <- <-].
  pose proof (record_datum_frame _ _ _ _ _ _ _ _ _ _ Er) as (T4 & -> & (_ & _ & F3 & F4) & _). exists T4. split; [reflexivity|].
  intros t. rewrite <- H2. unfold ids. destruct (String.eqb_spec t sn) as [->|Hne]; [exact F4|by rewrite F3].
Qed.

(** The initial particles: a trajectory for every flagged particle of the lists. *)
Lemma list_ids sn ps : forall st st' T, ss_traj st = Some T -> create_from_list sn ps st = Ok st' ->
  ss_uid st' = ss_uid st /\ exists T', ss_traj st' = Some T' /\
    forall t, ids T' t = ids T t ++ map puid (List.filter is_traj (if String.eqb sn t then ps else [])).
Proof using.
  clear. induction ps as [|p ps IH]; intros st st' T HT E; cbn [create_from_list] in E.
  - injection E as <-. split; [done|]. exists T. split; [done|]. intros t. destruct (String.eqb sn t); by rewrite app_nil_r.
  - rewrite HT in E. destruct (add_particle _ _ _ _ _ _ _ _ _) as [[s1 T1]|] eqn:Ea; [|discriminate].
    destruct (add_ids _ _ _ _ _ _ _ _ _ _ _ Ea) as (T2 & -> & A). destruct (fun H => IH _ _ T2 H E) as (B1 & T' & B2 & B3); [reflexivity|].
    split; [exact B1|]. exists T'. split; [exact B2|]. intros t. rewrite B3, A. rewrite (String.eqb_sym t sn). rewrite <- app_assoc. f_equal.
    destruct (String.eqb sn t); [|done]. cbn [andb List.filter]. by destruct (is_traj p).
Qed.
Lemma initial_ids l : forall st st' T, ss_traj st = Some T ->
  initialize_particles fl (u_names u) (u_spherical u) (u_pdim u) (u_pi4 u) (u_rnd u) (u_fuel u) (u_dE u) ANone l st = Ok st' ->
  ss_uid st' = ss_uid st /\ exists T', ss_traj st' = Some T' /\ forall t, ids T' t = ids T t ++ map puid (List.filter is_traj (initial_of (Some l) t)).
Proof using.
  clear. induction l as [|[sn ps|q r|] l IH]; intros st st' T HT E; cbn [initialize_particles] in E; [|..|discriminate E|discriminate E].
  - injection E as <-. split; [done|]. exists T. split; [done|]. intros t. by rewrite app_nil_r.
  - destruct (negb _); [discriminate|]. destruct (create_from_list sn ps st) as [st1|] eqn:E1; [|discriminate].
    destruct (list_ids _ _ _ _ _ HT E1) as (A1 & T1 & A2 & A3). destruct (IH _ _ _ A2 E) as (B1 & T' & B2 & B3). split; [congruence|].
    exists T'. split; [exact B2|]. intros t. rewrite B3, A3, <- app_assoc. f_equal.
    change (initial_of (Some (Listed sn ps :: l)) t) with ((if String.eqb sn t then ps else []) ++ initial_of (Some l) t).
    by rewrite List.filter_app, map_app.
Qed.

Lemma source_ids step time negE dom q st st' T : ss_traj st = Some T ->
  create_maxwellian fl (u_names u) (u_spherical u) (u_pdim u) (u_pi4 u) (u_rnd u) (u_fuel u) (u_dE u) (Some negE) None step time dom q st = Ok st' ->
  exists T', ss_traj st' = Some T' /\ Fed (ss_uid st) (ss_uid st') (ids T) (ids T').
Proof using.
  clear. unfold create_maxwellian. destruct (negb _); [discriminate|]. destruct (weight_mult _ _ _ _) as [mult|]; [|discriminate].
  generalize (Z.to_nat (s_percell q)) as m. intros m.
  assert (H1 : forall c ips st st' T, ss_traj st = Some T -> new_particles fl (u_pdim u) (u_rnd u) (u_fuel u) (u_dE u) (Some negE) None (s_species q) step time (r_gdim dom) (s_drift q)
    c (fl (c_vol c * mult)) ips st = Ok st' -> exists T', ss_traj st' = Some T' /\ Fed (ss_uid st) (ss_uid st') (ids T) (ids T')).
  { intros c ips. induction ips as [|ip ips IH]; intros s0 s1 T0 HT0 E; cbn [new_particles] in E; [injection E as <-; exists T0; split; [done|]; by apply fed_same|].
    destruct (new_particle _ _ _ _ _ _ _ _ _ _ _ _ _ _ _ _) as [s2|] eqn:E2; [|discriminate].
    assert (H2 : exists T2, ss_traj s2 = Some T2 /\ Fed (ss_uid s0) (ss_uid s2) (ids T0) (ids T2)).
    { unfold new_particle in E2. destruct (match ip with O => _ | S _ => _ end) as [[x k]|]; [|discriminate].
      destruct (negb _); [discriminate|]. rewrite HT0 in E2. destruct (add_particle _ _ _ _ _ _ _ _ _) as [[s3 T3]|] eqn:Ea; [|discriminate]. injection E2 as <-.
      destruct (add_ids _ _ _ _ _ _ _ _ _ _ _ Ea) as (T2 & -> & A). exists T2. split; [done|]. cbn [ss_uid]. split; [lia|].
      destruct (ss_uid s0 =? 500)%Z eqn:E5.
      - right. split; [lia|]. exists (s_species q). intros s. rewrite A. unfold is_traj. cbn [pbits puid]. replace (ss_uid s0) with 500%Z by lia.
        change (int32 500) with 500%Z. by destruct (String.eqb s (s_species q)).
      - left. intros s. rewrite A. unfold is_traj. cbn [pbits]. replace (_ && _) with false; [by rewrite app_nil_r|]. by destruct (String.eqb s (s_species q)). }
    destruct H2 as (T2 & A1 & A2). destruct (IH _ _ _ A1 E) as (T' & B1 & B2). exists T'. split; [exact B1|]. by eapply fed_trans. }
  revert st T. induction (r_cells dom) as [|c cs IH]; intros st T HT E; cbn [new_cells] in E; [injection E as <-; exists T; split; [done|]; by apply fed_same|].
  destruct (new_particles _ _ _ _ _ _ _ _ _ _ _ _ _ _ _ _) as [s1|] eqn:E1; [|discriminate]. destruct (H1 _ _ _ _ _ HT E1) as (T1 & A1 & A2).
  destruct (IH _ _ A1 E) as (T' & B1 & B2). exists T'. split; [exact B1|]. by eapply fed_trans.
Qed.
Lemma sources_ids step time negE st st' T : ss_traj st = Some T -> add_from_sources fl u step time negE st = Ok st' ->
  exists T', ss_traj st' = Some T' /\ Fed (ss_uid st) (ss_uid st') (ids T) (ids T').
Proof using.
  clear. unfold add_from_sources. destruct (u_sources u) as [l|]; [|intros HT [= <-]; exists T; split; [done|]; by apply fed_same].
  revert st T. induction l as [|[dom q] l IH]; intros st T HT E; cbn [source_list map add_more_particles fst snd] in E; [injection E as <-; exists T; split; [done|]; by apply fed_same|].
  destruct (s_interval q =? 0)%Z; [discriminate|]. fold (source_list fl u negE l) in E. destruct (step mod s_interval q =? 0)%Z; [|by apply (IH st T)].
  destruct (create_maxwellian _ _ _ _ _ _ _ _ _ _ _ _ _ _ _) as [st1|] eqn:E1; [|discriminate]. destruct (source_ids _ _ _ _ _ _ _ _ HT E1) as (T1 & A1 & A2).
  destruct (IH _ _ A1 E) as (T' & B1 & B2). exists T'. split; [exact B1|]. by eapply fed_trans.
Qed.

(** The trajectories at the end of a program: one for every flagged particle of the lists, in their order, and at most one more, for the
    particle with the ID 500, if a source gave this ID. *)
Theorem C54_which file ini n w w' T0 : (forall sn, ss_saps (rs_src w) sn = sap_init (u_L u)) ->
  ss_traj (rs_src w) = Some T0 -> (forall sn, t_sp T0 sn = []) -> (0 <= t_npoints T0)%Z ->
  main_run fl st32 u file ini n w = Ok w' ->
  exists T, ss_traj (rs_src w') = Some T /\
    ((forall sn, map e_uid (t_sp T sn) = map puid (List.filter is_traj (initial_of ini sn))) \/
     ((ss_uid (rs_src w) <= 500 < ss_uid (rs_src w'))%Z /\ exists s0, forall sn,
        map e_uid (t_sp T sn) = map puid (List.filter is_traj (initial_of ini sn)) ++ if String.eqb sn s0 then [500%Z] else [])).
Proof using HL Hsp HC.
  intros H0 HT0 HE0 Hnp E. unfold main_run in E. destruct (initialization _ _ _ _ _ _) as [w1|] eqn:E1; [|discriminate].
  destruct (time_loop _ _ _ _ _) as [w2|] eqn:E2; [|discriminate].
  assert (Hstart : Traced u (ss_saps (rs_src w)) T0 (fun _ => [])).
  { intros sn. rewrite H0. split; cbn; [constructor| |done| |by rewrite HE0].
    - by destruct (C01_push_keeps_place (u_L u) (@nil particle) HL) as (s & [= <-] & Hst0).
    - rewrite HE0. split; [by intros a b i|]. split; [|done]. cbn. by intros i ?%elem_of_nil. }
  set (lst := fun sn => map puid (List.filter is_traj (initial_of ini sn))).
  assert (HI : ss_uid (rs_src w1) = ss_uid (rs_src w) /\ exists T1 xs1, ss_traj (rs_src w1) = Some T1 /\ Traced u (ss_saps (rs_src w1)) T1 xs1 /\ forall s, ids T1 s = lst s).
  { destruct (init_phases _ _ _ _ _ _ _ E1) as (st1 & st2 & st3 & F1 & F2 & F3 & F4 & _).
    assert (HQ : Quiet fl u st1 (rs_src w1)).
    { eapply quiet_trans; [|eapply quiet_trans; [exact F3|by eapply history_quiet]].
      destruct ini; [destruct file; [by eapply write_quiet|]|]; destruct F2 as [-> _]; constructor. }
    assert (HA : Added (rs_src w) st1) by (destruct ini; [by eapply initial_added|rewrite F1; constructor]).
    destruct (added_traced fl u HL _ _ HA T0 _ HT0 Hstart) as (T1 & xs1 & A1 & A2 & _).
    assert (HJ : ss_uid st1 = ss_uid (rs_src w) /\ forall s, ids T1 s = lst s).
    { unfold lst. destruct ini as [l|].
      - destruct (initial_ids _ _ _ _ HT0 F1) as (B1 & T2 & B2 & B3). split; [exact B1|]. assert (T2 = T1) as -> by congruence. intros s. rewrite B3. unfold ids. by rewrite HE0.
      - subst st1. split; [done|]. assert (T1 = T0) as -> by congruence. intros s. unfold ids. by rewrite HE0. }
    destruct HJ as [B1 B2]. destruct (quiet_ids _ _ HQ T1 A1) as (C1 & T2 & C2 & C3). destruct (quiet_traced fl u HL Hsp _ _ HQ T1 xs1 A1 A2) as (T3 & D1 & D2 & _).
    assert (T3 = T2) as -> by congruence. split; [congruence|]. exists T2, xs1. split; [exact C2|]. split; [exact D2|]. intros s. by rewrite C3. }
  destruct HI as (U1 & T1 & xs1 & I1 & I2 & I3).
  assert (HLoop : forall n w1 w2 T1 xs1, ss_traj (rs_src w1) = Some T1 -> Traced u (ss_saps (rs_src w1)) T1 xs1 -> time_loop fl st32 u n w1 = Ok w2 ->
     exists T2 xs2, ss_traj (rs_src w2) = Some T2 /\ Traced u (ss_saps (rs_src w2)) T2 xs2 /\ Fed (ss_uid (rs_src w1)) (ss_uid (rs_src w2)) (ids T1) (ids T2)).
  { clear - HL Hsp HC. induction n as [|n IH]; intros w1 w2 T1 xs1 I1 I2 E; cbn [time_loop] in E.
    - injection E as <-. exists T1, xs1. split; [exact I1|]. split; [exact I2|]. by apply fed_same.
    - destruct (time_step fl st32 u w1) as [w3|] eqn:E1; [|discriminate].
      destruct (step_phases _ _ _ _ _ E1) as (saps1 & c1 & st2 & st3 & st4 & st5 & A1 & A2 & A3 & A4 & A5 & A6 & _).
      destruct (advance_traced fl u HL _ _ _ _ HC _ (TCtx (rs_scr w1) (ss_traj (rs_src w1))) _ _ T1 xs1 I1 I2 A1) as (T2 & xs2 & B1 & B2 & _).
      destruct (advance_ids _ _ _ _ _ (TCtx (rs_scr w1) (ss_traj (rs_src w1))) _ _ T1 xs1 I1 I2 A1) as (T2' & B3 & B4). assert (T2' = T2) as -> by congruence.
      destruct (quiet_traced fl u HL Hsp _ _ A2 T2 xs2 B1 B2) as (T3 & C1 & C2 & _). destruct (quiet_ids _ _ A2 T2 B1) as (C3 & T3' & C4 & C5).
      assert (T3' = T3) as -> by congruence. cbn [ss_uid] in C3.
      destruct (added_traced fl u HL _ _ (sources_added _ _ _ _ _ _ _ A3) T3 xs2 C1 C2) as (T4 & xs4 & D1 & D2 & _).
      destruct (sources_ids _ _ _ _ _ _ C1 A3) as (T4' & D3 & D4). assert (T4' = T4) as -> by congruence.
      assert (HQ : Quiet fl u st3 (rs_src w3)).
      { eapply quiet_trans; [|eapply quiet_trans; [exact A5|]].
        - destruct (out_due _); [by eapply write_quiet|destruct A4 as [-> _]; constructor].
        - destruct (rs_hist w1); [|destruct A6 as [-> _]; constructor]. destruct (hist_due _); [by eapply history_quiet|destruct A6 as [-> _]; constructor]. }
      destruct (quiet_traced fl u HL Hsp _ _ HQ T4 xs4 D1 D2) as (T5 & F1 & F2 & _). destruct (quiet_ids _ _ HQ T4 D1) as (F3 & T5' & F4 & F5).
      assert (T5' = T5) as -> by congruence. destruct (IH w3 w2 T5 xs4 F1 F2 E) as (T6 & xs6 & G1 & G2 & G3). exists T6, xs6. split; [exact G1|]. split; [exact G2|].
      eapply fed_trans; [|exact G3]. rewrite <- C3, F3. destruct D4 as [D5 D6]. split; [exact D5|]. destruct D6 as [D6|[D6 (s0 & D7)]].
      + left. intros s. by rewrite F5, D6, C5, B4.
      + right. split; [exact D6|]. exists s0. intros s. by rewrite F5, D7, C5, B4. }
  destruct (HLoop n w1 w2 T1 xs1 I1 I2 E2) as (T2 & xs2 & J1 & J2 & J3).
  destruct (end_phases _ _ _ _ _ E) as (st1 & F1 & F2 & _).
  assert (HQ : Quiet fl u (rs_src w2) (rs_src w')).
  { eapply quiet_trans; [|exact F2]. destruct file; [by eapply write_quiet|destruct F1 as [-> _]; constructor]. }
  destruct (quiet_ids _ _ HQ T2 J1) as (K1 & T & K2 & K3). exists T. split; [exact K2|]. rewrite K1, <- U1. destruct J3 as [_ [J3|[J3 (s0 & J4)]]].
  - left. intros sn. change (ids T sn = lst sn). by rewrite K3, J3, I3.
  - right. split; [exact J3|]. exists s0. intros sn. change (ids T sn = lst sn ++ if String.eqb sn s0 then [500%Z] else []). by rewrite K3, J4, I3.
Qed.
End Ids.

(** ** The files of a program *)

(** Every flagged particle of the lists has its own file after the program, even if it was deleted long before: the file has a group for
    each point of its trajectory, and every point shows this particle and no other, at the end of a step or where it crossed a boundary.
    No other file is written, except for one with the ID 500.  The IDs of the flagged particles of a species have to be different, and
    they have to be smaller than the numbers that the sources give. *)
Theorem C54_files fl st32 u tc file ini n w w' T0 fs : (1 <= u_L u)%Z -> NoDup (u_charged u ++ u_neutral u) -> (forall sn, Civil (u_bcs u sn)) ->
  (forall dom q, (dom, q) ∈ default [] (u_sources u) -> s_species q ∈ u_charged u) ->
  (forall sn, ss_saps (rs_src w) sn = sap_init (u_L u)) ->
  ss_traj (rs_src w) = Some T0 -> (forall sn, t_sp T0 sn = []) -> (0 <= t_npoints T0)%Z -> t_last T0 = None ->
  tc_charged tc = u_charged u -> tc_neutral tc = u_neutral u -> Names tc -> Good (tc_cdict tc) -> Good (tc_ndict tc) ->
  (forall sn, NoDup (map puid (List.filter is_traj (initial_of ini sn)))) ->
  (forall sn p, p ∈ initial_of ini sn -> is_traj p = true -> (puid p < ss_uid (rs_src w))%Z) ->
  main_run fl st32 u file ini n w = Ok w' ->
  exists T fs', ss_traj (rs_src w') = Some T /\ program fl st32 u tc true file ini n w fs = Ok (w', fs') /\
    (forall sn p, sn ∈ u_charged u ++ u_neutral u -> p ∈ initial_of ini sn -> is_traj p = true ->
       exists f e ds, fs' (traj_file_name sn (puid p)) = Some f /\ e ∈ t_sp T sn /\ FileShows tc sn e f /\ points e = map Some ds /\
         forall d, d ∈ ds -> puid (d_p d) = puid p /\ exists k, (k <= n)%nat /\ d_step d = (rs_count w + Z.of_nat k)%Z) /\
    (forall sn e, sn ∈ u_charged u ++ u_neutral u -> e ∈ t_sp T sn -> exists f, fs' (traj_file_name sn (e_uid e)) = Some f /\ FileShows tc sn e f) /\
    (forall name, (forall sn p, sn ∈ u_charged u ++ u_neutral u -> p ∈ initial_of ini sn -> is_traj p = true -> name <> traj_file_name sn (puid p)) ->
       (forall sn, name <> traj_file_name sn 500) -> fs' name = fs name).
Proof.
  intros HL Hsp HC Hsrc H0 HT0 HE0 Hnp Hlast Hc Hn HN HGc HGn Hnd Hlt E.
  destruct (C54_which fl st32 u HL Hsp HC file ini n w w' T0 H0 HT0 HE0 Hnp E) as (T & HT & Hw).
  destruct (C50_phases fl st32 u HL file ini n w w' (proj1 (proj1 (NoDup_app _ _) Hsp)) HC H0 E) as (ws & pop & fate & new & HM).
  destruct (C50_trajectories fl st32 u HL Hsp file ini n w w' ws pop fate new T0 HC HM H0 HT0 HE0 Hnp) as (Ts & T1 & _ & HT1 & _ & HS & Hnp1 & _).
  assert (T1 = T) as -> by congruence.
  destruct (C52_points fl st32 u HL Hsp HC Hsrc file ini n w w' ws pop fate new T0 HM H0 HT0 HE0 Hnp Hlast) as (_ & T2 & HT2 & Hpt).
  assert (T2 = T) as -> by congruence.
  assert (Hin : forall sn i, i ∈ map puid (List.filter is_traj (initial_of ini sn)) -> exists p, p ∈ initial_of ini sn /\ is_traj p = true /\ i = puid p).
  { intros sn i Hi. apply elem_of_list_In, in_map_iff in Hi as (p & <- & Hp). apply List.filter_In in Hp as [Hp1 Hp2]. exists p. by rewrite elem_of_list_In. }
  assert (Hnd' : forall sn, NoDup (map e_uid (t_sp T sn))).
  { intros sn. destruct Hw as [Hw|[Hr (s0 & Hw)]]; rewrite Hw; [apply Hnd|]. destruct (String.eqb sn s0); [|rewrite app_nil_r; apply Hnd].
    apply NoDup_app. split; [apply Hnd|]. split; [|apply NoDup_singleton]. intros i Hi ->%elem_of_list_singleton.
    destruct (Hin _ _ Hi) as (p & Hp1 & Hp2 & Hp3). specialize (Hlt sn p Hp1 Hp2). clear - Hlt Hp3 Hr. lia. }
  destruct (species_written tc HN (t_npoints T0) T Hnp1 HS (u_charged u ++ u_neutral u) fs Hsp) as (fs' & A1 & A2 & A3).
  { intros sn _ _. unfold dict_of. by destruct (decide _). }
  assert (HF : forall sn e, sn ∈ u_charged u ++ u_neutral u -> e ∈ t_sp T sn -> exists f, fs' (traj_file_name sn (e_uid e)) = Some f /\ FileShows tc sn e f).
  { intros sn e Hsn He. apply elem_of_list_lookup in He as [k Hk]. apply (A2 sn k e Hsn Hk). intros j e' Hj He' Hu.
    assert (j = k); [|clear - Hj H; lia]. eapply (proj1 (NoDup_alt _) (Hnd' sn) j k (e_uid e)); rewrite list_lookup_fmap; [by rewrite He'; cbn; rewrite Hu|by rewrite Hk]. }
  exists T, fs'. split; [exact HT|]. split.
  { unfold program. rewrite E. cbn iota beta. rewrite HT. unfold write_trajectories. rewrite Hc, Hn, A1. reflexivity. }
  split; [|split; [exact HF|]].
  - intros sn p Hsn Hp Hf.
    assert (Hi : puid p ∈ map e_uid (t_sp T sn)).
    { assert (puid p ∈ map puid (List.filter is_traj (initial_of ini sn))).
      { apply elem_of_list_In, in_map, List.filter_In. split; [by apply elem_of_list_In|exact Hf]. }
      destruct Hw as [Hw|[Hr (s0 & Hw)]]; rewrite Hw; [done|]. apply elem_of_app. by left. }
    apply elem_of_list_In, in_map_iff in Hi as (e & Hu & He%elem_of_list_In). destruct (HF sn e Hsn He) as (f & B1 & B2). rewrite Hu in B1.
    destruct (Hpt sn e He) as (ds & C1 & C2 & _). exists f, e, ds. do 4 (split; [assumption|]). intros d Hd. destruct (C2 d Hd) as (D1 & k & D2 & D3 & _).
    split; [congruence|]. by exists k.
  - intros name N1 N2. apply A3. intros sn e Hsn He. assert (Hi : e_uid e ∈ map e_uid (t_sp T sn)) by (apply elem_of_list_In, in_map; by apply elem_of_list_In).
    destruct Hw as [Hw|[Hr (s0 & Hw)]]; rewrite Hw in Hi.
    + destruct (Hin _ _ Hi) as (p & Hp1 & Hp2 & ->). by apply N1.
    + apply elem_of_app in Hi as [Hi|Hi].
      * destruct (Hin _ _ Hi) as (p & Hp1 & Hp2 & ->). by apply N1.
      * destruct (String.eqb sn s0); [|by apply elem_of_nil in Hi]. apply elem_of_list_singleton in Hi as ->. apply N2.
Qed.

(** In exact arithmetic, and if the format of the time keeps the order, the times in a file are in order. *)
Theorem C54_times st32 u tc file ini n w w' T0 T rnd fs fs' sn e f i j gi gj : (1 <= u_L u)%Z -> NoDup (u_charged u ++ u_neutral u) -> 0 <= u_dt u ->
  (forall sn, Civil (u_bcs u sn)) -> (forall dom q, (dom, q) ∈ default [] (u_sources u) -> s_species q ∈ u_charged u) ->
  (forall sn, ss_saps (rs_src w) sn = sap_init (u_L u)) ->
  ss_traj (rs_src w) = Some T0 -> (forall sn, t_sp T0 sn = []) -> (0 <= t_npoints T0)%Z -> t_last T0 = None ->
  (forall x y, x <= y -> rnd x <= rnd y) -> ("t", FFloat rnd) ∈ dict_of tc sn -> Good (dict_of tc sn) ->
  program exact st32 u tc true file ini n w fs = Ok (w', fs') ->
  ss_traj (rs_src w') = Some T -> e ∈ t_sp T sn -> FileShows tc sn e f ->
  tf_groups f !! i = Some gi -> tf_groups f !! j = Some gj -> (i < j)%nat ->
  exists a b, tg_time gi = VF a /\ tg_time gj = VF b /\ a <= b.
Proof.
  intros HL Hsp Hdt HC Hsrc H0 HT0 HE0 Hnp Hlast Hr Ht HG E HTx He HFS Hi Hj Hij. unfold program in E.
  destruct (main_run _ _ _ _ _ _ _) as [w1|] eqn:E1; [|discriminate].
  destruct (C50_phases exact st32 u HL file ini n w w1 (proj1 (proj1 (NoDup_app _ _) Hsp)) HC H0 E1) as (ws & pop & fate & new & HM).
  destruct (C52_times st32 u file ini n w w1 ws pop fate new T0 HL Hsp Hdt HC Hsrc HM H0 HT0 HE0 Hnp Hlast) as (T2 & HT & Hpt).
  destruct (C50_trajectories exact st32 u HL Hsp file ini n w w1 ws pop fate new T0 HC HM H0 HT0 HE0 Hnp) as (Ts & T1 & _ & HT1 & _ & HS & Hnp1 & _).
  assert (T1 = T2) as -> by congruence. rewrite HT in E. destruct (write_trajectories tc T2 fs) as [fs1|]; [|discriminate]. injection E as <- _.
  assert (T2 = T) as -> by congruence.
  destruct (Hpt sn e He) as (ds & B1 & B2 & _).
  assert (Hlen : length ds = length (tf_groups f)).
  { rewrite <- (map_length Some ds), <- B1. pose proof (fi_length _ _ _ _ HFS) as Hl. destruct HS as [_ HS]. destruct (HS sn e He) as (S1 & S2 & _). unfold points. rewrite take_length. clear - Hl S1 S2. lia. }
  destruct (lookup_lt_is_Some_2 ds i) as [di Hdi]; [apply lookup_lt_Some in Hi; clear - Hi Hlen; lia|].
  destruct (lookup_lt_is_Some_2 ds j) as [dj Hdj]; [apply lookup_lt_Some in Hj; clear - Hj Hlen; lia|].
  pose proof (fi_groups _ _ _ _ HFS) as HF.
  destruct (HF i di) as (g & A1 & _ & A2 & _); [rewrite B1, list_lookup_fmap; by rewrite Hdi|]. rewrite Hi in A1. injection A1 as <-.
  destruct (HF j dj) as (g & A3 & _ & A4 & _); [rewrite B1, list_lookup_fmap; by rewrite Hdj|]. rewrite Hj in A3. injection A3 as <-.
  pose proof (A2 _ Ht) as F1. pose proof (A4 _ Ht) as F2. exists (rnd (d_time di)), (rnd (d_time dj)).
  split; [inversion F1; reflexivity|]. split; [inversion F2; reflexivity|]. clear F1 F2. apply Hr.
  clear - B2 Hdi Hdj Hij. revert i j Hdi Hdj Hij. induction B2 as [|d ds HB IH HF]; intros i j Hdi Hdj Hij; [discriminate|].
  destruct j as [|j]; [lia|]. cbn in Hdj. destruct i as [|i].
  - injection Hdi as <-. exact (proj1 (list.Forall_forall _ _) HF _ (elem_of_list_lookup_2 _ _ _ Hdj)).
  - cbn in Hdi. apply (IH i j); [exact Hdi|exact Hdj|lia].
Qed.

(** ** What fails *)

Lemma groups_need_time tc charged dict es : "t" ∉ map fst dict -> forall n gs gs', write_groups tc charged dict es (seq 0 (S n)) gs <> Ok gs'.
Proof.
  intros Ht n gs gs'. cbn [seq write_groups]. unfold write_group. destruct (existsb _ gs); [discriminate|].
  assert (list_find (fun cf : string * format => fst cf = "t") dict = None) as ->; [|discriminate].
  apply list_find_None. apply list.Forall_forall. intros [c f] Hc Heq. cbn in Heq. subst c. apply Ht. apply elem_of_list_In, in_map_iff. eexists (_, f). split; [reflexivity|]. by apply elem_of_list_In.
Qed.
Lemma written_entries tc charged dict sn es : forall fs fs', write_entries tc charged dict sn es fs = Ok fs' ->
  forall e, e ∈ es -> exists gs, write_groups tc charged dict (e_data e) (seq 0 (Z.to_nat (e_len e))) [] = Ok gs.
Proof.
  induction es as [|e es IH]; intros fs fs' E e0 H0; [by apply elem_of_nil in H0|]. cbn [write_entries] in E.
  destruct (write_groups _ _ _ _ _ _) as [gs|] eqn:Eg; [|discriminate]. apply elem_of_cons in H0 as [->|H0]; [by exists gs|]. by eapply IH.
Qed.
Lemma written_species tc T sns : forall fs fs', write_species tc sns T fs = Ok fs' -> forall sn e, sn ∈ sns -> e ∈ t_sp T sn ->
  forallb (fun cf => numeric (snd cf)) (dict_of tc sn) = true /\
  exists gs, write_groups tc (bool_decide (sn ∈ tc_charged tc)) (dict_of tc sn) (e_data e) (seq 0 (Z.to_nat (e_len e))) [] = Ok gs.
Proof.
  induction sns as [|s sns IH]; intros fs fs' E sn e Hsn He; [by apply elem_of_nil in Hsn|]. cbn [write_species] in E.
  assert (Hd : (if bool_decide (s ∈ tc_charged tc) then tc_cdict tc else tc_ndict tc) = dict_of tc s).
  { unfold dict_of. destruct (decide _); [by rewrite bool_decide_eq_true_2|by rewrite bool_decide_eq_false_2]. }
  rewrite charged_bool in E. cbv zeta in E. rewrite Hd in E.
  destruct (t_sp T s) as [|e0 es] eqn:Es; [apply elem_of_cons in Hsn as [->|Hsn]; [rewrite Es in He; by apply elem_of_nil in He|by eapply IH]|].
  destruct (forallb _ _) eqn:Ef; cbn [negb] in E; [|discriminate]. destruct (write_entries _ _ _ _ _ _) as [fs1|] eqn:Ew; [|discriminate].
  apply elem_of_cons in Hsn as [->|Hsn]; [|by eapply IH]. split; [exact Ef|]. eapply written_entries; [exact Ew|]. by rewrite <- Es.
Qed.
(** The files cannot be written if a species with a trajectory has something in its dictionary that is not a number, or if it has a
    recorded point and the time is not in the dictionary. *)
Theorem C54_fails tc T fs fs' sn e : sn ∈ tc_charged tc ++ tc_neutral tc -> e ∈ t_sp T sn ->
  (exists c, (c, FOther) ∈ dict_of tc sn) \/ ((0 < e_len e)%Z /\ "t" ∉ map fst (dict_of tc sn)) ->
  write_trajectories tc T fs <> Ok fs'.
Proof.
  intros Hsn He H E. destruct (written_species _ _ _ _ _ E sn e Hsn He) as [H1 (gs & H2)]. destruct H as [(c & Hc)|[Hl Ht]].
  - rewrite forallb_forall in H1. by specialize (H1 _ (proj1 (elem_of_list_In _ _) Hc)).
  - replace (Z.to_nat (e_len e)) with (S (pred (Z.to_nat (e_len e)))) in H2 by (clear - Hl; lia). by eapply groups_need_time.
Qed.

(** ** Examples *)

(** Species "e" on a line, with the dictionary of the example sphere1D for the coordinate x, in double precision. *)
Definition eg_tc : tconf := TConf ["e"] [] [("step", FInt (fun z => z)); ("t", FFloat (fun x => x)); ("x", FFloat (fun x => x)); ("ux", FFloat (fun x => x)); ("crossings", FInt (fun z => z)); ("Ex", FFloat (fun x => x))]
  [("t", FFloat (fun x => x))] "title" "author" (fun _ => 1%Z) (fun _ => 1) (fun _ => -1) ["x"] (particle_column ["x"]) (E1_names ["x"]) (Eext1_names ["x"]) (fun _ => VI 0).
Lemma eg_names : Names eg_tc.
Proof. apply (C54_shipped_names eg_tc "cartesian_x" ["x"]); reflexivity. Qed.
Lemma eg_good : Good (tc_cdict eg_tc) /\ Good (tc_ndict eg_tc).
Proof.
  split; split; cbn [eg_tc tc_cdict tc_ndict].
  - apply (bool_decide_unpack _). vm_compute. exact I.
  - eexists. right. left.
  - intros c f Hc. repeat (apply elem_of_cons in Hc as [Hc|Hc]; [injection Hc as -> ->; discriminate|]). by apply elem_of_nil in Hc.
  - apply NoDup_singleton.
  - eexists. left.
  - intros c f Hc. apply elem_of_list_singleton in Hc. injection Hc as -> ->. discriminate.
Qed.

(** Two trajectories of a species with the same ID: the second file replaces the first, and the points of the first are in no file. *)
Definition lost_point : datum := Datum 0 0 [1/2] ea [0] [0].
Definition same_id : traj := Traj 1 None (fun sn => if String.eqb sn "e" then [Entry 0 1 1 [Some lost_point]; Entry 1 1 0 [None]] else []).
Theorem C54_same_id_refuted : exists e fs', e ∈ t_sp same_id "e" /\ points e = [Some lost_point] /\
  write_trajectories eg_tc same_id (fun _ => None) = Ok fs' /\ forall name f, fs' name = Some f -> tf_groups f = [].
Proof.
  eexists (Entry 0 1 1 [Some lost_point]), _. split; [left|]. split; [reflexivity|]. split; [reflexivity|].
  intros name f Hf. unfold set_key in Hf. destruct (String.eqb _ _); [by injection Hf as <-|discriminate Hf].
Qed.

(** Without the time in the dictionary these trajectories cannot be written. *)
Definition timeless_tc : tconf := TConf ["e"] [] [("step", FInt (fun z => z))] [] "title" "author" (fun _ => 1%Z) (fun _ => 1) (fun _ => -1) ["x"] (particle_column ["x"])
  (E1_names ["x"]) (Eext1_names ["x"]) (fun _ => VI 0).
Example C54_fails_example fs fs' : write_trajectories timeless_tc same_id fs <> Ok fs'.
Proof.
  apply (C54_fails _ _ _ _ "e" (Entry 0 1 1 [Some lost_point])); [left|left|]. right. split; [reflexivity|]. intros H. apply elem_of_list_singleton in H. discriminate H.
Qed.

(** The program of [C52_example], which writes the files in the end: the flagged particle [ea], with the ID 1, left through the boundary,
    but its file shows it at the times 0 and 1; the particle [eb], with the ID 2, is not flagged and has no file. *)
Example C54_example : exists m w' fs' f, program exact exact (main_setup m) eg_tc true true main_initial 2 roomy_start (fun _ => None) = Ok (w', fs') /\
  fs' "traj-e-uid1.h5part" = Some f /\ fs' "traj-e-uid2.h5part" = None /\ ("particle_type_1", AString "e") ∈ tf_attrs f /\
  (exists i g, tf_groups f !! i = Some g /\ tg_time g = VF 0 /\ ("x", VF (1/2)) ∈ tg_sets g) /\
  (exists i g, tf_groups f !! i = Some g /\ tg_time g = VF 1 /\ ("x", VF (3/2)) ∈ tg_sets g).
Proof.
  destruct C52_example as (m & w' & T & E & HT & P0 & P1 & _). set (u := main_setup m) in *.
  assert (HC : forall sn, Civil (u_bcs u sn)).
  { intros sn. apply (ships_civil exact). intros v bc Hb. cbn in Hb. unfold eg_bcs in Hb. destruct (v =? 1)%Z; [|discriminate]. injection Hb as <-. by left. }
  assert (HL : (1 <= u_L u)%Z) by (cbn; lia).
  assert (Hsp : NoDup (u_charged u ++ u_neutral u)) by apply NoDup_singleton.
  assert (Hsrc : forall dom q, (dom, q) ∈ default [] (u_sources u) -> s_species q ∈ u_charged u).
  { intros dom q Hq. apply elem_of_list_singleton in Hq. injection Hq as -> ->. left. }
  set (T0 := Traj 40 None (fun _ => [])).
  assert (HI : forall sn, initial_of main_initial sn = if String.eqb "e" sn then [ea; eb] else []).
  { intros sn. unfold initial_of, main_initial. cbn [default map concat]. change (Datatypes.id [Listed "e" [ea; eb]]) with [Listed "e" [ea; eb]]. cbn [map concat]. apply app_nil_r. }
  assert (HF : List.filter is_traj [ea; eb] = [ea]) by reflexivity.
  destruct (C54_files exact exact u eg_tc true main_initial 2 roomy_start w' T0 (fun _ => None) HL Hsp HC Hsrc (fun _ => eq_refl) eq_refl (fun _ => eq_refl) ltac:(discriminate) eq_refl
    eq_refl eq_refl eg_names (proj1 eg_good) (proj2 eg_good)) as (T1 & fs' & HT1 & EP & _ & A2 & A3); [..|exact E|].
  { intros sn. rewrite HI. destruct (String.eqb "e" sn); [rewrite HF; apply NoDup_singleton|constructor]. }
  { intros sn p. rewrite HI. destruct (String.eqb "e" sn); [|intros Hp; destruct (not_elem_of_nil p Hp)]. intros Hp _.
    apply elem_of_cons in Hp as [->|Hp]; [reflexivity|]. apply elem_of_list_singleton in Hp as ->. reflexivity. }
  assert (T1 = T) as -> by congruence.
  destruct (C54_which exact exact u HL Hsp HC true main_initial 2 roomy_start w' T0 (fun _ => eq_refl) eq_refl (fun _ => eq_refl) ltac:(discriminate) E) as (T2 & HT2 & Hw).
  assert (T2 = T) as -> by congruence.
  destruct P0 as (e & d & Q1 & Q2 & Q3 & _ & Q4 & Q5). destruct P1 as (e1 & d1 & R1 & R2 & R3 & _ & R4 & R5).
  assert (Hsn : "e" ∈ u_charged u ++ u_neutral u) by left.
  assert (Hone : e1 = e).
  { apply elem_of_list_lookup in Q1 as [i Hi], R1 as [j Hj].
    assert (Hnd : NoDup (map e_uid (t_sp T "e"))).
    { destruct Hw as [Hw|[_ (s0 & Hw)]]; rewrite Hw, HI; change (String.eqb "e" "e") with true; cbn iota; rewrite HF; [apply NoDup_singleton|].
      destruct (String.eqb "e" s0); [|apply NoDup_singleton]. apply (bool_decide_unpack _). reflexivity. }
    assert (i = j); [|congruence]. eapply (proj1 (NoDup_alt _) Hnd i j 1%Z); rewrite list_lookup_fmap; [rewrite Hi|rewrite Hj]; cbn; congruence. }
  subst e1. destruct (A2 "e" e Hsn Q1) as (f & B1 & B2). rewrite Q2 in B1. exists m, w', fs', f. split; [exact EP|]. split; [exact B1|].
  destruct B2 as [F1 _ _ _ _ F6]. split; [|split; [exact F1|]].
  { rewrite A3; [reflexivity| |].
    - intros sn p. rewrite HI. intros Hs. apply elem_of_list_singleton in Hs as ->. change (String.eqb "e" "e") with true. cbn iota. intros Hp Hf Hn.
      apply elem_of_cons in Hp as [->|Hp]; [discriminate Hn|]. apply elem_of_list_singleton in Hp as ->. discriminate Hf.
    - intros sn Hn. change "traj-e-uid2.h5part" with (traj_file_name "e" 2) in Hn. apply C54_names in Hn as [_ Hn]. discriminate Hn. }
  assert (Hget : forall d, Some d ∈ points e -> exists i g, tf_groups f !! i = Some g /\ tg_time g = VF (d_time d) /\ forall x, d_x d !! 0%nat = Some x -> ("x", VF x) ∈ tg_sets g).
  { intros d0 Hd. apply elem_of_list_lookup in Hd as [i Hi]. destruct (F6 i d0 Hi) as (g & G1 & _ & G2 & _ & G3). exists i, g. split; [exact G1|].
    split; [assert (G : InFormat (FFloat (fun x => x)) (VF (d_time d0)) (tg_time g)) by (apply G2; right; left); clear - G; inversion G; reflexivity|].
    intros x Hx. destruct (G3 "x" (FFloat (fun x => x)) (VF x)) as (v & G4 & G5); [right; right; left| |].
    - eapply (q_position eg_tc _ d0 0%nat); [reflexivity|exact Hx].
    - assert (v = VF x) as -> by (clear - G5; inversion G5; reflexivity). exact G4. }
  split.
  - destruct (Hget d Q3) as (i & g & G1 & G2 & G3). exists i, g. split; [exact G1|]. split; [by rewrite G2, Q4|]. apply G3. by rewrite Q5.
  - destruct (Hget d1 R3) as (i & g & G1 & G2 & G3). exists i, g. split; [exact G1|]. split; [by rewrite G2, R4|]. apply G3.
    destruct (d_x d1) as [|x r] eqn:Ex; cbn in R5; [exfalso; clear - R5; lra|]. cbn. by rewrite R5.
Qed.

Print Assumptions C54_which.
Print Assumptions C54_files.
Print Assumptions C54_times.
Print Assumptions C54_fails.
Print Assumptions C54_fails_example.
Print Assumptions C54_same_id_refuted.
Print Assumptions C54_example.
