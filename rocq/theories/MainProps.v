(** C50: what a whole program leaves behind: the output file, the history and the trajectories. *)
From Coq Require Import String.
From stdpp Require Import strings numbers list list_numbers relations.
From Verif Require Import SapModel MoverModel SapProofs SapSpec SapRefine StorageProps.
From Verif Require Import Vec VecProofs Rounding TrackModel TrajModel TrajProofs TrajProps TrajRecProps DiagModel DiagProofs DumpProps SumProps HistoryProps.
From Verif Require Import AcceptProps DensityModel DensityProps SourceModel SourceProps UidProps RunModel RunProps.
Local Open Scope R_scope.

(** ** The phases of the program *)
Section Main.
Context (fl st32 : R -> R) (u : setup) (HL : (1 <= u_L u)%Z).

(** Changes between two movements of particles: complete loops over the particles, and samples of the trajectories. *)
Inductive Quiet : srcst -> srcst -> Prop :=
| q_done st : Quiet st st
| q_loop st saps st' : Looped (ss_saps st) saps -> Quiet (with_saps st saps) st' -> Quiet st st'
| q_sample step time negE st st1 st' : record_trajectories fl u step time negE st = Ok st1 -> Quiet st1 st' -> Quiet st st'.
Lemma quiet_trans a b c : Quiet a b -> Quiet b c -> Quiet a c.
Proof using. induction 1; intros Hc; [exact Hc|eapply q_loop; eauto|eapply q_sample; eauto]. Qed.
Lemma quiet_loop st saps : Looped (ss_saps st) saps -> Quiet st (with_saps st saps).
Proof using. intros H. eapply q_loop; [exact H|constructor]. Qed.
Lemma quiet_sample step time negE st st1 : record_trajectories fl u step time negE st = Ok st1 -> Quiet st st1.
Proof using. intros H. eapply q_sample; [exact H|constructor]. Qed.
Lemma sample_saps step time negE st st1 : record_trajectories fl u step time negE st = Ok st1 -> ss_saps st1 = ss_saps st.
Proof using.
  unfold record_trajectories. destruct (ss_traj st); [|by intros [= <-]].
  destruct (record_trajectory_data _ _ _ _ _ _ _ _ _ _); [|discriminate]. by intros [= <-].
Qed.
Lemma quiet_holds st st' pop : Quiet st st' -> StoresAll (u_L u) (ss_saps st) pop -> StoresAll (u_L u) (ss_saps st') pop.
Proof using HL.
  induction 1 as [|st saps st' Hl Hq IH|step time negE st st1 st' E Hq IH]; intros HH; [exact HH| |].
  - apply IH. by eapply (looped_holds _ HL).
  - apply IH. by rewrite (sample_saps _ _ _ _ _ E).
Qed.
Lemma quiet_counted st st' sn xs : Quiet st st' -> Counted (u_L u) (ss_saps st sn) xs -> Counted (u_L u) (ss_saps st' sn) xs.
Proof using HL.
  induction 1 as [|st saps st' Hl Hq IH|step time negE st st1 st' E Hq IH]; intros HH; [exact HH| |].
  - apply IH. by eapply (looped_counted _ HL).
  - apply IH. by rewrite (sample_saps _ _ _ _ _ E).
Qed.
Lemma write_quiet close step time st o st' o' : write_snapshot fl u close step time (st, o) = Ok (st', o') -> Quiet st st'.
Proof using. intros (saps & H & ->)%write_looped. by apply quiet_loop. Qed.
Lemma history_quiet step time st h st' h' : record_run_history fl st32 u step time (st, h) = Ok (st', h') -> Quiet st st'.
Proof using. intros (saps & H & ->)%history_phase_looped. by apply quiet_loop. Qed.
Lemma density_quiet st saps rho dofs cells :
  density_update fl (u_ncell u) (u_gdim u) (u_vol u) (u_junk u) (u_fD u) (u_fC u) (u_charge u) (u_names u) (u_ndof u) (ss_saps st) = Ok (saps, rho, dofs, cells) ->
  Quiet st (with_saps st saps).
Proof using. intros H. apply quiet_loop. by eapply density_looped. Qed.

(** A time step. *)
Definition out_due (k : Z) : bool := match u_out_interval u with Some i => (k mod i =? 0)%Z | None => false end.
Definition hist_due (k : Z) : bool := (k mod u_hist_skip u =? 0)%Z.
Lemma step_phases w w' : time_step fl st32 u w = Ok w' ->
  let step := (rs_count w + 1)%Z in let time := fl (rs_time w + u_dt u) in
  exists saps1 c1 st2 st3 st4 st5,
    advance_species fl u step time (rs_negE w) (u_charged u) (ss_saps (rs_src w)) (TCtx (rs_scr w) (ss_traj (rs_src w))) = Ok (saps1, c1) /\
    Quiet (SrcSt saps1 (ss_uid (rs_src w)) (ss_rng (rs_src w)) (usr c1)) st2 /\
    add_from_sources fl u step time (rs_negE w) st2 = Ok st3 /\
    (if out_due step then write_snapshot fl u false step time (st3, rs_out w) = Ok (st4, rs_out w') else st4 = st3 /\ rs_out w' = rs_out w) /\
    Quiet st4 st5 /\
    match rs_hist w with
    | None => rs_src w' = st5 /\ rs_hist w' = None
    | Some h => if hist_due step then record_run_history fl st32 u step time (st5, Some h) = Ok (rs_src w', rs_hist w')
                else rs_src w' = st5 /\ rs_hist w' = Some h
    end /\ rs_count w' = step /\ rs_time w' = time.
Proof using.
  intros E step time. unfold time_step in E. fold step time in E. unfold out_due, hist_due.
  destruct (advance_species _ _ _ _ _ _ _ _) as [[saps1 c1]|] eqn:E1; [|discriminate].
  set (st1 := SrcSt saps1 (ss_uid (rs_src w)) (ss_rng (rs_src w)) (usr c1)) in *.
  destruct (match ss_traj st1 with None => Ok st1 | Some _ => _ end) as [st2|] eqn:E2; [|discriminate].
  assert (H2 : Quiet st1 st2).
  { destruct (ss_traj st1); [|injection E2 as <-; constructor]. apply every_ok in E2 as [[_ E2]| ->]; [by eapply quiet_sample|constructor]. }
  destruct (add_from_sources _ _ _ _ _ st2) as [st3|] eqn:E3; [|discriminate].
  destruct (match u_out_interval u with None => _ | Some _ => _ end) as [[st4 o4]|] eqn:E4; [|discriminate].
  destruct (density_update _ _ _ _ _ _ _ _ _ _ _) as [[[[saps5 rho] dofs] cells]|] eqn:E5; [|discriminate].
  destruct (u_solve u rho) as [negE|]; [|discriminate].
  destruct (match rs_hist w with None => _ | Some _ => _ end) as [[st6 h6]|] eqn:E6; [|discriminate].
  injection E as <-. exists saps1, c1, st2, st3, st4, (with_saps st4 saps5). cbn [rs_out rs_src rs_hist rs_count rs_time].
  split; [reflexivity|]. split; [exact H2|]. split; [exact E3|]. split; [|split; [by eapply density_quiet|split; [|done]]].
  - destruct (u_out_interval u) as [i|]; [|by injection E4 as <- <-]. unfold every in E4. destruct (i =? 0)%Z; [discriminate|].
    destruct (step mod i =? 0)%Z; [exact E4|by injection E4 as <- <-].
  - destruct (rs_hist w) as [h|]; [|by injection E6 as <- <-]. unfold every in E6. destruct (u_hist_skip u =? 0)%Z; [discriminate|].
    destruct (step mod u_hist_skip u =? 0)%Z; [exact E6|by injection E6 as <- <-].
Qed.

(** The initialization. *)
Lemma init_phases file ini w w1 : initialization fl st32 u file ini w = Ok w1 ->
  let o := if file then open_file (rs_out w) else rs_out w in
  exists st1 st2 st3,
    (match ini with
     | None => st1 = rs_src w
     | Some l => initialize_particles fl (u_names u) (u_spherical u) (u_pdim u) (u_pi4 u) (u_rnd u) (u_fuel u) (u_dE u) ANone l (rs_src w) = Ok st1
     end) /\
    (match ini with
     | Some _ => if file then write_snapshot fl u false (rs_count w) (rs_time w) (st1, o) = Ok (st2, rs_out w1) else st2 = st1 /\ rs_out w1 = o
     | None => st2 = st1 /\ rs_out w1 = o
     end) /\
    Quiet st2 st3 /\ record_run_history fl st32 u (rs_count w) (rs_time w) (st3, rs_hist w) = Ok (rs_src w1, rs_hist w1) /\
    rs_count w1 = rs_count w /\ rs_time w1 = rs_time w.
Proof using.
  intros E o. unfold initialization in E. cbv zeta in E. fold o in E. clearbody o. destruct ini as [l|].
  - unfold initial_particles in E. cbn [rs_count rs_time rs_scr rs_src rs_out rs_rho rs_dofs rs_cells rs_negE rs_hist] in E.
    destruct (initialize_particles _ _ _ _ _ _ _ _ _ _ _) as [st1|] eqn:E1; [|discriminate].
    destruct (if file then _ else _) as [[st2 o2]|] eqn:E2; [|discriminate].
    destruct (record_trajectories _ _ _ _ _ _) as [st3|] eqn:E3; [|discriminate].
    destruct (density_update _ _ _ _ _ _ _ _ _ _ _) as [[[[saps5 rho] dofs] cells]|] eqn:E5; [|discriminate].
    destruct (u_solve u rho) as [negE|]; [|discriminate]. cbn [rs_count rs_time rs_scr rs_src rs_out rs_rho rs_dofs rs_cells rs_negE rs_hist] in E.
    destruct (record_run_history _ _ _ _ _ _) as [[st6 h6]|] eqn:E6; [|discriminate]. injection E as <-.
    exists st1, st2, (with_saps st3 saps5). cbn [rs_out rs_src rs_hist rs_count rs_time]. split; [reflexivity|]. split.
    + destruct file; [exact E2|by injection E2 as <- <-].
    + split; [|by split]. eapply quiet_trans; [by eapply quiet_sample|by eapply density_quiet].
  - cbn [rs_count rs_time rs_scr rs_src rs_out rs_rho rs_dofs rs_cells rs_negE rs_hist] in E.
    destruct (record_run_history _ _ _ _ _ _) as [[st6 h6]|] eqn:E6; [|discriminate]. injection E as <-.
    exists (rs_src w), (rs_src w), (rs_src w). cbn [rs_out rs_src rs_hist rs_count rs_time]. split; [done|]. split; [done|]. split; [constructor|]. by split.
Qed.

(** The end. *)
Lemma end_phases file w w' : finish fl u file w = Ok w' -> exists st1,
  (if file then write_snapshot fl u true (rs_count w) (rs_time w) (rs_src w, rs_out w) = Ok (st1, rs_out w') else st1 = rs_src w /\ rs_out w' = rs_out w) /\
  Quiet st1 (rs_src w') /\ rs_hist w' = rs_hist w.
Proof using.
  intros E. unfold finish in E. destruct (if file then _ else _) as [[st1 o1]|] eqn:E1; [|discriminate].
  destruct (record_trajectories _ _ _ _ _ _) as [st2|] eqn:E2; [|discriminate]. injection E as <-. exists st1. cbn [rs_out rs_src rs_hist].
  split; [destruct file; [exact E1|by injection E1 as <- <-]|]. split; [by eapply quiet_sample|reflexivity].
Qed.

(** ** Initial particles *)

(** The particles of the user's lists for species [sn], in order. *)
Definition initial_of (ini : option (list initial)) (sn : string) : list particle :=
  concat (map (fun e => match e with Listed s ps => if String.eqb s sn then ps else [] | _ => [] end) (default [] ini)).

Lemma list_counted sn ps : forall st st' pop, (forall s, Counted (u_L u) (ss_saps st s) (pop s)) ->
  create_from_list sn ps st = Ok st' ->
  forall s, Counted (u_L u) (ss_saps st' s) (pop s ++ if String.eqb sn s then ps else []).
Proof using HL.
  induction ps as [|p ps IH]; intros st st' pop HC E s; cbn [create_from_list] in E.
  - injection E as <-. destruct (String.eqb sn s); rewrite app_nil_r; apply HC.
  - destruct (add_particle _ _ _ _ _ _ _ _ _) as [[s1 T1]|] eqn:Ea; [|discriminate].
    apply add_particle_push in Ea as (o & i & Ep). destruct (HC sn) as (HR & HS & _). destruct (pushed _ _ _ _ _ _ _ HL HR HS Ep) as [HR1 HS1].
    specialize (IH (SrcSt (set_key (ss_saps st) sn s1) (ss_uid st) (ss_rng st) T1) st' (fun s => pop s ++ if String.eqb sn s then [p] else [])).
    cbn [ss_saps] in IH. assert (Hpre : forall s, Counted (u_L u) (set_key (ss_saps st) sn s1 s) (pop s ++ if String.eqb sn s then [p] else [])).
    { intros t. unfold set_key. rewrite String.eqb_sym. destruct (String.eqb_spec sn t) as [<-|Hne]; [|rewrite app_nil_r; apply HC].
      split; [exact HR1|]. split; [exact HS1|]. intros Hnil. by apply app_eq_nil in Hnil as [_ ?]. }
    specialize (IH Hpre E s). cbv beta in IH. rewrite <- app_assoc in IH. by destruct (String.eqb sn s).
Qed.
Lemma initial_counted l : forall st st' pop, (forall s, Counted (u_L u) (ss_saps st s) (pop s)) ->
  initialize_particles fl (u_names u) (u_spherical u) (u_pdim u) (u_pi4 u) (u_rnd u) (u_fuel u) (u_dE u) ANone l st = Ok st' ->
  forall s, Counted (u_L u) (ss_saps st' s) (pop s ++ initial_of (Some l) s).
Proof using HL.
  induction l as [|[sn ps|q r|] l IH]; intros st st' pop HC E s; cbn [initialize_particles] in E.
  - injection E as <-. cbn. rewrite app_nil_r. apply HC.
  - destruct (negb _); [discriminate|]. destruct (create_from_list sn ps st) as [st1|] eqn:E1; [|discriminate].
    pose proof (list_counted _ _ _ _ _ HC E1) as HC1. specialize (IH _ _ _ HC1 E s). cbv beta in IH. rewrite <- app_assoc in IH. exact IH.
  - discriminate E.
  - discriminate E.
Qed.
Lemma fresh_counted : Counted (u_L u) (sap_init (A:=particle) (u_L u)) (@nil particle).
Proof using HL.
  split; [constructor|]. split; [|intros _; constructor]. by destruct (C01_push_keeps_place (u_L u) (@nil particle) HL) as (s' & [= <-] & Hst).
Qed.

(** The books of the program with [n] time steps: [ws k] is the state after step [k] ([ws 0] after the initialization) and [pop k]
    the particles stored then. *)
Record Main (file : bool) (ini : option (list initial)) (n : nat) (w w' : runst) (ws : nat -> runst) (pop : nat -> string -> list particle)
    (fate : nat -> string -> list (option particle)) (new : nat -> string -> list particle) : Prop := {
  m_start : initialization fl st32 u file ini w = Ok (ws 0%nat);
  m_loop : Ledger fl st32 u (u_L u) n (ws 0%nat) (ws n) (initial_of ini) ws pop fate new;
  m_end : finish fl u file (ws n) = Ok w';
  m_last : StoresAll (u_L u) (ss_saps (rs_src w')) (pop n)
}.

(** A program that starts with empty storage: the particles of the user's lists, then the books of the time loop (C40); the end
    does not change the particles. *)
Lemma init_counted file ini w w1 : (forall sn, ss_saps (rs_src w) sn = sap_init (u_L u)) ->
  initialization fl st32 u file ini w = Ok w1 -> forall sn, Counted (u_L u) (ss_saps (rs_src w1) sn) (initial_of ini sn).
Proof using HL.
  intros H0 E sn. destruct (init_phases _ _ _ _ E) as (st1 & st2 & st3 & E1 & E2 & H3 & E4 & _).
  assert (H1 : Counted (u_L u) (ss_saps st1 sn) (initial_of ini sn)).
  { destruct ini as [l|].
    - apply (initial_counted l (rs_src w) st1 (fun _ => [])); [|exact E1]. intros s. rewrite H0. exact fresh_counted.
    - rewrite E1, H0. exact fresh_counted. }
  assert (H12 : Quiet st1 st2). { destruct ini; [destruct file; [by eapply write_quiet|]|]; destruct E2 as [-> _]; constructor. }
  eapply quiet_counted; [|exact H1]. eapply quiet_trans; [exact H12|]. eapply quiet_trans; [exact H3|]. by eapply history_quiet.
Qed.
Theorem C50_phases file ini n w w' : NoDup (u_charged u) -> (forall sn, Civil (u_bcs u sn)) ->
  (forall sn, ss_saps (rs_src w) sn = sap_init (u_L u)) -> main_run fl st32 u file ini n w = Ok w' ->
  exists ws pop fate new, Main file ini n w w' ws pop fate new.
Proof using HL.
  intros Hnd Hciv H0 E. unfold main_run in E. destruct (initialization _ _ _ _ _ _) as [w1|] eqn:E1; [|discriminate].
  destruct (time_loop _ _ _ _ _) as [w2|] eqn:E2; [|discriminate].
  destruct (C40_ledger fl st32 u (u_L u) HL n w1 w2 (initial_of ini) Hnd Hciv) as (ws & pop & fate & new & HB); [|exact E2|].
  { intros sn. destruct (init_counted _ _ _ _ H0 E1 sn) as (H1 & H2 & _). by split. }
  exists ws, pop, fate, new. pose proof (l_first _ _ _ _ _ _ _ _ _ _ _ _ HB) as Hf. pose proof (l_last _ _ _ _ _ _ _ _ _ _ _ _ HB) as Hl.
  split; [by rewrite Hf|by rewrite Hf, Hl|by rewrite Hl|].
  destruct (end_phases _ _ _ E) as (st1 & E3 & H3 & _). eapply quiet_holds; [exact H3|].
  pose proof (l_holds _ _ _ _ _ _ _ _ _ _ _ _ HB n (le_n n)) as HH. rewrite Hl in HH.
  destruct file; [|by destruct E3 as [-> _]]. eapply quiet_holds; [by eapply write_quiet|exact HH].
Qed.

(** ** The states between the phases of a step *)
Lemma looped_same saps saps' pop pop' : Looped saps saps' -> StoresAll (u_L u) saps pop -> StoresAll (u_L u) saps' pop' -> forall sn, pop sn = pop' sn.
Proof using HL. intros Hl H H' sn. exact (stores_inj _ _ _ (proj2 (looped_holds _ HL _ _ _ Hl H sn)) (proj2 (H' sn))). Qed.
Lemma quiet_same st st' pop pop' : Quiet st st' -> StoresAll (u_L u) (ss_saps st) pop -> StoresAll (u_L u) (ss_saps st') pop' -> forall sn, pop sn = pop' sn.
Proof using HL. intros Hl H H' sn. exact (stores_inj _ _ _ (proj2 (quiet_holds _ _ _ Hl H sn)) (proj2 (H' sn))). Qed.
Lemma stores_ext saps pop pop' : (forall sn, pop sn = pop' sn) -> StoresAll (u_L u) saps pop -> StoresAll (u_L u) saps pop'.
Proof using. intros H HH sn. rewrite <- H. apply HH. Qed.

Lemma middle_holds step time negE w saps1 c1 st2 st3 pop : NoDup (u_charged u) -> (forall sn, Civil (u_bcs u sn)) ->
  StoresAll (u_L u) (ss_saps (rs_src w)) pop ->
  advance_species fl u step time negE (u_charged u) (ss_saps (rs_src w)) (TCtx (rs_scr w) (ss_traj (rs_src w))) = Ok (saps1, c1) ->
  Quiet (SrcSt saps1 (ss_uid (rs_src w)) (ss_rng (rs_src w)) (usr c1)) st2 ->
  add_from_sources fl u step time negE st2 = Ok st3 ->
  exists pop3, StoresAll (u_L u) (ss_saps st3) pop3 /\
    forall sn, pop3 sn = [] -> pop sn = [] -> NeverPushed (u_L u) (ss_saps (rs_src w) sn) -> NeverPushed (u_L u) (ss_saps st3 sn).
Proof using HL.
  intros Hnd Hciv HH E1 H2 E3. destruct (advance_holds fl u (u_L u) HL _ _ _ _ Hnd Hciv _ _ _ _ _ HH E1) as (ft & A1 & _ & _ & A4).
  pose proof (quiet_holds _ _ _ H2 A1) as A2.
  assert (HN2 : forall sn, pop sn = [] -> NeverPushed (u_L u) (ss_saps (rs_src w) sn) -> NeverPushed (u_L u) (ss_saps st2 sn)).
  { intros sn Hnil HN. assert (HC : Counted (u_L u) (ss_saps st2 sn) []); [|by apply HC]. eapply quiet_counted; [exact H2|]. cbn [ss_saps].
    rewrite (A4 sn Hnil). destruct (HH sn) as [HR HS]. rewrite Hnil in HS. by split. }
  unfold add_from_sources in E3. destruct (u_sources u) as [l|].
  - destruct (sources_hold fl u (u_L u) HL _ _ _ l st2 _ _ A2 E3) as (nw & B1 & _ & _ & B4 & _). eexists. split; [exact B1|].
    intros sn Hn Hp HN. apply app_eq_nil in Hn as [_ Hn]. rewrite (B4 sn Hn). by apply HN2.
  - injection E3 as <-. eexists. split; [exact A2|]. intros sn _. by apply HN2.
Qed.

(** ** The output file *)

(** A group of the file, with the particles [xs]. *)
Definition snapshot (num : Z) (time : R) (xs : string -> list particle) : group :=
  Group num time (map (fun pA => (pA, dataset (u_names u) (u_sindex u) (u_column u) xs pA)) (u_atts u)).
(** The steps of the groups: 0 if there are initial particles, and the steps at which output is due. *)
Definition loop_groups (ini : option (list initial)) (n : nat) : list nat :=
  (if ini then [0%nat] else []) ++ List.filter (fun k => out_due (Z.of_nat k)) (seq 1 n).
(** And the last step, if it is not among them. *)
Definition all_groups (ini : option (list initial)) (n : nat) : list nat :=
  loop_groups ini n ++ if bool_decide (list.last (loop_groups ini n) = Some n) then [] else [n].

Section File.
Context (Hfl : Rounding fl) (Hatts : NoDup (u_atts u)) (Hw : forall pA, pA ∈ u_atts u -> writable (u_column u) pA).

Lemma write_file close step time st o st' o' xs : StoresAll (u_L u) (ss_saps st) xs ->
  (Z.of_nat (population (u_names u) xs) < 2 ^ 53)%Z -> OutOk o -> o_open o = true ->
  write_snapshot fl u close step time (st, o) = Ok (st', o') -> OutOk o' /\
  if (step =? o_last o)%Z then o_file o' = o_file o /\ o_last o' = o_last o /\ o_counter o' = o_counter o /\ o_open o' = true
  else o_file o' = o_file o ++ [snapshot (o_counter o) time xs] /\ o_last o' = step /\ o_counter o' = (o_counter o + 1)%Z /\ o_open o' = negb close.
Proof using All.
  intros HH Hpop HO Hop E. unfold write_snapshot in E. set (o1 := OutSt (ss_saps st) _ _ _ _ _ _) in E.
  destruct (Z.eqb_spec step (o_last o)) as [He|Hne].
  - unfold write_particles in E. replace (step =? o_last o1)%Z with true in E by (cbn; lia). injection E as <- <-. done.
  - destruct (C24_dump_contents fl (u_L u) (u_names u) (u_sindex u) (u_column u) xs (u_atts u) step time close o1) as (o2 & E2 & F & _ & Hl & Hc & Ho & _ & HO2); try done.
    { intros sn _. apply HH. }
    rewrite E2 in E. injection E as <- <-. done.
Qed.

Definition FileAt (ws : nat -> runst) (pop : nat -> string -> list particle) (l : list nat) (o : outst particle) : Prop :=
  OutOk o /\ o_file o = imap (fun i k => snapshot (Z.of_nat i) (rs_time (ws k)) (pop k)) l /\
  o_counter o = Z.of_nat (length l) /\ o_last o = default (-1)%Z (Z.of_nat <$> list.last l).
Lemma file_more ws pop l o o' k : FileAt ws pop l o -> OutOk o' ->
  o_file o' = o_file o ++ [snapshot (o_counter o) (rs_time (ws k)) (pop k)] -> o_last o' = Z.of_nat k -> o_counter o' = (o_counter o + 1)%Z ->
  FileAt ws pop (l ++ [k]) o'.
Proof using.
  intros (_ & F1 & F2 & F3) HO G1 G2 G3. split; [exact HO|]. split; [|split].
  - rewrite G1, F1, F2, imap_app. cbn. by rewrite Nat.add_0_r.
  - rewrite G3, F2, app_length. cbn. lia.
  - by rewrite last_snoc, G2.
Qed.

(** The output file holds one group per step of [all_groups], numbered from 0, with the time of that step and for every attribute
    the values of all particles that are stored at the end of that step, species after species.  It is closed at the end, unless the
    last group was written in the loop (C43). *)
Theorem C50_file ini n w w' saps0 ws pop fate new : NoDup (u_charged u) -> (forall sn, Civil (u_bcs u sn)) ->
  Main true ini n w w' ws pop fate new -> rs_count w = 0%Z -> (forall sn, ss_saps (rs_src w) sn = sap_init (u_L u)) ->
  rs_out w = out_init (u_L u) (u_names u) saps0 ->
  (forall k, (k <= n)%nat -> (Z.of_nat (population (u_names u) (pop k)) < 2 ^ 53)%Z) ->
  o_file (rs_out w') = imap (fun i k => snapshot (Z.of_nat i) (rs_time (ws k)) (pop k)) (all_groups ini n) /\
  (o_open (rs_out w') = true <-> list.last (loop_groups ini n) = Some n).
Proof using All.
  intros Hnd Hciv [M1 M2 M3 _] Hc0 H0 Hout Hpop.
  pose proof (l_step _ _ _ _ _ _ _ _ _ _ _ _ M2) as Hst. pose proof (l_holds _ _ _ _ _ _ _ _ _ _ _ _ M2) as HH.
  assert (Hcount : forall k, (k <= n)%nat -> rs_count (ws k) = Z.of_nat k).
  { destruct (init_phases _ _ _ _ M1) as (? & ? & ? & _ & _ & _ & _ & Hc & _). intros [|k] Hk; [rewrite Hc; exact Hc0|].
    destruct (Hst k Hk) as [_ ->]. rewrite Hc, Hc0. lia. }
  assert (Hle : forall k j, list.last (loop_groups ini k) = Some j -> (j <= k)%nat).
  { intros k j Hj. apply last_Some_elem_of, elem_of_app in Hj as [Hj|Hj].
    - destruct ini; [apply elem_of_list_singleton in Hj as ->; lia|by apply elem_of_nil in Hj].
    - apply elem_of_list_In, filter_In in Hj as [Hj _]. apply in_seq in Hj. lia. }
  assert (HI : forall k, (k <= n)%nat -> FileAt ws pop (loop_groups ini k) (rs_out (ws k)) /\ o_open (rs_out (ws k)) = true).
  { induction k as [|k IH]; intros Hk.
    - destruct (init_phases _ _ _ _ M1) as (st1 & st2 & st3 & E1 & E2 & H3 & E4 & Hc & Ht). cbv zeta in E2.
      assert (HF0 : FileAt ws pop [] (open_file (rs_out w)) /\ o_open (open_file (rs_out w)) = true).
      { rewrite Hout. split; [|reflexivity]. split; [|done]. split; cbn; [rewrite replicate_length; nia|]. by intros g ?%elem_of_nil. }
      destruct HF0 as [HF0 Hop0]. unfold loop_groups. cbn [seq List.filter]. rewrite app_nil_r. destruct ini as [l|].
      + assert (HH1 : StoresAll (u_L u) (ss_saps st1) (pop 0%nat)).
        { assert (HH1 : StoresAll (u_L u) (ss_saps st1) (initial_of (Some l))).
          { intros sn. destruct (initial_counted l (rs_src w) st1 (fun _ => [])) with (s := sn) as (A1 & A2 & _); [|exact E1|by split].
            intros s. rewrite H0. exact fresh_counted. }
          eapply stores_ext; [|exact HH1]. eapply quiet_same; [|exact HH1|by apply HH].
          eapply quiet_trans; [by eapply write_quiet|]. eapply quiet_trans; [exact H3|]. by eapply history_quiet. }
        rewrite <- Ht in E2. destruct (write_file _ _ _ _ _ _ _ _ HH1 (Hpop 0%nat Hk) (proj1 HF0) Hop0 E2) as (HO & Hif).
        assert (Hlast : o_last (open_file (rs_out w)) = (-1)%Z) by (rewrite Hout; reflexivity).
        rewrite Hc0, Hlast in Hif. change (0 =? -1)%Z with false in Hif. cbv iota in Hif. destruct Hif as (G1 & G2 & G3 & G4).
        split; [|exact G4]. apply (file_more ws pop [] _ _ 0 HF0 HO G1 G2 G3).
      + destruct E2 as [_ ->]. by split.
    - destruct (IH ltac:(lia)) as [HF Hop]. destruct (Hst k Hk) as [E _].
      destruct (step_phases _ _ E) as (saps1 & c1 & st2 & st3 & st4 & st5 & A1 & A2 & A3 & A4 & A5 & A6 & A7 & A8).
      assert (Hs : (rs_count (ws k) + 1)%Z = Z.of_nat (S k)) by (rewrite Hcount by lia; lia). rewrite Hs in A4.
      unfold loop_groups. rewrite seq_S, List.filter_app, app_assoc. change (1 + k)%nat with (S k). cbn [List.filter].
      fold (loop_groups ini k). destruct (out_due (Z.of_nat (S k))).
      + destruct (middle_holds _ _ _ _ _ _ _ _ _ Hnd Hciv (HH k ltac:(lia)) A1 A2 A3) as (pop3 & B1 & _).
        assert (HH3 : StoresAll (u_L u) (ss_saps st3) (pop (S k))).
        { eapply stores_ext; [|exact B1]. eapply quiet_same; [|exact B1|by apply HH].
          eapply quiet_trans; [by eapply write_quiet|]. eapply quiet_trans; [exact A5|].
          destruct (rs_hist (ws k)); [|destruct A6 as [-> _]; constructor]. destruct (hist_due _); [by eapply history_quiet|destruct A6 as [-> _]; constructor]. }
        rewrite <- A8 in A4. destruct (write_file _ _ _ _ _ _ _ _ HH3 (Hpop (S k) Hk) (proj1 HF) Hop A4) as (HO & Hif).
        replace (Z.of_nat (S k) =? o_last (rs_out (ws k)))%Z with false in Hif.
        * destruct Hif as (G1 & G2 & G3 & G4). split; [|exact G4]. by eapply file_more.
        * destruct HF as (_ & _ & _ & ->). destruct (list.last (loop_groups ini k)) as [j|] eqn:Ej; cbn; [apply Hle in Ej; lia|lia].
      + rewrite app_nil_r. destruct A4 as [_ ->]. by split. }
  destruct (HI n (le_n n)) as [HF Hop]. destruct (end_phases _ _ _ M3) as (st1 & E1 & _). rewrite (Hcount n (le_n n)) in E1.
  destruct (write_file _ _ _ _ _ _ _ _ (HH n (le_n n)) (Hpop n (le_n n)) (proj1 HF) Hop E1) as (HO & Hif).
  unfold all_groups. destruct HF as (F1 & F2 & F3 & F4). rewrite F4 in Hif. case_bool_decide as Hb.
  - rewrite Hb in Hif. cbn [fmap option_fmap option_map default] in Hif. rewrite Z.eqb_refl in Hif. destruct Hif as (G1 & _ & _ & G4).
    rewrite app_nil_r, G1, F2. done.
  - replace (Z.of_nat n =? _)%Z with false in Hif.
    + destruct Hif as (G1 & G2 & G3 & G4). split; [|rewrite G4; split; [discriminate|done]].
      assert (HF' : FileAt ws pop (loop_groups ini n ++ [n]) (rs_out w')) by (apply (file_more ws pop (loop_groups ini n) (rs_out (ws n)) _ n); try assumption; split; [exact F1|]; split; [exact F2|]; split; [exact F3|exact F4]). apply HF'.
    + destruct (list.last (loop_groups ini n)) as [j|] eqn:Ej; cbn; [|lia]. assert (j <> n) by congruence. lia.
Qed.
End File.

(** ** The trajectories *)

(** The trajectories [T'] come after [T]: they were changed by calls of the recording functions only (C22), and the entries of
    before are still there, in the same places and for the same particles. *)
Definition Later (T T' : traj) : Prop :=
  rtc (revent fl) T T' /\ forall sn, map e_uid (t_sp T sn) `prefix_of` map e_uid (t_sp T' sn).
Lemma later_refl T : Later T T.
Proof using. split; [apply rtc_refl|done]. Qed.
Lemma later_trans T1 T2 T3 : Later T1 T2 -> Later T2 T3 -> Later T1 T3.
Proof using. intros [A1 A2] [B1 B2]. split; [exact (rtc_transitive _ _ _ A1 B1)|]. intros sn. etransitivity; [apply A2|apply B2]. Qed.

(** Every entry of every species follows its particle ([Follows] of C21). *)
Definition Traced (saps : string -> sap particle) (T : traj) (xs : string -> list particle) : Prop :=
  forall sn, Follows sn (u_L u) (saps sn, TCtx [] (Some T)) T (xs sn).
Lemma follows_same sn s c c' T T' xs : t_sp T' sn = t_sp T sn -> usr c' = Some T' ->
  Follows sn (u_L u) (s, c) T xs -> Follows sn (u_L u) (s, c') T' xs.
Proof using. intros Hs Hu [H1 H2 _ H4 H5]. split; [exact H1|exact H2|exact Hu| |]; rewrite Hs; [exact H4|exact H5]. Qed.
Lemma traced_stores saps T xs : Traced saps T xs -> StoresAll (u_L u) saps xs.
Proof using. intros H sn. destruct (H sn) as [H1 H2 _ _ _]. by split. Qed.

Lemma advance_traced step time negE sns : (forall sn, Civil (u_bcs u sn)) -> forall saps c saps' c' T xs, usr c = Some T ->
  Traced saps T xs -> advance_species fl u step time negE sns saps c = Ok (saps', c') ->
  exists T' xs', usr c' = Some T' /\ Traced saps' T' xs' /\ Later T T'.
Proof using HL.
  intros Hciv. induction sns as [|sn sns IH]; intros saps c saps' c' T xs HT HF E; cbn [advance_species] in E.
  - injection E as <- <-. exists T, xs. split; [exact HT|]. split; [exact HF|apply later_refl].
  - destruct (guarded_mover _ _ _ _) as [[s1 c1]|] eqn:E1; [|discriminate].
    assert (Hm := mo_charged fl sn step time (u_dt u) (u_qom u sn) (u_maxc u) (u_mesh u) (u_bcs u sn) (u_dE u) (Some negE) (u_Eext u step) (u_solved u sn) (u_ext u sn) false (Hciv sn)).
    destruct (HF sn) as [H1 H2 _ H4 H5]. cbn [fst] in H1, H2.
    destruct (C21_pass_reindexes _ _ _ _ _ _ _ _ _ _ HL H1 H2 Hm HT H4 E1) as (ft & T1 & _ & _ & _ & A4 & _ & A6 & _ & A8).
    destruct (C21_trajectories_follow fl sn (u_L u) (saps sn, c) (s1, c1) T (xs sn) HL) as (T2 & xs2 & HF2 & _); [by split|by eapply ts_pass|].
    assert (T2 = T1) as ->. { pose proof (fo_traj _ _ _ _ _ HF2) as H6. cbn [snd] in H6. congruence. }
    assert (HL1 : Later T T1).
    { split.
      - match type of E1 with guarded_mover _ ?hk _ _ = _ => pose proof (C04_pass_is_sequential (u_L u) (saps sn) (xs sn) hk c HL H1 H2) as Hq end.
        destruct (seq_pass _ 0 [] false c (xs sn)) as [[ys c2]|e] eqn:Ep; [|congruence]. destruct Hq as (s2 & E2 & _). rewrite E1 in E2. injection E2 as <- <-.
        destruct (pass_events_gen fl sn _ Hm _ _ _ _ _ _ _ T HT Ep) as (T3 & HT3 & Hr). assert (T3 = T1) as -> by congruence. exact Hr.
      - intros s. destruct (String.eqb_spec s sn) as [->|Hne]; [by rewrite A6|by rewrite (A8 s Hne)]. }
    destruct (IH (set_key saps sn s1) c1 saps' c' T1 (fun s => if String.eqb s sn then xs2 else xs s) A4) as (T' & xs' & B1 & B2 & B3); [|exact E|].
    + intros s. unfold set_key. destruct (String.eqb_spec s sn) as [->|Hne].
      * eapply follows_same; [reflexivity|reflexivity|exact HF2].
      * eapply follows_same; [by apply A8|reflexivity|apply HF].
    + exists T', xs'. split; [exact B1|]. split; [exact B2|by eapply later_trans].
Qed.

(** New particles, one after the other. *)
Inductive Added : srcst -> srcst -> Prop :=
| ad_done st : Added st st
| ad_more first sn step time E Ex p st s1 T1 uid rng st' :
    add_particle first sn step time E Ex (ss_saps st sn) (ss_traj st) p = Ok (s1, T1) ->
    Added (SrcSt (set_key (ss_saps st) sn s1) uid rng T1) st' -> Added st st'.
Lemma added_trans a b c : Added a b -> Added b c -> Added a c.
Proof using. induction 1; intros Hc; [exact Hc|eapply ad_more; eauto]. Qed.
Lemma list_added sn ps : forall st st', create_from_list sn ps st = Ok st' -> Added st st'.
Proof using.
  induction ps as [|p ps IH]; intros st st' E; cbn [create_from_list] in E; [injection E as <-; constructor|].
  destruct (add_particle _ _ _ _ _ _ _ _ _) as [[s1 T1]|] eqn:Ea; [|discriminate]. eapply ad_more; [exact Ea|by apply IH].
Qed.
Lemma initial_added l : forall st st',
  initialize_particles fl (u_names u) (u_spherical u) (u_pdim u) (u_pi4 u) (u_rnd u) (u_fuel u) (u_dE u) ANone l st = Ok st' -> Added st st'.
Proof using.
  induction l as [|[sn ps|q r|] l IH]; intros st st' E; cbn [initialize_particles] in E; [injection E as <-; constructor| |discriminate E..].
  destruct (negb _); [discriminate|]. destruct (create_from_list sn ps st) as [st1|] eqn:E1; [|discriminate].
  eapply added_trans; [by eapply list_added|by apply IH].
Qed.
Lemma source_added step time negE dom q st st' :
  create_maxwellian fl (u_names u) (u_spherical u) (u_pdim u) (u_pi4 u) (u_rnd u) (u_fuel u) (u_dE u) (Some negE) None step time dom q st = Ok st' -> Added st st'.
Proof using.
  unfold create_maxwellian. destruct (negb _); [discriminate|]. destruct (weight_mult _ _ _ _) as [mult|]; [|discriminate].
  generalize (Z.to_nat (s_percell q)) as m. intros m.
  assert (H1 : forall c ips st st', new_particles fl (u_pdim u) (u_rnd u) (u_fuel u) (u_dE u) (Some negE) None (s_species q) step time (r_gdim dom) (s_drift q)
    c (fl (c_vol c * mult)) ips st = Ok st' -> Added st st').
  { intros c ips. induction ips as [|ip ips IH]; intros s0 s1 E; cbn [new_particles] in E; [injection E as <-; constructor|].
    destruct (new_particle _ _ _ _ _ _ _ _ _ _ _ _ _ _ _ _) as [s2|] eqn:E2; [|discriminate]. eapply added_trans; [|by eapply IH].
    unfold new_particle in E2. destruct (match ip with O => _ | S _ => _ end) as [[x k]|]; [|discriminate].
    destruct (negb _); [discriminate|]. destruct (add_particle _ _ _ _ _ _ _ _ _) as [[s3 T3]|] eqn:Ea; [|discriminate]. injection E2 as <-.
    eapply ad_more; [exact Ea|constructor]. }
  revert st. induction (r_cells dom) as [|c cs IH]; intros st E; cbn [new_cells] in E; [injection E as <-; constructor|].
  destruct (new_particles _ _ _ _ _ _ _ _ _ _ _ _ _ _ _ _) as [s1|] eqn:E1; [|discriminate]. eapply added_trans; [by eapply H1|by apply IH].
Qed.
Lemma sources_added step time negE st st' : add_from_sources fl u step time negE st = Ok st' -> Added st st'.
Proof using.
  unfold add_from_sources. destruct (u_sources u) as [l|]; [|intros [= <-]; constructor].
  revert st. induction l as [|[dom q] l IH]; intros st E; cbn [source_list map add_more_particles fst snd] in E; [injection E as <-; constructor|].
  destruct (s_interval q =? 0)%Z; [discriminate|]. fold (source_list fl u negE l) in E. destruct (step mod s_interval q =? 0)%Z; [|by apply IH].
  destruct (create_maxwellian _ _ _ _ _ _ _ _ _ _ _ _ _ _ _) as [st1|] eqn:E1; [|discriminate].
  eapply added_trans; [by eapply source_added|by apply IH].
Qed.
Lemma add_events first sn step time E Ex s T p s1 T1 : add_particle first sn step time E Ex s (Some T) p = Ok (s1, T1) ->
  exists T', T1 = Some T' /\ rtc (revent fl) T T' /\ (forall s, s <> sn -> t_sp T' s = t_sp T s) /\ map e_uid (t_sp T sn) `prefix_of` map e_uid (t_sp T' sn).
Proof using.
  unfold add_particle. destruct (push_back s p) as [[s2 [sg full]]|]; [|discriminate].
  destruct (is_traj p); [|intros [= <- <-]; exists T; split; [reflexivity|]; split; [apply rtc_refl|done]].
  set (T2 := create_trajectory T sn full (puid p)).
  assert (H2 : rtc (revent fl) T T2 /\ (forall s, s <> sn -> t_sp T2 s = t_sp T s) /\ map e_uid (t_sp T sn) `prefix_of` map e_uid (t_sp T2 sn)).
  { split; [apply rtc_once; constructor|]. split; [intros t Ht; by apply set_sp_other|]. subst T2. unfold create_trajectory. rewrite set_sp_same, map_app. by eexists. }
  destruct H2 as (A1 & A2 & A3). destruct first; [|intros [= <- <-]; by exists T2].
  destruct (current_out_item _ _) as [[q|]|]; [|discriminate..]. destruct (record_datum _ _ _ _ _ _ _ _ _) as [T3|] eqn:Er; [|discriminate]. intros [= <- <-].
  pose proof (record_datum_frame _ _ _ _ _ _ _ _ _ _ Er) as (T4 & -> & (_ & _ & F3 & F4) & _). exists T4. split; [reflexivity|].
  split; [eapply rtc_r; [exact A1|by eapply re_datum]|]. split; [intros t Ht; rewrite F3 by exact Ht; by apply A2|]. by rewrite F4.
Qed.
Lemma added_traced st st' : Added st st' -> forall T xs, ss_traj st = Some T -> Traced (ss_saps st) T xs ->
  exists T' xs', ss_traj st' = Some T' /\ Traced (ss_saps st') T' xs' /\ Later T T'.
Proof using HL.
  induction 1 as [st|first sn step time E Ex p st s1 T1 uid rng st' Ea H IH]; intros T xs HT HF.
  - exists T, xs. split; [exact HT|]. split; [exact HF|apply later_refl].
  - rewrite HT in Ea. destruct (add_events _ _ _ _ _ _ _ _ _ _ _ Ea) as (T2 & -> & A1 & A2 & A3).
    destruct (C21_trajectories_follow fl sn (u_L u) (ss_saps st sn, TCtx [] (Some T)) (s1, TCtx [] (Some T2)) T (xs sn) HL (HF sn)) as (T3 & xs3 & HF3 & _).
    { apply (ts_add fl sn first step time E Ex p (ss_saps st sn) (TCtx [] (Some T)) s1 (Some T2)). exact Ea. }
    assert (T3 = T2) as ->. { pose proof (fo_traj _ _ _ _ _ HF3) as H6. cbn in H6. congruence. }
    destruct (IH T2 (fun s => if String.eqb s sn then xs3 else xs s) eq_refl) as (T' & xs' & B1 & B2 & B3).
    { cbn [ss_saps]. intros s. unfold set_key. destruct (String.eqb_spec s sn) as [->|Hne]; [exact HF3|].
      eapply follows_same; [by apply A2|reflexivity|apply HF]. }
    exists T', xs'. split; [exact B1|]. split; [exact B2|]. eapply later_trans; [|exact B3]. split; [exact A1|].
    intros s. destruct (String.eqb_spec s sn) as [->|Hne]; [exact A3|by rewrite (A2 s Hne)].
Qed.

Context (Hsp : NoDup (u_charged u ++ u_neutral u)).
Lemma quiet_traced st st' : Quiet st st' -> forall T xs, ss_traj st = Some T -> Traced (ss_saps st) T xs ->
  exists T', ss_traj st' = Some T' /\ Traced (ss_saps st') T' xs /\ Later T T'.
Proof using HL Hsp.
  induction 1 as [st|st saps st' Hl Hq IH|step time negE st st1 st' E Hq IH]; intros T xs HT HF.
  - exists T. split; [exact HT|]. split; [exact HF|apply later_refl].
  - destruct (IH T xs HT) as (T' & A); [|by exists T']. cbn [with_saps ss_saps]. pose proof (looped_holds _ HL _ _ _ Hl (traced_stores _ _ _ HF)) as HH.
    intros sn. destruct (HF sn) as [_ _ H3 H4 H5]. destruct (HH sn) as [H1 H2]. by split.
  - pose proof (sample_saps _ _ _ _ _ E) as Hs. unfold record_trajectories in E. rewrite HT in E.
    destruct (record_trajectory_data _ _ _ _ _ _ _ _ _ _) as [T1|] eqn:Er; [|discriminate]. injection E as <-. cbn [with_traj ss_saps ss_traj] in *.
    pose proof (record_data_keys _ _ _ _ _ _ _ _ _ _ _ Er) as Hk. destruct (IH T1 xs eq_refl) as (T' & A1 & A2 & A3).
    { intros sn. destruct (HF sn) as [H1 H2 H3 H4 H5]. destruct (Hk sn) as [Ki Ku]. split; [exact H1|exact H2|reflexivity|by rewrite Ki|].
      intros k e' q He Hne Hq2. destruct (map_keys_lookup T T1 sn k e' Ki Ku He) as (e & He2 & Hi & Hu).
      rewrite Hi in Hne, Hq2. rewrite Hu. by eapply H5. }
    exists T'. split; [exact A1|]. split; [exact A2|]. eapply later_trans; [|exact A3]. split; [apply rtc_once; by eapply re_data|].
    intros sn. destruct (Hk sn) as [_ Ku]. by rewrite Ku.
Qed.

(** The trajectories of a program: at the end of every step, and at the end of the program, every live entry leads to its own flagged
    particle, different entries to different particles, and every stored flagged particle has an entry. *)
Definition Leads (T : traj) (xs : string -> list particle) : Prop := forall sn,
  (forall k e, t_sp T sn !! k = Some e -> e_index e <> NO_PINDEX ->
     exists i p, e_index e = Z.of_nat i /\ xs sn !! i = Some p /\ puid p = e_uid e /\ is_traj p = true) /\
  (forall j k e e', t_sp T sn !! j = Some e -> t_sp T sn !! k = Some e' -> e_index e <> NO_PINDEX -> e_index e = e_index e' -> j = k) /\
  (forall i p, xs sn !! i = Some p -> is_traj p = true -> exists k e, t_sp T sn !! k = Some e /\ e_index e = Z.of_nat i /\ e_uid e = puid p).
Lemma traced_leads saps T xs : Traced saps T xs -> Leads T xs.
Proof using.
  intros H sn. destruct (H sn) as [_ _ _ (Hnd & Hlive & Hflag) HU]. split; [|split].
  - intros k e Hk He. destruct (Hlive (e_index e)) as (Hz & p & Hp & Ht); [|done|].
    { apply elem_of_list_fmap. exists e. split; [done|]. by eapply elem_of_list_lookup_2. }
    exists (Z.to_nat (e_index e)), p. split; [lia|]. split; [exact Hp|]. split; [by eapply HU|exact Ht].
  - intros j k e e' Hj Hk He Hee. eapply (Hnd j k (e_index e)); [..|done].
    + rewrite list_lookup_fmap, Hj. done.
    + rewrite list_lookup_fmap, Hk, Hee. done.
  - intros i p Hp Ht. pose proof (Hflag _ _ Hp Ht) as Hin. apply elem_of_list_fmap in Hin as (e & He & Hin). apply elem_of_list_lookup in Hin as [k Hk].
    exists k, e. split; [exact Hk|]. split; [by symmetry|]. symmetry. eapply (HU k e p Hk); [unfold NO_PINDEX; lia|]. rewrite <- He, Nat2Z.id. exact Hp.
Qed.
(** For a concrete run with trajectories see [C51_example] in HarmlessProps.v. *)
Theorem C50_trajectories file ini n w w' ws pop fate new T0 : (forall sn, Civil (u_bcs u sn)) ->
  Main file ini n w w' ws pop fate new -> (forall sn, ss_saps (rs_src w) sn = sap_init (u_L u)) ->
  ss_traj (rs_src w) = Some T0 -> (forall sn, t_sp T0 sn = []) -> (0 <= t_npoints T0)%Z ->
  exists (Ts : nat -> traj) T, (forall k, (k <= n)%nat -> ss_traj (rs_src (ws k)) = Some (Ts k) /\ Leads (Ts k) (pop k)) /\
    ss_traj (rs_src w') = Some T /\ Leads T (pop n) /\
    (* no trajectory is longer than its array, and every point that counts was written *)
    Sound T /\ t_npoints T = t_npoints T0 /\
    (* entries stay in their places, and recorded points stay as they are *)
    (forall k sn j e, (k <= n)%nat -> t_sp (Ts k) sn !! j = Some e ->
       exists e', t_sp T sn !! j = Some e' /\ e_uid e' = e_uid e /\ points e `prefix_of` points e').
Proof using HL Hsp.
  intros Hciv [M1 M2 M3 M4] H0 HT0 HE0 Hnp.
  pose proof (l_step _ _ _ _ _ _ _ _ _ _ _ _ M2) as Hst. pose proof (l_holds _ _ _ _ _ _ _ _ _ _ _ _ M2) as HH.
  assert (Hstart : Traced (ss_saps (rs_src w)) T0 (fun _ => [])).
  { intros sn. rewrite H0. split; cbn; [constructor| |done| |by rewrite HE0].
    - by destruct (C01_push_keeps_place (u_L u) (@nil particle) HL) as (s & [= <-] & Hst0).
    - rewrite HE0. split; [by intros a b i|]. split; [|done]. cbn. by intros i ?%elem_of_nil. }
  assert (HI : exists Ts, (forall k, (k <= n)%nat -> ss_traj (rs_src (ws k)) = Some (Ts k) /\ Traced (ss_saps (rs_src (ws k))) (Ts k) (pop k) /\ Later T0 (Ts k)) /\
     forall j k, (j <= k <= n)%nat -> Later (Ts j) (Ts k)).
  { assert (Hone : forall k, (k <= n)%nat -> forall T xs, ss_traj (rs_src (ws k)) = Some T -> Traced (ss_saps (rs_src (ws k))) T xs -> Traced (ss_saps (rs_src (ws k))) T (pop k)).
    { intros k Hk T xs HT HF sn. replace (pop k sn) with (xs sn); [apply HF|]. exact (stores_inj _ _ _ (proj2 (traced_stores _ _ _ HF sn)) (proj2 (HH k Hk sn))). }
    assert (Hinit : exists T xs, ss_traj (rs_src (ws 0%nat)) = Some T /\ Traced (ss_saps (rs_src (ws 0%nat))) T xs /\ Later T0 T).
    { destruct (init_phases _ _ _ _ M1) as (st1 & st2 & st3 & E1 & E2 & H3 & E4 & _).
      assert (HA : Added (rs_src w) st1) by (destruct ini; [by eapply initial_added|rewrite E1; constructor]).
      assert (HQ : Quiet st1 (rs_src (ws 0%nat))).
      { eapply quiet_trans; [|eapply quiet_trans; [exact H3|by eapply history_quiet]].
        destruct ini; [destruct file; [by eapply write_quiet|]|]; destruct E2 as [-> _]; constructor. }
      destruct (added_traced _ _ HA T0 _ HT0 Hstart) as (T1 & xs1 & A1 & A2 & A3).
      destruct (quiet_traced _ _ HQ T1 xs1 A1 A2) as (T2 & B1 & B2 & B3). exists T2, xs1. split; [exact B1|]. split; [exact B2|by eapply later_trans]. }
    assert (Hstep : forall k, (k < n)%nat -> forall T xs, ss_traj (rs_src (ws k)) = Some T -> Traced (ss_saps (rs_src (ws k))) T xs ->
      exists T' xs', ss_traj (rs_src (ws (S k))) = Some T' /\ Traced (ss_saps (rs_src (ws (S k)))) T' xs' /\ Later T T').
    { intros k Hk T xs HT HF. destruct (Hst k Hk) as [E _].
      destruct (step_phases _ _ E) as (saps1 & c1 & st2 & st3 & st4 & st5 & A1 & A2 & A3 & A4 & A5 & A6 & _).
      destruct (advance_traced _ _ _ _ Hciv _ (TCtx (rs_scr (ws k)) (ss_traj (rs_src (ws k)))) _ _ T xs HT HF A1) as (T1 & xs1 & B1 & B2 & B3).
      destruct (quiet_traced _ _ A2 T1 xs1 B1 B2) as (T2 & C1 & C2 & C3).
      destruct (added_traced _ _ (sources_added _ _ _ _ _ A3) T2 xs1 C1 C2) as (T3 & xs3 & D1 & D2 & D3).
      assert (HQ : Quiet st3 (rs_src (ws (S k)))).
      { eapply quiet_trans; [|eapply quiet_trans; [exact A5|]].
        - destruct (out_due _); [by eapply write_quiet|destruct A4 as [-> _]; constructor].
        - destruct (rs_hist (ws k)); [|destruct A6 as [-> _]; constructor]. destruct (hist_due _); [by eapply history_quiet|destruct A6 as [-> _]; constructor]. }
      destruct (quiet_traced _ _ HQ T3 xs3 D1 D2) as (T4 & F1 & F2 & F3). exists T4, xs3. split; [exact F1|]. split; [exact F2|].
      eapply later_trans; [exact B3|]. eapply later_trans; [exact C3|]. by eapply later_trans. }
    clear - Hinit Hstep Hone.
    exists (fun k => default T0 (ss_traj (rs_src (ws k)))).
    assert (HA : forall k, (k <= n)%nat -> exists T, ss_traj (rs_src (ws k)) = Some T /\ Traced (ss_saps (rs_src (ws k))) T (pop k) /\ Later T0 T /\
      forall j, (j <= k)%nat -> exists Tj, ss_traj (rs_src (ws j)) = Some Tj /\ Later Tj T).
    { induction k as [|k IH]; intros Hk.
      - destruct Hinit as (T & xs & A1 & A2 & A3). exists T. split; [exact A1|]. split; [by eapply Hone|]. split; [exact A3|].
        intros j Hj. assert (j = 0%nat) as -> by lia. exists T. split; [exact A1|apply later_refl].
      - destruct (IH ltac:(lia)) as (T & A1 & A2 & A3 & A4). destruct (Hstep k ltac:(lia) T _ A1 A2) as (T' & xs' & B1 & B2 & B3).
        exists T'. split; [exact B1|]. split; [by eapply Hone|]. split; [by eapply later_trans|]. intros j Hj.
        destruct (decide (j = S k)) as [->|Hne]; [exists T'; split; [exact B1|apply later_refl]|]. destruct (A4 j ltac:(lia)) as (Tj & C1 & C2).
        exists Tj. split; [exact C1|by eapply later_trans]. }
    split.
    - intros k Hk. destruct (HA k Hk) as (T & A1 & A2 & A3 & _). rewrite A1. done.
    - intros j k [Hj Hk]. destruct (HA k Hk) as (T & A1 & _ & _ & A4). destruct (A4 j Hj) as (Tj & B1 & B2). by rewrite A1, B1. }
  destruct HI as (Ts & HI & HJ). destruct (HI n (le_n n)) as (HTn & HFn & HLn).
  destruct (end_phases _ _ _ M3) as (st1 & E1 & H1 & _).
  assert (HQ : Quiet (rs_src (ws n)) (rs_src w')).
  { eapply quiet_trans; [|exact H1]. destruct file; [by eapply write_quiet|destruct E1 as [-> _]; constructor]. }
  destruct (quiet_traced _ _ HQ _ _ HTn HFn) as (T & B1 & B2 & B3). exists Ts, T.
  assert (HS0 : Sound T0). { split; [exact Hnp|]. intros sn e He. rewrite HE0 in He. by apply elem_of_nil in He. }
  split; [intros k Hk; destruct (HI k Hk) as (A1 & A2 & _); split; [exact A1|by eapply traced_leads]|]. split; [exact B1|]. split; [by eapply traced_leads|].
  destruct (later_trans _ _ _ HLn B3) as [Hr _]. destruct (C22_history fl T0 T HS0 Hr) as (C1 & C2 & _). split; [exact C1|]. split; [exact C2|].
  intros k sn j e Hk He. destruct (HI k Hk) as (_ & _ & [Hr0 _]). destruct (C22_history fl T0 (Ts k) HS0 Hr0) as (Sk & _).
  destruct (later_trans _ _ _ (HJ k n ltac:(lia)) B3) as [Hr1 Hu]. destruct (C22_history fl (Ts k) T Sk Hr1) as (_ & _ & Hp).
  destruct (Hp sn j e He) as (e' & He' & Hpre). exists e'. split; [exact He'|]. split; [|exact Hpre].
  assert (Hl : map e_uid (t_sp (Ts k) sn) !! j = Some (e_uid e)) by (rewrite list_lookup_fmap, He; reflexivity).
  destruct (Hu sn) as [l Hu']. pose proof (lookup_app_l_Some _ l _ _ Hl) as Hl'. rewrite <- Hu' in Hl'.
  rewrite list_lookup_fmap, He' in Hl'. injection Hl' as ->. reflexivity.
Qed.
End Main.

(** ** The history *)

Section Hist.
Context (u : setup) (HL : (1 <= u_L u)%Z).

Lemma hist_records step time st h st' h' xs c : Populated (u_nv u) (u_L u) (u_names u) (ss_saps st) xs ->
  (forall name, name ∈ u_hist_names u -> name = "count" \/ name = "KE")%string -> h_counter h = Z.of_nat c ->
  record_run_history exact exact u step time (st, Some h) = Ok (st', h') ->
  (c < length (h_rows h))%nat /\
  h' = Some (Hist (h_npoints h) (Z.of_nat (S c)) (<[c := Some (HRow step time (map (hcolumns (u_mass u) (u_names u) xs) (u_hist_names u)))]> (h_rows h))).
Proof using HL.
  intros HP Hn Hc E. unfold record_run_history, record_history in E. cbn [snd fst] in E. rewrite Hc in E.
  destruct (record_values_ok (u_junk u) (u_nv u) (u_mass u) (u_L u) (u_names u) HL xs (u_hist_names u) Hn (ss_saps st) HP) as (saps1 & Ev & _).
  destruct (decide (c < length (h_rows h))%nat) as [Hlt|Hge].
  - split; [exact Hlt|]. assert (Hset : forall x, py_set (h_rows h) (Z.of_nat c) x = Ok (<[c := x]> (h_rows h))).
    { intros x. unfold py_set, py_pos. replace ((0 <=? Z.of_nat c) && (Z.of_nat c <? Z.of_nat (length (h_rows h))))%Z with true by lia. by rewrite Nat2Z.id. }
    rewrite Hset, Ev in E. cbv beta iota in E. rewrite Hset in E. cbv beta iota in E. injection E as _ <-. unfold exact. do 2 f_equal. lia.
  - exfalso. unfold py_set at 1, py_pos at 1 in E. replace ((0 <=? Z.of_nat c) && (Z.of_nat c <? Z.of_nat (length (h_rows h))))%Z with false in E by lia.
    replace ((- Z.of_nat (length (h_rows h)) <=? Z.of_nat c) && (Z.of_nat c <? 0))%Z with false in E by lia. discriminate E.
Qed.

(** In exact arithmetic, if no species dies out: the history array has room for all samples, row [j] is that of step [j * skip], with its
    time and the columns (C25) of the particles that are stored at the end of that step, and the other rows are untouched. *)
Theorem C50_history file ini n w w' np skip ws pop fate new : NoDup (u_charged u) -> (forall sn, Civil (u_bcs u sn)) ->
  Main exact exact u file ini n w w' ws pop fate new -> rs_count w = 0%Z -> (forall sn, ss_saps (rs_src w) sn = sap_init (u_L u)) ->
  rs_hist w = Some (hist_new np) -> u_hist_skip u = Z.of_nat skip -> (1 <= skip)%nat ->
  (forall name, name ∈ u_hist_names u -> name = "count" \/ name = "KE")%string ->
  (forall k sn p, (k <= n)%nat -> sn ∈ u_names u -> p ∈ pop k sn -> length (pu p) = u_nv u) ->
  (forall j k sn, (j <= k <= n)%nat -> sn ∈ u_names u -> pop k sn = [] -> pop j sn = []) ->
  (n / skip < Z.to_nat np)%nat /\ exists h, rs_hist w' = Some h /\ h_counter h = Z.of_nat (S (n / skip)) /\
    h_rows h = map (fun j => Some (HRow (Z.of_nat (j * skip)) (rs_time (ws (j * skip)%nat))
                                     (map (hcolumns (u_mass u) (u_names u) (pop (j * skip)%nat)) (u_hist_names u)))) (seq 0 (S (n / skip)))
               ++ replicate (Z.to_nat np - S (n / skip)) None.
Proof using HL.
  intros Hnd Hciv [M1 M2 M3 _] Hc0 H0 Hh Hsk Hs1 Hnames Hnv Hnone.
  pose proof (l_step _ _ _ _ _ _ _ _ _ _ _ _ M2) as Hst. pose proof (l_holds _ _ _ _ _ _ _ _ _ _ _ _ M2) as HH.
  pose proof (l_start _ _ _ _ _ _ _ _ _ _ _ _ M2) as Hpop0.
  set (row j := Some (HRow (Z.of_nat (j * skip)) (rs_time (ws (j * skip)%nat)) (map (hcolumns (u_mass u) (u_names u) (pop (j * skip)%nat)) (u_hist_names u)))).
  destruct (init_phases _ _ _ _ _ _ _ M1) as (st1 & st2 & st3 & E1 & E2 & H3 & E4 & Hci & Hti).
  assert (Hcount : forall k, (k <= n)%nat -> rs_count (ws k) = Z.of_nat k).
  { intros [|k] Hk; [rewrite Hci; exact Hc0|]. destruct (Hst k Hk) as [_ ->]. rewrite Hci, Hc0. lia. }
  assert (Hins : forall c r, (c < Z.to_nat np)%nat -> <[c := r]> (map row (seq 0 c) ++ replicate (Z.to_nat np - c) None) =
    (map row (seq 0 c) ++ [r]) ++ replicate (Z.to_nat np - S c) None).
  { intros c r Hc. replace (Z.to_nat np - c)%nat with (S (Z.to_nat np - S c)) by lia. cbn [replicate].
    rewrite insert_app_r_alt by (rewrite map_length, seq_length; lia). rewrite map_length, seq_length, Nat.sub_diag. cbn. by rewrite <- app_assoc. }
  assert (HI : forall k, (k <= n)%nat -> (forall sn, sn ∈ u_names u -> Counted (u_L u) (ss_saps (rs_src (ws k)) sn) (pop k sn)) /\
    (k / skip < Z.to_nat np)%nat /\ exists h, rs_hist (ws k) = Some h /\ h_counter h = Z.of_nat (S (k / skip)) /\
      h_rows h = map row (seq 0 (S (k / skip))) ++ replicate (Z.to_nat np - S (k / skip)) None).
  { induction k as [|k IH]; intros Hk.
    - split; [intros sn _; rewrite Hpop0; by eapply init_counted|]. rewrite Nat.div_0_l by lia.
      assert (HC3 : forall sn, Counted (u_L u) (ss_saps st3 sn) (pop 0%nat sn)).
      { intros sn. rewrite Hpop0. assert (H1 : Counted (u_L u) (ss_saps st1 sn) (initial_of ini sn)).
        { destruct ini as [l|].
          - apply (initial_counted exact u HL l (rs_src w) st1 (fun _ => [])); [|exact E1]. intros s. rewrite H0. by apply fresh_counted.
          - rewrite E1, H0. by apply fresh_counted. }
        eapply (quiet_counted _ _ HL); [|exact H1]. eapply quiet_trans; [|exact H3].
        destruct ini; [destruct file; [by eapply write_quiet|]|]; destruct E2 as [-> _]; constructor. }
      rewrite Hh, Hc0 in E4. assert (HP : Populated (u_nv u) (u_L u) (u_names u) (ss_saps st3) (pop 0%nat)).
      { intros sn Hsn. split; [apply HC3|]. intros p Hp. by eapply (Hnv 0%nat sn). }
      destruct (hist_records _ _ _ (hist_new np) _ _ _ 0%nat HP Hnames eq_refl E4) as [Hr1 Hr2].
      cbn [hist_new h_rows] in Hr1. rewrite replicate_length in Hr1. split; [exact Hr1|]. eexists. split; [exact Hr2|]. split; [reflexivity|].
      cbn [h_rows hist_new h_npoints]. replace (replicate (Z.to_nat np) None) with (map row (seq 0 0) ++ replicate (Z.to_nat np - 0) None) by (cbn; f_equal; lia).
      rewrite Hins by exact Hr1. f_equal. cbn [seq map app]. unfold row at 1. cbn [Nat.mul]. by rewrite Hti.
    - destruct (IH ltac:(lia)) as (HCk & Hlt & h & Hhk & Hcnt & Hrows). destruct (Hst k Hk) as [E _].
      destruct (step_phases _ _ _ _ _ E) as (saps1 & c1 & s2 & s3 & s4 & s5 & A1 & A2 & A3 & A4 & A5 & A6 & A7 & A8).
      destruct (middle_holds exact u HL _ _ _ _ _ _ _ _ _ Hnd Hciv (HH k ltac:(lia)) A1 A2 A3) as (pop3 & B1 & B2).
      assert (HQ34 : Quiet exact u s3 s4) by (destruct (out_due _); [by eapply write_quiet|destruct A4 as [-> _]; constructor]).
      rewrite Hhk in A6. assert (HQ5 : Quiet exact u s5 (rs_src (ws (S k)))).
      { destruct (hist_due _ _); [by eapply history_quiet|destruct A6 as [-> _]; constructor]. }
      assert (Hp3 : forall sn, pop3 sn = pop (S k) sn).
      { eapply (quiet_same exact u HL); [|exact B1|by apply HH]. eapply quiet_trans; [exact HQ34|]. eapply quiet_trans; [exact A5|exact HQ5]. }
      assert (HC3 : forall sn, sn ∈ u_names u -> Counted (u_L u) (ss_saps s3 sn) (pop (S k) sn)).
      { intros sn Hsn. rewrite <- Hp3. destruct (B1 sn) as [HR HS]. split; [exact HR|]. split; [exact HS|]. intros Hnil.
        assert (Hk0 : pop k sn = []). { apply (Hnone k (S k) sn); [lia|exact Hsn|by rewrite <- Hp3]. }
        apply B2; [exact Hnil|exact Hk0|]. by apply HCk. }
      assert (HC5 : forall sn, sn ∈ u_names u -> Counted (u_L u) (ss_saps s5 sn) (pop (S k) sn)).
      { intros sn Hsn. eapply (quiet_counted _ _ HL); [|by apply HC3]. eapply quiet_trans; [exact HQ34|exact A5]. }
      split; [intros sn Hsn; eapply (quiet_counted _ _ HL); [exact HQ5|by apply HC5]|].
      assert (Hs : (rs_count (ws k) + 1)%Z = Z.of_nat (S k)) by (rewrite Hcount by lia; lia). rewrite Hs in A6. unfold hist_due in A6. rewrite Hsk in A6.
      replace (Z.of_nat (S k) mod Z.of_nat skip)%Z with (Z.of_nat (S k mod skip)) in A6 by (by rewrite Nat2Z.inj_mod).
      pose proof (Nat.div_mod (S k) skip ltac:(lia)) as D1. pose proof (Nat.div_mod k skip ltac:(lia)) as D2.
      pose proof (Nat.mod_upper_bound (S k) skip ltac:(lia)) as D3. pose proof (Nat.mod_upper_bound k skip ltac:(lia)) as D4.
      destruct (Z.eqb_spec (Z.of_nat (S k mod skip)) 0) as [Hm|Hm].
      + assert (Hd : (S k / skip = S (k / skip))%nat) by nia.
        assert (HP : Populated (u_nv u) (u_L u) (u_names u) (ss_saps s5) (pop (S k))).
        { intros sn Hsn. split; [by apply HC5|]. intros p Hp. by eapply (Hnv (S k) sn). }
        destruct (hist_records _ _ _ _ _ _ _ (S (k / skip)) HP Hnames Hcnt A6) as [Hr1 Hr2].
        rewrite Hrows, app_length, map_length, seq_length, replicate_length in Hr1. rewrite Hd. split; [lia|]. eexists. split; [exact Hr2|]. split; [reflexivity|].
        cbn [h_rows]. rewrite Hrows, Hins by lia. f_equal. rewrite (seq_S (S (k / skip))), map_app. cbn [map]. do 2 f_equal. unfold row.
        change (0 + S (k / skip))%nat with (S (k / skip)). assert (Hmul : (S (k / skip) * skip)%nat = S k) by nia. by rewrite Hmul, A8.
      + assert (Hd : (S k / skip = k / skip)%nat) by nia. rewrite Hd. split; [exact Hlt|]. destruct A6 as [_ ->]. by exists h. }
  destruct (HI n (le_n n)) as (_ & Hlt & h & Hhn & Hcnt & Hrows). split; [exact Hlt|].
  destruct (end_phases _ _ _ _ _ M3) as (st6 & _ & _ & Hh'). exists h. by rewrite Hh', Hhn.
Qed.
End Hist.

Print Assumptions C50_phases.
Print Assumptions C50_file.
Print Assumptions C50_trajectories.
Print Assumptions C50_history.
