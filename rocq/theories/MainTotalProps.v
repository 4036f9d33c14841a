(** C50, continued: on a line with absorbing ends the whole program succeeds. *)
From Coq Require Import String.
From stdpp Require Import strings numbers list list_numbers.
From Verif Require Import SapModel MoverModel SapProofs SapSpec SapRefine StorageProps.
From Verif Require Import Vec VecProofs Rounding BcModel TrackModel TrackGeomProofs TrajModel TrajProofs TrajProps DiagModel DiagProofs DumpProps SumProps HistoryProps.
From Verif Require Import AcceptProps DensityModel DensityProps SourceModel SourceProps UidProps LineMeshModel LineMeshProps RunModel RunProps RunTotalProps MainProps.
Local Open Scope R_scope.

Section Total.
Context (u : setup) (HL : (1 <= u_L u)%Z) (vs : list R) (mk : Z -> Z) (a b : R) (d : nat -> nat) (vl : nat -> R).
Context (HR : LineRun u vs mk a b d vl).

(** The user's particles are stored. *)
Lemma list_ok sn ps : forall st pop, ss_traj st = None -> (forall s, Counted (u_L u) (ss_saps st s) (pop s) /\ Accepts (ss_saps st s)) ->
  exists st', create_from_list sn ps st = Ok st' /\ ss_traj st' = None /\
    (forall s, Counted (u_L u) (ss_saps st' s) (pop s ++ if String.eqb sn s then ps else []) /\ Accepts (ss_saps st' s)).
Proof using HL.
  induction ps as [|p ps IH]; intros st pop HT HC; cbn [create_from_list].
  - exists st. split; [reflexivity|]. split; [exact HT|]. intros s. destruct (String.eqb sn s); rewrite app_nil_r; apply HC.
  - destruct (HC sn) as ((HR1 & HS1 & _) & HA). destruct (push_current _ HL (ss_saps st sn) (pop sn) p HR1 HS1 HA) as (s1 & Ep & A1 & A2 & A3 & _).
    unfold add_particle. rewrite HT, Ep. replace (if is_traj p then Ok (s1, None) else Ok (s1, None)) with (Ok (s1, @None traj)) by (by destruct (is_traj p)).
    destruct (IH (SrcSt (set_key (ss_saps st) sn s1) (ss_uid st) (ss_rng st) None) (fun s => pop s ++ if String.eqb sn s then [p] else [])) as (st' & E & HT' & HC'); [reflexivity| |].
    { cbn [ss_saps]. intros t. unfold set_key. rewrite String.eqb_sym. destruct (String.eqb_spec sn t) as [<-|Hne]; [|rewrite app_nil_r; apply HC].
      split; [|exact A3]. split; [exact A1|]. split; [exact A2|]. intros Hnil. by apply app_eq_nil in Hnil as [_ ?]. }
    exists st'. split; [exact E|]. split; [exact HT'|]. intros s. specialize (HC' s). cbv beta in HC'. rewrite <- app_assoc in HC'. by destruct (String.eqb sn s).
Qed.
Lemma initial_ok l : (forall e, e ∈ l -> exists sn ps, e = Listed sn ps /\ sn ∈ u_names u) ->
  forall st pop, ss_traj st = None -> (forall s, Counted (u_L u) (ss_saps st s) (pop s) /\ Accepts (ss_saps st s)) ->
  exists st', initialize_particles exact (u_names u) (u_spherical u) (u_pdim u) (u_pi4 u) (u_rnd u) (u_fuel u) (u_dE u) ANone l st = Ok st' /\ ss_traj st' = None /\
    (forall s, Counted (u_L u) (ss_saps st' s) (pop s ++ initial_of (Some l) s) /\ Accepts (ss_saps st' s)).
Proof using HL.
  induction l as [|e l IH]; intros Hl st pop HT HC.
  - exists st. split; [reflexivity|]. split; [exact HT|]. intros s. cbn. rewrite app_nil_r. apply HC.
  - destruct (Hl e ltac:(left)) as (sn & ps & -> & Hsn). cbn [initialize_particles].
    replace (existsb (String.eqb sn) (u_names u)) with true by (symmetry; apply existsb_exists; exists sn; split; [by apply elem_of_list_In|apply String.eqb_refl]).
    cbn [negb]. destruct (list_ok sn ps st pop HT HC) as (st1 & -> & HT1 & HC1). cbv beta iota.
    destruct (IH ltac:(intros e He; apply Hl; by right) st1 _ HT1 HC1) as (st' & E & HT' & HC'). exists st'. split; [exact E|]. split; [exact HT'|].
    intros s. specialize (HC' s). cbv beta in HC'. rewrite <- app_assoc in HC'. exact HC'.
Qed.

(** The initial state of the program: empty storage, no trajectories, nothing written, and a new history with [np] rows if any. *)
Record Start (np : option Z) (w : runst) : Prop := {
  s_count : rs_count w = 0%Z;
  s_empty : forall sn, ss_saps (rs_src w) sn = sap_init (u_L u);
  s_traj : ss_traj (rs_src w) = None;
  s_out : rs_out w = out_init (u_L u) (u_names u) (ss_saps (rs_src w));
  s_hist : rs_hist w = hist_new <$> np;
  s_field : forall p, length (rs_negE w p) = 1%nat
}.
Lemma never_population f g l : (forall sn : string, length (f sn : list particle) <= g sn)%nat -> (Z.of_nat (sum_list_with g l) < 2 ^ 53)%Z ->
  (Z.of_nat (population l f) < 2 ^ 53)%Z.
Proof using.
  intros H Hb. eapply Z.le_lt_trans; [|exact Hb]. apply inj_le. clear Hb. unfold population. induction l as [|sn l IH]; [reflexivity|].
  cbn [map list_sum foldr sum_list_with]. specialize (H sn). unfold list_sum in IH. lia.
Qed.
Lemma looped_fresh saps saps' (pop : string -> list particle) : Looped saps saps' ->
  (forall sn, Counted (u_L u) (saps sn) (pop sn) /\ (pop sn = [] -> Accepts (saps sn))) ->
  forall sn, Counted (u_L u) (saps' sn) (pop sn) /\ (pop sn = [] -> Accepts (saps' sn)).
Proof using HL HR.
  intros Hl H sn. destruct (H sn) as [HC HA]. split; [by eapply (looped_counted _ HL)|]. intros Hnil.
  destruct (looped_idle _ HL _ _ sn Hl) as [_ HA']; [by apply HC|by apply HA|exact HA'].
Qed.

Lemma start_fit st32 file ini np w : Start np w -> u_out_interval u = None /\ file = false \/ u_out_interval u <> None /\ file = true ->
  (forall e, e ∈ default [] ini -> exists sn ps, e = Listed sn ps /\ sn ∈ u_names u /\ Forall (OnLine vs) ps) ->
  (Z.of_nat (population (u_names u) (initial_of ini)) < 2 ^ 53)%Z -> (forall n, np = Some n -> (1 <= n)%Z) ->
  exists w1, initialization exact st32 u file ini w = Ok w1 /\ Fit u (u_L u) vs w1 (initial_of ini) /\ rs_count w1 = 0%Z /\
    match np, rs_hist w1 with
    | None, None => True
    | Some n, Some h => h_counter h = 1%Z /\ length (h_rows h) = Z.to_nat n
    | _, _ => False
    end.
Proof using HL HR.
  intros [S1 S2 S3 S4 S5 S6] Hfile Hini Hpop Hnp.
  assert (Hline : forall sn p, p ∈ initial_of ini sn -> OnLine vs p).
  { intros sn p Hp. unfold initial_of in Hp. apply elem_of_list_In, in_concat in Hp as (ps & Hps & Hp). apply in_map_iff in Hps as (e & He & Hin).
    apply elem_of_list_In in Hin. destruct (Hini e Hin) as (s & qs & -> & _ & Hq). destruct (String.eqb s sn); [|by subst ps]. subst ps.
    rewrite list.Forall_forall in Hq. apply Hq. by apply elem_of_list_In. }
  set (w1 := RunSt (rs_count w) (rs_time w) (rs_scr w) (rs_src w) (if file then open_file (rs_out w) else rs_out w) (rs_rho w) (rs_dofs w) (rs_cells w) (rs_negE w) (rs_hist w)).
  assert (HO1 : file = true -> OutOk (rs_out w1) /\ o_open (rs_out w1) = true).
  { intros ->. cbn [w1 rs_out]. rewrite S4. split; [|reflexivity]. split; cbn; [rewrite replicate_length; nia|]. by intros g ?%elem_of_nil. }
  assert (HI : exists w2, (match ini with None => Ok w1 | Some l => initial_particles exact u file l w1 end) = Ok w2 /\
    ss_traj (rs_src w2) = None /\ (forall sn, Counted (u_L u) (ss_saps (rs_src w2) sn) (initial_of ini sn) /\ (initial_of ini sn = [] -> Accepts (ss_saps (rs_src w2) sn))) /\
    (file = true -> OutOk (rs_out w2) /\ o_open (rs_out w2) = true) /\ (forall p, length (rs_negE w2 p) = 1%nat) /\ rs_count w2 = 0%Z /\ rs_hist w2 = rs_hist w).
  { destruct ini as [l|].
    - destruct (initial_ok l) with (st := rs_src w) (pop := fun _ : string => @nil particle) as (st1 & E1 & HT1 & HC1); [|exact S3| |].
      { intros e He. destruct (Hini e He) as (sn & ps & Heq & Hsn & _). by exists sn, ps. }
      { intros s. rewrite S2. split; [by apply fresh_counted|by apply C47_new_accepts]. }
      cbv beta in HC1. cbn [app] in HC1.
      assert (HH1 : StoresAll (u_L u) (ss_saps st1) (initial_of (Some l))) by (intros sn; destruct (HC1 sn) as ((A1 & A2 & _) & _); by split).
      set (write := if file then write_snapshot exact u false (rs_count w1) (rs_time w1) (st1, rs_out w1) else Ok (st1, rs_out w1)).
      assert (HW : exists st2 o2, write = Ok (st2, o2) /\ (exists saps, Looped (ss_saps st1) saps /\ st2 = with_saps st1 saps) /\ (file = true -> OutOk o2 /\ o_open o2 = true)).
      { subst write. destruct Hfile as [[Hn ->]|[Hn ->]].
        - exists st1, (rs_out w1). split; [reflexivity|]. split; [exists (ss_saps st1); split; [constructor|by destruct st1]|discriminate].
        - destruct (u_out_interval u) as [k|] eqn:Ek; [|done]. destruct (HO1 eq_refl) as [HO Hop].
          destruct (snapshot_ok u _ HL _ _ _ _ _ _ HR k false (rs_count w1) (rs_time w1) st1 (rs_out w1) _ Ek HH1 eq_refl Hpop HO Hop) as (st2 & o2 & E2 & HO2 & Hop2).
          exists st2, o2. split; [exact E2|]. split; [by eapply write_looped|]. intros _. split; [exact HO2|by apply Hop2]. }
      destruct HW as (st2 & o2 & E2 & (saps2 & Hl2 & Est2) & HO2).
      assert (HC2 : forall sn, Counted (u_L u) (ss_saps st2 sn) (initial_of (Some l) sn) /\ (initial_of (Some l) sn = [] -> Accepts (ss_saps st2 sn))).
      { rewrite Est2. apply (looped_fresh _ _ _ Hl2). intros sn. destruct (HC1 sn) as [A1 A2]. by split. }
      assert (HH2 : StoresAll (u_L u) (ss_saps st2) (initial_of (Some l))) by (intros sn; destruct (HC2 sn) as ((A1 & A2 & _) & _); by split).
      destruct (densities_ok u _ HL _ _ _ _ _ _ HR st2 _ HH2 Hline) as (saps3 & rho & dofs & cells & E3 & Hrho).
      { intros sn Hnil. by apply HC2. }
      destruct (lr_solve _ _ _ _ _ _ _ HR rho Hrho) as (g & Eg & Hg).
      exists (RunSt (rs_count w1) (rs_time w1) (rs_scr w1) (with_saps st2 saps3) o2 rho dofs cells g (rs_hist w1)). split.
      + unfold initial_particles. change (rs_src w1) with (rs_src w). rewrite E1. cbv beta iota zeta. fold write. rewrite E2. cbv beta iota zeta.
        unfold record_trajectories. replace (ss_traj st2) with (@None traj) by (rewrite Est2; by symmetry). cbv beta iota. rewrite E3. cbv beta iota. rewrite Eg. reflexivity.
      + split; [cbn; rewrite Est2; exact HT1|]. split; [|split; [exact HO2|split; [exact Hg|split; [exact S1|reflexivity]]]].
        cbn [rs_src with_saps ss_saps]. eapply looped_fresh; [by eapply density_looped|exact HC2].
    - exists w1. split; [reflexivity|]. split; [exact S3|]. split; [|split; [exact HO1|split; [exact S6|split; [exact S1|reflexivity]]]].
      intros sn. cbn [w1 rs_src]. rewrite S2. split; [by apply fresh_counted|]. intros _. by apply C47_new_accepts. }
  destruct HI as (w2 & E2 & HT2 & HC2 & HO2 & HE2 & Hc2 & Hh2).
  assert (HH2 : StoresAll (u_L u) (ss_saps (rs_src w2)) (initial_of ini)) by (intros sn; destruct (HC2 sn) as ((A1 & A2 & _) & _); by split).
  assert (HN : exists st3 h3, record_run_history exact st32 u (rs_count w2) (rs_time w2) (rs_src w2, rs_hist w2) = Ok (st3, h3) /\
    match np, h3 with None, None => True | Some n, Some h => h_counter h = 1%Z /\ length (h_rows h) = Z.to_nat n | _, _ => False end).
  { rewrite Hh2, S5. destruct np as [n|]; cbn [fmap option_fmap option_map].
    - destruct (row_ok u _ HL _ _ _ _ _ _ HR st32 (rs_count w2) (rs_time w2) (rs_src w2) (hist_new n) _ HH2 Hline) as (st3 & h3 & E3 & Hc3 & Hl3).
      + intros sn Hnil. by apply HC2.
      + cbn. rewrite replicate_length. specialize (Hnp n eq_refl). lia.
      + exists st3, (Some h3). split; [exact E3|]. cbn in Hc3, Hl3. rewrite replicate_length in Hl3. by split.
    - exists (rs_src w2), None. done. }
  destruct HN as (st3 & h3 & E3 & Hh3). destruct (history_phase_looped _ _ _ _ _ _ _ _ _ E3) as (saps3 & Hl3 & Est3).
  exists (RunSt (rs_count w2) (rs_time w2) (rs_scr w2) st3 (rs_out w2) (rs_rho w2) (rs_dofs w2) (rs_cells w2) (rs_negE w2) h3).
  split; [unfold initialization; fold w1; rewrite E2; cbv beta iota; rewrite E3; reflexivity|]. split; [|split; [exact Hc2|exact Hh3]].
  pose proof (looped_fresh _ _ _ Hl3 HC2) as HC3. split; cbn [rs_src rs_out rs_hist rs_negE].
  - intros sn. rewrite Est3. destruct (HC3 sn) as ((A1 & A2 & _) & _). by split.
  - exact Hline.
  - intros sn Hnil. rewrite Est3. destruct (HC3 sn) as ((_ & _ & A3) & A4). split; [by apply A3|by apply A4].
  - rewrite Est3. exact HT2.
  - destruct Hfile as [[Hn _]|[_ Hf]]; [by left|right; by apply HO2].
  - destruct np, h3; try done. destruct Hh3 as [-> _]. lia.
  - exact HE2.
Qed.

(** The program succeeds if its initial particles are on the line, no charged species dies out on the way or is refused its new
    particles (see [Feedable]), there are never 2^53 particles, and the history has a row for every sample. *)
Theorem C50_completes st32 file ini n np w : Start np w -> u_out_interval u = None /\ file = false \/ u_out_interval u <> None /\ file = true ->
  (forall e, e ∈ default [] ini -> exists sn ps, e = Listed sn ps /\ sn ∈ u_names u /\ Forall (OnLine vs) ps) ->
  (0 < u_hist_skip u)%Z -> (forall m, np = Some m -> (Z.of_nat n / u_hist_skip u < m)%Z) ->
  (forall m w1 w2 pop, (m <= n)%nat -> initialization exact st32 u file ini w = Ok w1 -> time_loop exact st32 u m w1 = Ok w2 -> Fit u (u_L u) vs w2 pop ->
     (Z.of_nat (sum_list_with (fun sn => length (pop sn) + emitted u sn (rs_count w2 + 1))%nat (u_names u)) < 2 ^ 53)%Z /\
     ((m < n)%nat -> forall sn, sn ∈ u_charged u -> Feedable (u_L u) u a b w2 pop sn)) ->
  (Z.of_nat (population (u_names u) (initial_of ini)) < 2 ^ 53)%Z ->
  exists w', main_run exact st32 u file ini n w = Ok w'.
Proof using HL HR.
  intros HS Hfile Hini Hsk Hnp Hmeet Hpop.
  destruct (start_fit st32 file ini np w HS Hfile Hini Hpop) as (w1 & E1 & HF1 & Hc1 & Hh1).
  { intros m Hm. specialize (Hnp m Hm). pose proof (Z.div_pos (Z.of_nat n) (u_hist_skip u) ltac:(lia) Hsk). lia. }
  assert (HI : forall k, (k <= n)%nat -> exists w2 pop, time_loop exact st32 u k w1 = Ok w2 /\ Fit u (u_L u) vs w2 pop /\ rs_count w2 = Z.of_nat k /\
    match np, rs_hist w2 with
    | None, None => True
    | Some m, Some h => h_counter h = (1 + Z.of_nat k / u_hist_skip u)%Z /\ length (h_rows h) = Z.to_nat m
    | _, _ => False
    end).
  { induction k as [|k IH]; intros Hk.
    - exists w1, (initial_of ini). split; [reflexivity|]. split; [exact HF1|]. split; [exact Hc1|]. destruct np, (rs_hist w1); try done.
    - destruct (IH ltac:(lia)) as (w2 & pop & E2 & HF2 & Hc2 & Hh2). destruct (Hmeet k w1 w2 pop ltac:(lia) E1 E2 HF2) as [Hp2 Hf2].
      destruct (C40_progress u _ HL _ _ _ _ _ _ HR st32 w2 pop eq_refl HF2) as (w3 & pop3 & E3 & HF3 & _ & Hh3).
      { split; [by apply Hf2|]. split; [by destruct (u_out_interval u)|]. destruct (rs_hist w2) as [h|]; [|exact I]. destruct np as [m|]; [|done].
        destruct Hh2 as [Hcn ->]. rewrite Hcn, Hc2. intros Hm. specialize (Hnp m eq_refl).
        assert (Hd : (1 + Z.of_nat k / u_hist_skip u <= Z.of_nat n / u_hist_skip u)%Z).
        { transitivity ((Z.of_nat k + 1) / u_hist_skip u)%Z; [|apply Z.div_le_mono; lia]. Z.to_euclidean_division_equations; nia. }
        lia. }
      pose proof (step_parts _ _ _ _ _ E3) as (_ & _ & _ & _ & _ & _ & _ & _ & _ & _ & _ & _ & _ & _ & _ & _ & Hc3 & _).
      assert (Hc3' : rs_count w3 = Z.of_nat (S k)) by lia.
      exists w3, pop3. split; [|split; [exact HF3|split; [exact Hc3'|]]].
      + clear - E2 E3. revert w1 E2. induction k as [|k IH]; intros w1 E2; cbn [time_loop] in *.
        * injection E2 as ->. by rewrite E3.
        * destruct (time_step exact st32 u w1) as [x|]; [|discriminate]. by apply IH.
      + destruct np as [m|], (rs_hist w2) as [h|]; try done; destruct (rs_hist w3) as [h'|]; try done. destruct Hh3 as [-> ->], Hh2 as [-> ->]. split; [|reflexivity].
        rewrite Hc3'. destruct (Z.eqb_spec (Z.of_nat (S k) mod u_hist_skip u) 0); Z.to_euclidean_division_equations; nia. }
  destruct (HI n (le_n n)) as (w2 & pop & E2 & HF2 & Hc2 & _). destruct (Hmeet n w1 w2 pop (le_n n) E1 E2 HF2) as [Hp2 _].
  unfold main_run. rewrite E1. cbv beta iota. rewrite E2. cbv beta iota. unfold finish.
  assert (HW : exists st3 o3, (if file then write_snapshot exact u true (rs_count w2) (rs_time w2) (rs_src w2, rs_out w2) else Ok (rs_src w2, rs_out w2)) = Ok (st3, o3) /\ ss_traj st3 = None).
  { destruct Hfile as [[Hn ->]|[Hn ->]]; [by exists (rs_src w2), (rs_out w2); split; [|apply HF2]|].
    destruct (ft_out _ _ _ _ _ HF2) as [Hno|[HO Hop]]; [done|]. destruct (u_out_interval u) as [k|] eqn:Ek; [|done].
    destruct (snapshot_ok u _ HL _ _ _ _ _ _ HR k true (rs_count w2) (rs_time w2) (rs_src w2) (rs_out w2) pop Ek (ft_stored _ _ _ _ _ HF2) eq_refl) as (st3 & o3 & E3 & _); [|exact HO|exact Hop|].
    { eapply never_population; [|exact Hp2]. intros sn. cbv beta. lia. }
    exists st3, o3. split; [exact E3|]. destruct (write_looped _ _ _ _ _ _ _ _ _ E3) as (saps & _ & ->). apply HF2. }
  destruct HW as (st3 & o3 & -> & HT3). cbv beta iota. unfold record_trajectories. rewrite HT3. by eexists.
Qed.
End Total.

(** ** Example *)

(** The run of [C40_example] from the user's list of the particles [ea] and [eb]: output at every step of the attribute "x", and the
    histories "count" and "KE". *)
Definition main_column (pA : string) : option (akind * (particle -> val)) :=
  if String.eqb pA "x" then Some (AFloat, fun p => VF (nth 0 (px p) 0)) else None.
Definition main_setup (m : mesh) : setup :=
  Setup ["e"] ["e"] [] (fun _ => -1) (fun _ => -1) (fun _ => 1) 1 1 10 m (fun _ => eg_bcs) 1 (fun _ => None) (fun _ => None) (fun _ => Some true) (fun _ => Some true)
    false 1 1 (fun _ => [0]) 1 (Some [(eg_region, eg_params)]) 1 2 (Some 1%Z) ["x"%string] (fun _ => 0%Z) main_column ea 2 1 eg_vol 3 eg_D eg_C
    (fun _ => Ok (fun _ => [0])) 1 ["count"; "KE"]%string.
Definition main_start : runst :=
  RunSt 0 0 [0] (SrcSt (fun _ => sap_init 2) 3 0 None) (out_init 2 ["e"%string] (fun _ => sap_init 2)) [] (fun _ => []) (fun _ => []) (fun _ => [0]) (Some (hist_new 3)).
Definition main_initial : option (list initial) := Some [Listed "e" [ea; eb]].
Definition EgMain (m : mesh) : Prop :=
  LineRun (main_setup m) eg_vs eg_mk 0 2 (fun c => (1 - c)%nat) (fun c => if (c =? 0)%nat then 2 else 4).
Lemma eg_main : exists m, EgMain m.
Proof.
  destruct eg_LineRun as [m HR]. exists m. destruct HR as [H1 H2 H3 H4 H5 H6 H7 H8 H9 H10 H11 H12 H13 H14 H15 H16 H17 H18 H19 H20 H21 H22 H23 _ _ H26].
  split; try assumption.
  - split; [discriminate|]. split; [apply NoDup_singleton|]. intros pA Hp. apply elem_of_list_singleton in Hp as ->. right. by eexists _, _.
  - split; [discriminate|]. split; [reflexivity|]. intros name Hn. apply elem_of_cons in Hn as [->|Hn%elem_of_list_singleton]; [by left|by right].
Qed.
Lemma main_landing m step sn p x v : px p = [x] -> pu p = [v] ->
  new_velocity (main_setup m) step (fun _ => [0]) sn p = v /\ landing (main_setup m) step (fun _ => [0]) sn p = x + v.
Proof. exact (eg_landing m step sn p x v). Qed.
Lemma main_stays m step sn p x v : px p = [x] -> pu p = [v] ->
  (0 <= x + v <= 2 -> stays (main_setup m) 0 2 step (fun _ => [0]) sn p = true) /\
  (2 < x + v -> stays (main_setup m) 0 2 step (fun _ => [0]) sn p = false).
Proof. exact (eg_stays m step sn p x v). Qed.

(** Its two steps. *)
Lemma main_steps m w0 pop0 h : EgMain m -> Fit (main_setup m) 2 eg_vs w0 pop0 -> pop0 "e" = [ea; eb] -> rs_negE w0 = (fun _ => [0]) -> rs_count w0 = 0%Z ->
  rs_hist w0 = Some h -> h_counter h = 1%Z -> length (h_rows h) = 3%nat ->
  exists w1 w2 pop1 pop2 q1 q2 r1 r2 x,
    time_step exact exact (main_setup m) w0 = Ok w1 /\ Fit (main_setup m) 2 eg_vs w1 pop1 /\ pop1 "e" = [q1; q2] /\
    (px q1 = [3/2] /\ pu q1 = [1] /\ pw q1 = 1) /\ (px q2 = [1/2] /\ pu q2 = [0] /\ pw q2 = 1) /\
    Feedable 2 (main_setup m) 0 2 w0 pop0 "e" /\ Feedable 2 (main_setup m) 0 2 w1 pop1 "e" /\ rs_count w1 = 1%Z /\
    time_step exact exact (main_setup m) w1 = Ok w2 /\ Fit (main_setup m) 2 eg_vs w2 pop2 /\ pop2 "e" = [r1; r2] /\ rs_count w2 = 2%Z /\
    (px r1 = [1/2] /\ pu r1 = [0] /\ pw r1 = 1) /\ (px r2 = [x] /\ 1 <= x <= 2 /\ pu r2 = [0] /\ pw r2 = 4).
Proof.
  intros HR HF0 Ep0 HE0 Hc0 Hh0 Hn0 Hl0.
  assert (Hf0 : Feedable 2 (main_setup m) 0 2 w0 pop0 "e").
  { right. rewrite Ep0, HE0, Hc0. cbn [List.filter].
    rewrite (proj1 (main_stays m _ "e" ea (1/2) 1 eq_refl eq_refl)) by lra. rewrite (proj1 (main_stays m _ "e" eb (1/2) 0 eq_refl eq_refl)) by lra.
    split; [cbn; lia|]. left. reflexivity. }
  destruct (C40_progress _ 2 ltac:(lia) _ _ _ _ _ _ HR exact w0 _ eq_refl HF0) as (w1 & pop1 & E1 & HF1 & Hp1 & Hh1).
  { split; [|split].
    - intros sn Hsn. apply elem_of_list_singleton in Hsn as ->. exact Hf0.
    - cbn [main_setup u_out_interval u_names sum_list_with]. intros _. rewrite Ep0, Hc0. change (emitted (main_setup m) "e" (0 + 1)) with 0%nat. cbn [length]. lia.
    - rewrite Hh0. intros _. rewrite Hn0, Hl0. lia. }
  pose proof (step_parts _ _ _ _ _ E1) as (_ & _ & _ & _ & _ & _ & _ & _ & _ & _ & _ & _ & _ & Es1 & _ & _ & Hc1 & _).
  apply (eg_field m) in Es1. rewrite Hc0 in Hc1. change (0 + 1)%Z with 1%Z in Hc1. specialize (Hp1 "e"). rewrite bool_decide_eq_true_2 in Hp1 by left.
  rewrite Ep0, HE0 in Hp1. cbn [List.filter] in Hp1.
  rewrite (proj1 (main_stays m _ "e" ea (1/2) 1 eq_refl eq_refl)) in Hp1 by lra. rewrite (proj1 (main_stays m _ "e" eb (1/2) 0 eq_refl eq_refl)) in Hp1 by lra.
  destruct Hp1 as (mv & nw & Ep1 & HLd & Hn & _). rewrite Hc1 in Hn. change (emitted (main_setup m) "e" 1) with 0%nat in Hn.
  destruct nw; [|discriminate Hn]. clear Hn. rewrite app_nil_r in Ep1. subst mv.
  destruct (pop1 "e") as [|q1 [|q2 [|]]] eqn:Eq; [by inversion HLd|by inversion HLd as [|? ? ? ? ? H]; inversion H| |
    by inversion HLd as [|? ? ? ? ? H]; inversion H as [|? ? ? ? ? H']; inversion H'].
  inversion_clear HLd as [|? ? ? ? [A1 A2 A3 A4] HLd2]. inversion_clear HLd2 as [|? ? ? ? [B1 B2 B3 B4] _].
  destruct (main_landing m (rs_count w1) "e" ea (1/2) 1 eq_refl eq_refl) as [Va La]. destruct (main_landing m (rs_count w1) "e" eb (1/2) 0 eq_refl eq_refl) as [Vb Lb].
  rewrite La in A1. rewrite Lb in B1. rewrite Va in A2. rewrite Vb in B2.
  assert (Hf1 : Feedable 2 (main_setup m) 0 2 w1 pop1 "e").
  { right. rewrite Eq, Es1. cbn [List.filter].
    rewrite (proj2 (main_stays m _ "e" q1 _ _ A1 A2)) by lra. rewrite (proj1 (main_stays m _ "e" q2 _ _ B1 B2)) by lra.
    split; [cbn; lia|]. right. left. cbn. lia. }
  destruct (C40_progress _ 2 ltac:(lia) _ _ _ _ _ _ HR exact w1 pop1 eq_refl HF1) as (w2 & pop2 & E2 & HF2 & Hp2 & _).
  { split; [|split].
    - intros sn Hsn. apply elem_of_list_singleton in Hsn as ->. exact Hf1.
    - cbn [main_setup u_out_interval u_names sum_list_with]. intros _. rewrite Eq, Hc1. change (emitted (main_setup m) "e" (1 + 1)) with 1%nat. cbn [length]. lia.
    - rewrite Hh0 in Hh1. destruct (rs_hist w1) as [h1|]; [|done]. destruct Hh1 as [-> ->]. rewrite Hn0, Hl0, Hc1. change (1 mod u_hist_skip (main_setup m) =? 0)%Z with true. cbv iota. intros _. lia. }
  pose proof (step_parts _ _ _ _ _ E2) as (_ & _ & _ & _ & _ & _ & _ & _ & _ & _ & _ & _ & _ & _ & _ & _ & Hc2 & _).
  rewrite Hc1 in Hc2. change (1 + 1)%Z with 2%Z in Hc2. specialize (Hp2 "e"). rewrite bool_decide_eq_true_2 in Hp2 by left. rewrite Eq, Es1 in Hp2. cbn [List.filter] in Hp2.
  rewrite (proj2 (main_stays m _ "e" q1 _ _ A1 A2)) in Hp2 by lra. rewrite (proj1 (main_stays m _ "e" q2 _ _ B1 B2)) in Hp2 by lra.
  destruct Hp2 as (mv & nw & Ep2 & HLd & Hn & Hnew). rewrite Hc2 in Hn, Hnew. change (emitted (main_setup m) "e" 2) with 1%nat in Hn.
  destruct nw as [|r2 [|]]; try discriminate Hn. destruct mv as [|r1 [|]]; [by inversion HLd| |by inversion HLd as [|? ? ? ? ? H]; inversion H].
  inversion_clear HLd as [|? ? ? ? [D1 D2 D3 D4] _]. destruct (main_landing m (rs_count w2) "e" q2 _ _ B1 B2) as [Vq Lq]. rewrite Lq in D1. rewrite Vq in D2.
  rewrite list.Forall_cons in Hnew. destruct Hnew as [(dom & q & c & ip & uid & Hd & _ & Hc & HM) _].
  apply elem_of_list_singleton in Hd. injection Hd as -> ->. apply elem_of_list_singleton in Hc as ->.
  destruct (ft_line _ _ _ _ _ HF2 "e" r2) as (x2 & v & Hx & _ & Hh & _); [rewrite Ep2; apply elem_of_app; right; left|].
  rewrite (m_cell _ _ _ _ _ _ _ _ _ _ HM) in Hh. apply eg_cells in Hh as [[Hh _]|[_ Hx2]]; [cbv in Hh; discriminate|].
  exists w1, w2, pop1, pop2, q1, q2, r1, r2, x2. split; [exact E1|]. split; [exact HF1|]. split; [exact Eq|].
  split; [split; [rewrite A1; f_equal; lra|by split]|]. split; [split; [rewrite B1; f_equal; lra|by split]|]. split; [exact Hf0|]. split; [exact Hf1|]. split; [exact Hc1|].
  split; [exact E2|]. split; [exact HF2|]. split; [exact Ep2|]. split; [exact Hc2|]. split; [split; [rewrite D1; f_equal; lra|split; [exact D2|rewrite D3; exact B3]]|].
  split; [exact Hx|]. split; [exact Hx2|]. split.
  - destruct (m_velocity _ _ _ _ _ _ _ _ _ _ HM) as [k ->]. cbn. apply (f_equal (fun x => [x])). unfold exact. lra.
  - rewrite (m_weight _ _ _ _ _ _ _ _ _ _ HM). unfold source_weight. cbn. unfold exact. lra.
Qed.

(** The program runs for two steps.  Its file has three groups, for the steps 0, 1 and 2, and is still open at the end, because the
    last snapshot was written in the loop; its history has three rows, with the numbers of physical particles 2, 2 and 1 + 4. *)
Example C50_example : exists m w' x, 1 <= x <= 2 /\
  main_run exact exact (main_setup m) true main_initial 2 main_start = Ok w' /\
  o_file (rs_out w') = [Group 0 0 [("x"%string, [Some (VF (1/2)); Some (VF (1/2))])]; Group 1 1 [("x"%string, [Some (VF (3/2)); Some (VF (1/2))])];
                        Group 2 2 [("x"%string, [Some (VF (1/2)); Some (VF x)])]] /\
  o_open (rs_out w') = true /\
  exists h, rs_hist w' = Some h /\
    h_rows h = [Some (HRow 0 0 [(2, [(2, 1)]); (1/2, [(1/2, 1/4)])]); Some (HRow 1 1 [(2, [(2, 1)]); (1/2, [(1/2, 1/4)])]);
                Some (HRow 2 2 [(2, [(2, 2/5)]); (0, [(0, 0)])])].
Proof.
  destruct eg_main as [m HR]. exists m. set (u := main_setup m).
  assert (HL : (1 <= u_L u)%Z) by (cbn; lia).
  assert (HS : Start u (Some 3%Z) main_start) by (split; reflexivity).
  assert (Hini : forall e, e ∈ default [] main_initial -> exists sn ps, e = Listed sn ps /\ sn ∈ u_names u /\ Forall (OnLine eg_vs) ps).
  { intros e He. apply elem_of_list_singleton in He as ->. eexists _, _. split; [reflexivity|]. split; [left|]. rewrite list.Forall_forall. intros p Hp.
    apply (ft_line _ _ _ _ _ (eg_fit m 2 0 [ea; eb] ltac:(lia) ltac:(by left)) "e" p Hp). }
  assert (Hpop0 : (Z.of_nat (population (u_names u) (initial_of main_initial)) < 2 ^ 53)%Z) by (change (population _ _) with 2%nat; lia).
  assert (Hfile : u_out_interval u = None /\ true = false \/ u_out_interval u <> None /\ true = true) by (right; done).
  destruct (start_fit u HL _ _ _ _ _ _ HR exact true main_initial (Some 3%Z) main_start HS Hfile Hini Hpop0) as (w0 & E0 & HF0 & Hc0 & Hh0); [intros k [= <-]; lia|].
  destruct (rs_hist w0) as [h0|] eqn:Eh0; [|destruct Hh0]. destruct Hh0 as [Hn0 Hl0].
  assert (HE0 : rs_negE w0 = (fun _ => [0])).
  { unfold initialization, main_initial in E0. destruct (initial_particles _ _ _ _ _) as [w2|] eqn:Ei; [|discriminate]. destruct (record_run_history _ _ _ _ _ _) as [[st3 h3]|]; [|discriminate].
    injection E0 as <-. cbn [rs_negE]. unfold initial_particles in Ei. destruct (initialize_particles _ _ _ _ _ _ _ _ _ _ _) as [st1|]; [|discriminate].
    destruct (write_snapshot _ _ _ _ _ _) as [[st2 o2]|]; [|discriminate]. destruct (record_trajectories _ _ _ _ _ _) as [st4|]; [|discriminate].
    destruct (density_update _ _ _ _ _ _ _ _ _ _ _) as [[[[saps4 rho] dofs] cells]|]; [|discriminate]. injection Ei as <-. reflexivity. }
  destruct (main_steps m w0 _ h0 HR HF0 eq_refl HE0 Hc0 Eh0 Hn0 Hl0)
    as (w1 & w2 & pop1 & pop2 & q1 & q2 & r1 & r2 & x & E1 & HF1 & P1 & (A1 & A2 & A3) & (B1 & B2 & B3) & Hf0 & Hf1 & Hc1 & E2 & HF2 & P2 & Hc2 & (C1 & C2 & C3) & (D1 & D2 & D3 & D4)).
  assert (Heq : forall w p p' sn, Fit u (u_L u) eg_vs w p -> Fit u (u_L u) eg_vs w p' -> p sn = p' sn).
  { intros w p p' sn H H'. exact (stores_inj _ _ _ (proj2 (ft_stored _ _ _ _ _ H sn)) (proj2 (ft_stored _ _ _ _ _ H' sn))). }
  destruct (C50_completes u HL _ _ _ _ _ _ HR exact true main_initial 2 (Some 3%Z) main_start HS Hfile Hini) as (w' & E); [cbn; lia|intros k [= <-]; cbn; lia| |exact Hpop0|].
  { intros [|[|[|k]]] v1 v2 pop Hk Ev1 Ev2 HF; [| | |lia]; rewrite E0 in Ev1; injection Ev1 as <-; cbn [time_loop] in Ev2; fold u in E1, E2; try rewrite E1 in Ev2; try rewrite E2 in Ev2; injection Ev2 as <-.
    - split; [cbn [u main_setup u_names sum_list_with]; rewrite (Heq _ _ _ "e" HF HF0), Hc0; change (emitted _ _ (0 + 1)) with 0%nat; change (initial_of main_initial "e") with [ea; eb]; cbn [length]; lia|]. intros _ sn Hsn. apply elem_of_list_singleton in Hsn as ->.
      unfold Feedable. rewrite (Heq _ _ _ "e" HF HF0). exact Hf0.
    - split; [cbn [u main_setup u_names sum_list_with]; rewrite (Heq _ _ _ "e" HF HF1), P1, Hc1; change (emitted _ _ (1 + 1)) with 1%nat; cbn [length]; lia|]. intros _ sn Hsn. apply elem_of_list_singleton in Hsn as ->.
      unfold Feedable. rewrite (Heq _ _ _ "e" HF HF1). exact Hf1.
    - split; [cbn [u main_setup u_names sum_list_with]; rewrite (Heq _ _ _ "e" HF HF2), P2, Hc2; change (emitted _ _ (2 + 1)) with 0%nat; cbn [length]; lia|]. lia. }
  exists w', x. split; [exact D2|]. split; [exact E|].
  pose proof (lr_charged _ _ _ _ _ _ _ HR) as Hnd. pose proof (lr_civil _ _ _ _ _ _ _ HR) as Hciv.
  destruct (C50_phases exact exact u HL true main_initial 2 main_start w' Hnd Hciv (s_empty _ _ _ HS) E) as (ws & pop & fate & new & HM).
  assert (Hws : ws 0%nat = w0 /\ ws 1%nat = w1 /\ ws 2%nat = w2).
  { destruct HM as [M1 M2 _ _]. rewrite E0 in M1. injection M1 as M1. pose proof (l_step _ _ _ _ _ _ _ _ _ _ _ _ M2) as Hst.
    destruct (Hst 0%nat ltac:(lia)) as [H1 _]. destruct (Hst 1%nat ltac:(lia)) as [H2 _]. rewrite <- M1 in H1. fold u in E1, E2. rewrite E1 in H1. injection H1 as H1. rewrite <- H1 in H2.
    rewrite E2 in H2. injection H2 as H2. split; [exact (eq_sym M1)|]. split; [exact (eq_sym H1)|exact (eq_sym H2)]. }
  destruct Hws as (W0 & W1 & W2).
  assert (Hpops : pop 0%nat "e" = [ea; eb] /\ pop 1%nat "e" = [q1; q2] /\ pop 2%nat "e" = [r1; r2]).
  { destruct HM as [_ M2 _ _]. pose proof (l_holds _ _ _ _ _ _ _ _ _ _ _ _ M2) as HH. split; [|split].
    - rewrite (l_start _ _ _ _ _ _ _ _ _ _ _ _ M2). reflexivity.
    - specialize (HH 1%nat ltac:(lia)). rewrite W1 in HH. rewrite <- P1. exact (stores_inj _ _ _ (proj2 (HH "e"%string)) (proj2 (ft_stored _ _ _ _ _ HF1 "e"))).
    - specialize (HH 2%nat ltac:(lia)). rewrite W2 in HH. rewrite <- P2. exact (stores_inj _ _ _ (proj2 (HH "e"%string)) (proj2 (ft_stored _ _ _ _ _ HF2 "e"))). }
  destruct Hpops as (Q0 & Q1 & Q2).
  assert (T0 : rs_time w0 = 0). { destruct HM as [M1 _ _ _]. destruct (init_phases _ _ _ _ _ _ _ M1) as (? & ? & ? & _ & _ & _ & _ & _ & Ht). rewrite W0 in Ht. exact Ht. }
  pose proof (step_phases _ _ _ _ _ E1) as (? & ? & ? & ? & ? & ? & _ & _ & _ & _ & _ & _ & _ & T1). pose proof (step_phases _ _ _ _ _ E2) as (? & ? & ? & ? & ? & ? & _ & _ & _ & _ & _ & _ & _ & T2).
  assert (T1' : rs_time w1 = 1). { rewrite T1, T0. cbn. unfold exact. lra. }
  assert (T2' : rs_time w2 = 2). { rewrite T2, T1'. cbn. unfold exact. lra. }
  assert (Hn2 : forall k, (k <= 2)%nat -> exists p p', pop k "e" = [p; p'] /\ pu p = [nth 0 (pu p) 0] /\ pu p' = [nth 0 (pu p') 0]).
  { intros [|[|[|k]]] Hk; [| | |lia].
    - exists ea, eb. rewrite Q0. split; [reflexivity|split; reflexivity].
    - exists q1, q2. rewrite Q1, A2, B2. split; [reflexivity|split; reflexivity].
    - exists r1, r2. rewrite Q2, C2, D3. split; [reflexivity|split; reflexivity]. }
  destruct (C50_file exact exact u HL exact_rounding) with (ini := main_initial) (n := 2%nat) (w := main_start) (w' := w') (saps0 := fun _ : string => sap_init (A := particle) 2)
    (ws := ws) (pop := pop) (fate := fate) (new := new) as [HF Ho].
  { apply NoDup_singleton. } { intros pA Hp. apply elem_of_list_singleton in Hp as ->. right. eexists _, _. split; [reflexivity|discriminate]. }
  { exact Hnd. } { exact Hciv. } { exact HM. } { reflexivity. } { exact (s_empty _ _ _ HS). } { reflexivity. }
  { intros k Hk. cbn [u main_setup u_names]. unfold population. cbn [map]. destruct (Hn2 k Hk) as (p & p' & -> & _). cbn [list_sum foldr length Nat.add]. lia. }
  split; [|split].
  - rewrite HF. change (all_groups u main_initial 2) with [0%nat; 1%nat; 2%nat]. cbn [imap]. unfold compose, snapshot, dataset. cbn [u main_setup u_atts u_names map concat].
    rewrite W0, W1, W2, Q0, Q1, Q2, T0, T1', T2'. unfold attr_value. cbn. rewrite A1, B1, C1, D1. reflexivity.
  - apply Ho. reflexivity.
  - destruct (C50_history u HL true main_initial 2 main_start w' 3 1 ws pop fate new) as (_ & h & Hh & _ & Hrows).
    + exact Hnd.
    + exact Hciv.
    + exact HM.
    + reflexivity.
    + exact (s_empty _ _ _ HS).
    + reflexivity.
    + reflexivity.
    + lia.
    + intros name Hn. apply elem_of_cons in Hn as [->|Hn%elem_of_list_singleton]; [by left|by right].
    + intros k sn p Hk Hsn Hp. apply elem_of_list_singleton in Hsn as ->. destruct (Hn2 k Hk) as (p1 & p2 & Ek & Hu1 & Hu2). rewrite Ek in Hp.
      apply elem_of_cons in Hp as [->|Hp%elem_of_list_singleton]; [rewrite Hu1; reflexivity|subst p; rewrite Hu2; reflexivity].
    + intros j k sn Hjk Hsn Hnil. apply elem_of_list_singleton in Hsn as ->. destruct (Hn2 k ltac:(lia)) as (p1 & p2 & Ek & _). rewrite Ek in Hnil. discriminate.
    + exists h. split; [exact Hh|]. rewrite Hrows. change (2 / 1)%nat with 2%nat. cbn [seq map Nat.mul app replicate Z.to_nat Pos.to_nat Pos.iter_op Nat.add Nat.sub].
      rewrite W0, W1, W2, T0, T1', T2'. unfold hcolumns, hvalue. cbn [u main_setup u_names u_mass u_hist_names map String.eqb Ascii.eqb Bool.eqb].
      rewrite Q0, Q1, Q2. unfold kinetic_energy, total_weight, speed2, Rsum. cbn [map foldr length]. rewrite A2, A3, B2, B3, C2, C3, D3, D4. cbn [ea eb pu pw map foldr].
      change (Z.of_nat 0) with 0%Z. change (Z.of_nat 1) with 1%Z. change (Z.of_nat 2) with 2%Z.
      rewrite !Rmax_left by lra. repeat (f_equal; try lra).
Qed.

Print Assumptions C50_completes.
Print Assumptions C50_example.
