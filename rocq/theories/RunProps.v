(** C40: a whole run of the time loop. *)
From Coq Require Import String.
From stdpp Require Import strings numbers list list_numbers.
From Verif Require Import SapModel MoverModel SapProofs SapSpec SapRefine StorageProps.
From Verif Require Import Vec VecProofs TrackModel TrajModel TrajProofs TrajProps DiagModel DiagProofs DumpProps SumProps.
From Verif Require Import AcceptProps DensityModel DensityProps SourceModel SourceProps UidProps RunModel.
Local Open Scope R_scope.

(** ** What the specification speaks about *)

(** The stored particles of every species are those of [pop]. *)
Definition StoresAll (L : Z) (saps : string -> sap particle) (pop : string -> list particle) : Prop :=
  forall sn, Reachable L (saps sn) /\ Stores (saps sn) (pop sn).

(** The source with region [fst dq] and parameters [snd dq] feeds species [sn] at step [k]. *)
Definition feeds (sn : string) (k : Z) (dq : region * params) : bool :=
  String.eqb (s_species (snd dq)) sn && (k mod s_interval (snd dq) =? 0)%Z.
(** The number of particles of [sn] that the sources make at step [k]: cells times particles per cell, for every source. *)
Definition emitted (u : setup) (sn : string) (k : Z) : nat :=
  sum_list_with (fun dq => length (r_cells (fst dq)) * Z.to_nat (s_percell (snd dq)))%nat
    (List.filter (feeds sn k) (default [] (u_sources u))).
(** The number of particles of all species that the sources make at step [k]. *)
Definition emitted_all (u : setup) (k : Z) : nat :=
  sum_list_with (fun dq => length (r_cells (fst dq)) * Z.to_nat (s_percell (snd dq)))%nat
    (List.filter (fun dq => (k mod s_interval (snd dq) =? 0)%Z) (default [] (u_sources u))).
(** A new particle of species [sn] at step [k]: it was made in a cell of a source that feeds [sn], see [Made] of C27. *)
Definition FromSource (fl : R -> R) (u : setup) (sn : string) (k : Z) (p : particle) : Prop :=
  exists dom q (c : srccell) ip uid, (dom, q) ∈ default [] (u_sources u) /\ feeds sn k (dom, q) = true /\ c ∈ r_cells dom /\
    Made fl (u_rnd u) (s_drift q) (u_pdim u) (r_gdim dom) c (source_weight fl (u_spherical u) (u_pi4 u) q c) ip uid p.

(** The mover of a charged species at a step. *)
Definition mover_at (fl : R -> R) (u : setup) (step : Z) (time : R) (negE : particle -> vec) (sn : string)
    : hooks particle (tctx (K:=option traj)) :=
  charged_hooks fl sn step time (u_dt u) (u_qom u sn) (u_maxc u) (u_mesh u) (u_bcs u sn) (u_dE u) (Some negE)
    (u_Eext u step) (u_solved u sn) (u_ext u sn) false.
(** What became of the particle [p] of species [sn] in the step from [w] to [w']: [Some q] if it is stored afterwards as [q]. *)
Definition Fate (fl : R -> R) (u : setup) (w w' : runst) (sn : string) (p : particle) (r : option particle) : Prop :=
  if bool_decide (sn ∈ u_charged u) then
    let hk := mover_at fl u (rs_count w') (rs_time w') (rs_negE w) sn in
    match r with
    | Some q => pw q = pw p /\ puid q = puid p /\ is_traj q = is_traj p /\ is_deleted q = false /\
                exists c i c', adv hk c i p = Ok (q, c')
    | None => exists c i q c', adv hk c i p = Ok (q, c') /\ is_deleted q = true
    end
  else r = Some p.

(** ** Loops over the particles *)

(** The containers change by complete loops over the segments only. *)
Inductive Looped : (string -> sap particle) -> (string -> sap particle) -> Prop :=
| lp_done saps : Looped saps saps
| lp_loop saps sn (B : Type) (body : B -> Z -> list (option particle) -> res B) b s' b' saps' :
    for_out body (saps sn) b = Ok (s', b') -> Looped (set_key saps sn s') saps' -> Looped saps saps'.

Lemma looped_trans a b c : Looped a b -> Looped b c -> Looped a c.
Proof. intros H. revert c. induction H as [a|a sn B body x s' x' a' E H IH]; intros c Hc; [exact Hc|]. eapply lp_loop; [exact E|by apply IH]. Qed.
Lemma looped_one saps sn {B : Type} (body : B -> Z -> list (option particle) -> res B) b s' b' :
  for_out body (saps sn) b = Ok (s', b') -> Looped saps (set_key saps sn s').
Proof. intros E. eapply lp_loop; [exact E|constructor]. Qed.

Section Looped.
Context (L : Z) (HL : (1 <= L)%Z).
Lemma loop_keeps s xs {B : Type} (body : B -> Z -> list (option particle) -> res B) b s' b' :
  Reachable L s -> Stores s xs -> for_out body s b = Ok (s', b') -> Reachable L s' /\ Stores s' xs.
Proof using HL.
  intros HR HS E. destruct (for_out_blocks L HL s xs HR HS) as (s2 & bs & H1 & H2 & H3 & _). rewrite H3 in E.
  destruct (fold_blocks body b bs); [|discriminate]. injection E as <- <-. by split.
Qed.
Lemma looped_holds saps saps' pop : Looped saps saps' -> StoresAll L saps pop -> StoresAll L saps' pop.
Proof using HL.
  induction 1 as [a|a sn B body x s' x' a' E H IH]; intros HH; [exact HH|]. apply IH. intros s.
  unfold set_key. destruct (String.eqb_spec s sn) as [->|Hne]; [|apply HH]. destruct (HH sn) as [H1 H2].
  by eapply (loop_keeps (a sn)).
Qed.
Lemma looped_counted saps saps' sn xs : Looped saps saps' -> Counted L (saps sn) xs -> Counted L (saps' sn) xs.
Proof using HL.
  induction 1 as [a|a s B body x s' x' a' E H IH]; intros HC; [exact HC|]. apply IH. unfold set_key.
  destruct (String.eqb_spec sn s) as [->|Hne]; [|exact HC]. destruct (counted_loop L HL (a s) xs HC) as (s2 & bs & H1 & H2 & _).
  rewrite H2 in E. destruct (fold_blocks body x bs); [|discriminate]. injection E as <- <-. exact H1.
Qed.
Lemma looped_steps saps saps' st : Looped saps saps' -> ss_saps st = saps -> steps L st (with_saps st saps').
Proof using.
  intros H. revert st.
  assert (Hcons : forall a b c, step L a b -> steps L b c -> steps L a c).
  { intros a b c Hab Hbc. induction Hbc as [b|b c d Hbc IH Hcd]; [eapply steps_more; [constructor|exact Hab]|].
    eapply steps_more; [by apply IH|exact Hcd]. }
  induction H as [a|a sn B body x s' x' a' E H IH]; intros st <-; [destruct st; constructor|].
  eapply Hcons; [|apply (IH (with_saps st (set_key (ss_saps st) sn s'))); reflexivity].
  eapply s_loop; [exact E|reflexivity].
Qed.
End Looped.

Section Phases.
Context (fl st32 : R -> R) (u : setup).

Lemma dump_species_looped g sps : forall saps buf off saps' buf' off',
  dump_species (u_sindex u) g sps saps buf off = Ok (saps', buf', off') -> Looped saps saps'.
Proof using.
  induction sps as [|sn sps IH]; intros saps buf off saps' buf' off' E; cbn [dump_species] in E.
  - injection E as <- <- <-. constructor.
  - destruct (_ =? 0)%Z; [by eapply IH|]. destruct g as [g|]; [|by eapply IH].
    destruct (for_out _ _ _) as [[s1 [b1 o1]]|] eqn:Ef; [|discriminate].
    eapply lp_loop; [exact Ef|by eapply IH].
Qed.
Lemma dump_attrs_looped atts : forall saps buf data saps' buf' data',
  dump_attrs (u_names u) (u_sindex u) (u_column u) atts saps buf data = Ok (saps', buf', data') -> Looped saps saps'.
Proof using.
  induction atts as [|a atts IH]; intros saps buf data saps' buf' data' E; cbn [dump_attrs] in E.
  - injection E as <- <- <-. constructor.
  - destruct (if String.eqb a "species_index" then _ else _) as [g|]; [|discriminate].
    destruct (dump_species _ _ _ _ _ _) as [[[saps1 buf1] off]|] eqn:Ed; [|discriminate].
    destruct (existsb _ _); [discriminate|]. eapply looped_trans; [by eapply dump_species_looped|by eapply IH].
Qed.
Lemma write_looped close step time st o st' o' : write_snapshot fl u close step time (st, o) = Ok (st', o') ->
  exists saps, Looped (ss_saps st) saps /\ st' = with_saps st saps.
Proof using.
  unfold write_snapshot. destruct (write_particles _ _ _ _ _ _ _ _ _ _) as [o1|] eqn:Ew; [|discriminate]. intros [= <- <-].
  exists (o_saps o1). split; [|reflexivity]. unfold write_particles in Ew. cbn [o_last o_open o_counter o_file o_saps o_blen o_buf] in Ew.
  destruct (_ =? _)%Z; [injection Ew as <-; constructor|].
  destruct (_ || _); [discriminate|]. destruct (if (_ <? _)%Z then _ else _) as [blen buf].
  destruct (dump_attrs _ _ _ _ _ _ _) as [[[saps1 buf1] data]|] eqn:Ed; [|discriminate]. injection Ew as <-.
  by eapply dump_attrs_looped.
Qed.
Lemma accumulate_looped saps sn d c s1 r :
  accumulate fl (u_ncell u) (u_gdim u) (u_vol u) (u_junk u) (u_fD u) (u_fC u) (saps sn) d c = Ok (s1, r) ->
  Looped saps (set_key saps sn s1).
Proof using.
  unfold accumulate. destruct (for_out _ _ _) as [[s2 [d1 c1]]|] eqn:Ef; [|discriminate].
  apply looped_one in Ef. destruct c1 as [a|]; [|by intros [= <- <-]].
  destruct (divide_by_cell_volumes _ _ _ _ _); [|discriminate]. by intros [= <- <-].
Qed.
Lemma density_looped names : forall saps rho dofs cells saps' rho' dofs' cells',
  density_species fl (u_ncell u) (u_gdim u) (u_vol u) (u_junk u) (u_fD u) (u_fC u) (u_charge u) names saps rho dofs cells =
    Ok (saps', rho', dofs', cells') -> Looped saps saps'.
Proof using.
  induction names as [|sn names IH]; intros saps rho dofs cells saps' rho' dofs' cells' E; cbn [density_species] in E.
  - injection E as <- <- <- <-. constructor.
  - destruct (accumulate _ _ _ _ _ _ _ _ _ _) as [[s1 [d1 c1]]|] eqn:Ea; [|discriminate].
    destruct (multiply_add _ _ _ _) as [r1|]; [|discriminate].
    eapply looped_trans; [by eapply accumulate_looped|by eapply IH].
Qed.

Lemma number_looped saps sn saps' v : number_function (u_junk u) saps sn = Ok (saps', v) -> Looped saps saps'.
Proof using.
  unfold number_function, get_species_number. destruct (for_out _ _ _) as [[s1 x]|] eqn:Ef; [|discriminate].
  intros [= <- <-]. by eapply looped_one.
Qed.
Lemma history_looped name saps sn saps' v :
  history_function (u_junk u) (u_nv u) (u_mass u) name saps sn = Ok (saps', v) -> Looped saps saps'.
Proof using.
  unfold history_function, get_species_KE. destruct (String.eqb name "count"); [intros [= <- <-]; constructor|].
  destruct (String.eqb name "KE"); [|discriminate]. destruct (for_out _ _ _) as [[s1 x]|] eqn:Ef; [|discriminate].
  intros [= <- <-]. by eapply looped_one.
Qed.
Lemma record_species_looped name sps : forall saps acc cols saps' acc' cols',
  record_species fl st32 (number_function (u_junk u)) (history_function (u_junk u) (u_nv u) (u_mass u) name) sps saps acc cols =
    Ok (saps', acc', cols') -> Looped saps saps'.
Proof using.
  induction sps as [|sn sps IH]; intros saps acc cols saps' acc' cols' E; cbn [record_species] in E.
  - injection E as <- <- <-. constructor.
  - destruct (history_function _ _ _ _ _ _) as [[s1 v]|] eqn:Eh; [|discriminate].
    destruct (number_function _ _ _) as [[s2 n]|] eqn:En; [|discriminate].
    eapply looped_trans; [by eapply history_looped|]. eapply looped_trans; [by eapply number_looped|by eapply IH].
Qed.
Lemma record_values_looped hnames : forall saps saps' vs,
  record_values fl st32 (u_names u) (number_function (u_junk u)) (map (history_function (u_junk u) (u_nv u) (u_mass u)) hnames) saps =
    Ok (saps', vs) -> Looped saps saps'.
Proof using.
  induction hnames as [|h hs IH]; intros saps saps' vs E; cbn [map record_values] in E.
  - injection E as <- <-. constructor.
  - destruct (record_species _ _ _ _ _ _ _ _) as [[[s1 tot] cols]|] eqn:E1; [|discriminate].
    destruct (record_values _ _ _ _ _ _) as [[s2 vs']|] eqn:E2; [|discriminate]. injection E as <- <-.
    eapply looped_trans; [by eapply record_species_looped|by eapply IH].
Qed.
Lemma history_phase_looped step time st h st' h' : record_run_history fl st32 u step time (st, h) = Ok (st', h') ->
  exists saps, Looped (ss_saps st) saps /\ st' = with_saps st saps.
Proof using.
  unfold record_run_history. cbn [fst snd]. destruct h as [h|].
  - unfold record_history. destruct (py_set _ _ _); [|discriminate]. destruct (record_values _ _ _ _ _ _) as [[saps vs]|] eqn:Ev; [|discriminate].
    destruct (py_set _ _ _); [|discriminate]. intros [= <- <-]. exists saps. split; [by eapply record_values_looped|reflexivity].
  - intros [= <- <-]. exists (ss_saps st). split; [constructor|by destruct st].
Qed.
Lemma every_ok {X} k n (f : X -> res X) x y : every k n f x = Ok y -> (n mod k = 0)%Z /\ f x = Ok y \/ y = x.
Proof using.
  unfold every. destruct (k =? 0)%Z; [discriminate|]. destruct (Z.eqb_spec (n mod k) 0); [by left|]. intros [= <-]. by right.
Qed.

(** The parts of a successful time step. *)
Lemma step_parts w w' : time_step fl st32 u w = Ok w' ->
  let step := (rs_count w + 1)%Z in let time := fl (rs_time w + u_dt u) in
  exists saps1 c1 st2 st3 saps4 saps5 saps6,
    advance_species fl u step time (rs_negE w) (u_charged u) (ss_saps (rs_src w)) (TCtx (rs_scr w) (ss_traj (rs_src w))) = Ok (saps1, c1) /\
    (exists T, st2 = SrcSt saps1 (ss_uid (rs_src w)) (ss_rng (rs_src w)) T) /\
    add_from_sources fl u step time (rs_negE w) st2 = Ok st3 /\
    Looped (ss_saps st3) saps4 /\
    density_update fl (u_ncell u) (u_gdim u) (u_vol u) (u_junk u) (u_fD u) (u_fC u) (u_charge u) (u_names u) (u_ndof u) saps4 =
      Ok (saps5, rs_rho w', rs_dofs w', rs_cells w') /\
    Looped saps4 saps5 /\ u_solve u (rs_rho w') = Ok (rs_negE w') /\ Looped saps5 saps6 /\
    rs_src w' = with_saps st3 saps6 /\ rs_count w' = step /\ rs_time w' = time.
Proof using.
  intros E step time. unfold time_step in E. fold step time in E.
  destruct (advance_species _ _ _ _ _ _ _ _) as [[saps1 c1]|] eqn:E1; [|discriminate]. exists saps1, c1.
  set (st1 := SrcSt saps1 (ss_uid (rs_src w)) (ss_rng (rs_src w)) (usr c1)) in E.
  destruct (match ss_traj st1 with None => Ok st1 | Some _ => _ end) as [st2|] eqn:E2; [|discriminate].
  assert (H2 : exists T, st2 = SrcSt saps1 (ss_uid (rs_src w)) (ss_rng (rs_src w)) T).
  { destruct (ss_traj st1) as [T|] eqn:ET; [|injection E2 as <-; by exists (usr c1)].
    apply every_ok in E2 as [[_ E2]| ->]; [|by exists (usr c1)]. unfold record_trajectories in E2. rewrite ET in E2.
    destruct (record_trajectory_data _ _ _ _ _ _ _ _ _ _) as [T1|]; [|discriminate]. injection E2 as <-. by exists (Some T1). }
  destruct (add_from_sources _ _ _ _ _ st2) as [st3|] eqn:E3; [|discriminate].
  destruct (match u_out_interval u with None => _ | Some _ => _ end) as [[st4 o4]|] eqn:E4; [|discriminate].
  assert (H4 : exists saps4, Looped (ss_saps st3) saps4 /\ st4 = with_saps st3 saps4).
  { destruct (u_out_interval u) as [k|]; [|injection E4 as <- <-; exists (ss_saps st3); split; [constructor|by destruct st3]].
    apply every_ok in E4 as [[_ E4]|E4]; [by eapply write_looped|]. injection E4 as -> ->. exists (ss_saps st3). split; [constructor|by destruct st3]. }
  destruct H4 as (saps4 & H4 & ->). cbn [ss_saps with_saps] in E.
  destruct (density_update _ _ _ _ _ _ _ _ _ _ _) as [[[[saps5 rho] dofs] cells]|] eqn:E5; [|discriminate].
  destruct (u_solve u rho) as [negE|] eqn:Es; [|discriminate].
  destruct (match rs_hist w with None => _ | Some _ => _ end) as [[st6 h6]|] eqn:E6; [|discriminate].
  set (st5 := with_saps (with_saps st3 saps4) saps5) in E6.
  assert (H6 : exists saps6, Looped saps5 saps6 /\ st6 = with_saps st3 saps6).
  { destruct (rs_hist w) as [h|]; [|injection E6 as <- <-; exists saps5; split; [constructor|reflexivity]].
    apply every_ok in E6 as [[_ E6]|E6].
    - apply history_phase_looped in E6 as (saps6 & H6 & ->). by exists saps6.
    - injection E6 as -> ->. exists saps5. split; [constructor|reflexivity]. }
  destruct H6 as (saps6 & H6 & ->). injection E as <-. exists st2, st3, saps4, saps5, saps6. cbn [rs_rho rs_dofs rs_cells rs_negE rs_src rs_count rs_time].
  split; [reflexivity|]. split; [exact H2|]. split; [exact E3|]. split; [exact H4|]. split; [exact E5|].
  split; [by eapply density_looped|]. split; [exact Es|]. split; [exact H6|]. done.
Qed.
End Phases.

(** ** The movers *)
Section Advance.
Context (fl : R -> R) (u : setup) (L : Z) (HL : (1 <= L)%Z).

Definition Moved (hk : hooks particle (tctx (K:=option traj))) (p : particle) (r : option particle) : Prop :=
  match r with
  | Some q => pw q = pw p /\ puid q = puid p /\ is_traj q = is_traj p /\ is_deleted q = false /\
              exists c i c', adv hk c i p = Ok (q, c')
  | None => exists c i q c', adv hk c i p = Ok (q, c') /\ is_deleted q = true
  end.

Lemma pass_fate sn hk s xs c s' c' : MoverOf fl sn hk -> Reachable L s -> Stores s xs ->
  guarded_mover (py_ops particle) hk s c = Ok (s', c') ->
  exists fate, Reachable L s' /\ Stores s' (survivors fate) /\ Forall2 (Moved hk) xs fate /\ (xs = [] -> s' = s).
Proof using HL.
  intros Hm HR Hs E. pose proof (C04_pass_is_sequential L s xs hk c HL HR Hs) as H.
  destruct (seq_pass hk 0 [] false c xs) as [[ys c1]|e] eqn:Ep; [|congruence].
  destruct H as (s1 & E1 & Hs1 & HR1). rewrite E in E1. injection E1 as <- <-.
  apply seq_pass_fate in Ep as (fate & -> & HF). exists fate. split; [exact HR1|]. split; [exact Hs1|]. split.
  - assert (Hd : deleted hk = is_deleted) by (by destruct Hm).
    eapply Forall2_impl; [exact HF|]. intros p r (c0 & i & q & c2 & Ea & ->). rewrite Hd.
    destruct (is_deleted q) eqn:Eq; [by exists c0, i, q, c2|].
    destruct (mover_identity _ _ _ _ _ _ _ _ Hm Ea) as (? & ? & ?). unfold Moved. repeat (split; [assumption|]). by exists c0, i, c2.
  - intros ->. destruct Hs as [Hn _]. unfold guarded_mover in E. rewrite Hn in E. cbn in E. by injection E as <- _.
Qed.

Lemma advance_holds step time negE sns : NoDup sns -> (forall sn, Civil (u_bcs u sn)) -> forall saps c saps' c' pop,
  StoresAll L saps pop -> advance_species fl u step time negE sns saps c = Ok (saps', c') ->
  exists fate, StoresAll L saps' (fun sn => survivors (fate sn)) /\
    (forall sn, sn ∈ sns -> Forall2 (Moved (mover_at fl u step time negE sn)) (pop sn) (fate sn)) /\
    (forall sn, sn ∉ sns -> fate sn = map Some (pop sn) /\ saps' sn = saps sn) /\
    (forall sn, pop sn = [] -> saps' sn = saps sn).
Proof using HL.
  intros Hnd Hciv. induction sns as [|sn sns IH]; intros saps c saps' c' pop HH E; cbn [advance_species] in E.
  - injection E as <- <-. exists (fun sn => map Some (pop sn)). split; [|split; [intros sn Hsn; inversion Hsn|done]].
    assert (Hsv : forall l : list particle, survivors (map Some l) = l).
    { induction l as [|x l IHl]; [reflexivity|]. change (survivors (map Some (x :: l))) with (x :: survivors (map Some l)). by rewrite IHl. }
    intros sn. rewrite Hsv. apply HH.
  - inversion_clear Hnd as [|? ? Hni Hnd'].
    destruct (guarded_mover _ _ _ _) as [[s1 c1]|] eqn:E1; [|discriminate]. destruct (HH sn) as [HR HS].
    destruct (pass_fate sn _ _ _ _ _ _ (mo_charged _ _ _ _ _ _ _ _ _ _ _ _ _ _ _ (Hciv sn)) HR HS E1) as (ft & HR1 & HS1 & HF & Hnil).
    destruct (IH Hnd' (set_key saps sn s1) c1 saps' c' (fun s => if String.eqb s sn then survivors ft else pop s)) as (fate & G1 & G2 & G3 & G4); [|exact E|].
    { intros s. unfold set_key. destruct (String.eqb_spec s sn) as [->|Hne]; [by split|apply HH]. }
    destruct (G3 sn Hni) as [Gf Gs]. rewrite String.eqb_refl in Gf. rewrite set_key_same in Gs.
    exists (fun s => if String.eqb s sn then ft else fate s). split; [|split; [|split]].
    + intros s. destruct (String.eqb_spec s sn) as [->|Hne]; [rewrite Gs; by split|apply G1].
    + intros s Hs. destruct (String.eqb_spec s sn) as [->|Hne]; [exact HF|]. apply elem_of_cons in Hs as [?|Hs]; [done|].
      specialize (G2 s Hs). by replace (String.eqb s sn) with false in G2 by (symmetry; by apply String.eqb_neq).
    + intros s Hs. apply not_elem_of_cons in Hs as [Hne Hs]. destruct (G3 s Hs) as [G5 G6].
      replace (String.eqb s sn) with false in * by (symmetry; by apply String.eqb_neq).
      split; [exact G5|]. rewrite G6. by apply set_key_other.
    + intros s Hs. destruct (String.eqb_spec s sn) as [->|Hne]; [rewrite Gs; by apply Hnil|].
      specialize (G4 s). replace (String.eqb s sn) with false in G4 by (symmetry; by apply String.eqb_neq).
      rewrite (G4 Hs). by apply set_key_other.
Qed.

Lemma advance_steps step time negE sns uid rng : (forall sn, Civil (u_bcs u sn)) -> forall saps c saps' c' ,
  advance_species fl u step time negE sns saps c = Ok (saps', c') ->
  steps L (SrcSt saps uid rng (usr c)) (SrcSt saps' uid rng (usr c')).
Proof using.
  intros Hciv.
  assert (Hcons : forall a b c, UidProps.step L a b -> steps L b c -> steps L a c).
  { intros a b c Hab Hbc. induction Hbc as [b|b c d Hbc IH Hcd]; [eapply steps_more; [constructor|exact Hab]|].
    eapply steps_more; [by apply IH|exact Hcd]. }
  induction sns as [|sn sns IH]; intros saps c saps' c' E; cbn [advance_species] in E.
  - injection E as <- <-. constructor.
  - destruct (guarded_mover _ _ _ _) as [[s1 c1]|] eqn:E1; [|discriminate].
    eapply Hcons; [|by eapply IH]. eapply s_move; [|exact E1|reflexivity]. apply mo_charged. apply Hciv.
Qed.
End Advance.

(** ** The sources *)
Section Sources.
Context (fl : R -> R) (u : setup) (L : Z) (HL : (1 <= L)%Z).

Lemma fire_made step time negE dom q st st' xs :
  Reachable L (ss_saps st (s_species q)) -> Stores (ss_saps st (s_species q)) xs ->
  create_maxwellian fl (u_names u) (u_spherical u) (u_pdim u) (u_pi4 u) (u_rnd u) (u_fuel u) (u_dE u) (Some negE) None step time dom q st = Ok st' ->
  exists new, Reachable L (ss_saps st' (s_species q)) /\ Stores (ss_saps st' (s_species q)) (xs ++ new) /\
    (forall s, s <> s_species q -> ss_saps st' s = ss_saps st s) /\
    length new = (length (r_cells dom) * Z.to_nat (s_percell q))%nat /\
    Forall (fun p => exists (c : srccell) ip uid, c ∈ r_cells dom /\
      Made fl (u_rnd u) (s_drift q) (u_pdim u) (r_gdim dom) c (source_weight fl (u_spherical u) (u_pi4 u) q c) ip uid p) new /\
    (new = [] -> ss_saps st' = ss_saps st).
Proof using HL.
  intros HR HS E. unfold create_maxwellian in E. destruct (negb _); [discriminate|].
  destruct (weight_mult _ _ _ _) as [mult|] eqn:Em; [|discriminate].
  destruct (new_cells_made _ _ _ _ _ _ _ L HL _ _ _ _ _ _ _ _ _ _ _ HR HS E) as (new & H1 & H2 & H3 & H4 & H5 & H6).
  exists new. split; [exact H1|]. split; [exact H2|]. split; [exact H3|]. split; [exact H5|].
  assert (Hw : forall c, fl (c_vol c * mult) = source_weight fl (u_spherical u) (u_pi4 u) q c).
  { unfold weight_mult in Em. destruct (_ =? 0)%Z; [discriminate|]. injection Em as <-. reflexivity. }
  set (m := Z.to_nat (s_percell q)) in *. split.
  - apply list.Forall_forall. intros p Hp. apply elem_of_list_lookup in Hp as [j Hj].
    pose proof (lookup_lt_Some _ _ _ Hj) as Hlt. assert (Hm0 : (0 < m)%nat) by (destruct m; lia).
    pose proof (Nat.div_mod j m ltac:(lia)) as Hdm. pose proof (Nat.mod_upper_bound j m ltac:(lia)) as Hmb.
    destruct (lookup_lt_is_Some_2 (r_cells dom) (j / m)%nat) as [c Hc].
    { apply Nat.div_lt_upper_bound; lia. }
    destruct (H6 (j / m)%nat c (j mod m)%nat Hc Hmb) as (p' & Hp' & HM).
    replace (j / m * m + j mod m)%nat with j in Hp' by lia. rewrite Hj in Hp'. injection Hp' as <-.
    eexists c, _, _. split; [by eapply elem_of_list_lookup_2|]. rewrite <- Hw. exact HM.
  - intros ->. cbn in H5. clear - E H5. revert st E H5. induction (r_cells dom) as [|c cs IH]; intros st E H5; cbn [new_cells] in E.
    + by injection E as <-.
    + cbn [length] in H5. assert (m = O) as -> by lia. cbn [seq new_particles] in E. apply (IH st E). lia.
Qed.

Lemma sources_hold step time negE l : forall st st' pop, StoresAll L (ss_saps st) pop ->
  add_more_particles (source_list fl u negE l) step time st = Ok st' ->
  exists new, StoresAll L (ss_saps st') (fun sn => pop sn ++ new sn) /\
    (forall sn, length (new sn) = sum_list_with (fun dq => length (r_cells (fst dq)) * Z.to_nat (s_percell (snd dq)))%nat
                                    (List.filter (feeds sn step) l)) /\
    (forall sn, Forall (fun p => exists dom q (c : srccell) ip uid, (dom, q) ∈ l /\ feeds sn step (dom, q) = true /\ c ∈ r_cells dom /\
      Made fl (u_rnd u) (s_drift q) (u_pdim u) (r_gdim dom) c (source_weight fl (u_spherical u) (u_pi4 u) q c) ip uid p) (new sn)) /\
    (forall sn, new sn = [] -> ss_saps st' sn = ss_saps st sn) /\ steps L st st'.
Proof using HL.
  assert (Hcons : forall a b c, UidProps.step L a b -> steps L b c -> steps L a c).
  { intros a b c Hab Hbc. induction Hbc as [b|b c d Hbc IH Hcd]; [eapply steps_more; [constructor|exact Hab]|].
    eapply steps_more; [by apply IH|exact Hcd]. }
  induction l as [|[dom q] l IH]; intros st st' pop HH E; cbn [source_list map add_more_particles fst snd] in E.
  - injection E as <-. exists (fun _ => []). split; [intros sn; rewrite app_nil_r; apply HH|]. split; [reflexivity|].
    split; [intros sn; constructor|]. split; [done|constructor].
  - destruct (Z.eqb_spec (s_interval q) 0) as [|Hk]; [discriminate|]. fold (source_list fl u negE l) in E.
    destruct (step mod s_interval q =? 0)%Z eqn:Ek.
    + destruct (create_maxwellian _ _ _ _ _ _ _ _ _ _ _ _ _ _ _) as [st1|] eqn:E1; [|discriminate].
      destruct (HH (s_species q)) as [HR HS]. destruct (fire_made _ _ _ _ _ _ _ _ HR HS E1) as (n1 & A1 & A2 & A3 & A4 & A5 & A6).
      destruct (IH st1 st' (fun s => if String.eqb s (s_species q) then pop s ++ n1 else pop s)) as (new & B1 & B2 & B3 & B4 & B5); [|exact E|].
      { intros s. destruct (String.eqb_spec s (s_species q)) as [->|Hne]; [by split|]. rewrite A3 by exact Hne. apply HH. }
      exists (fun s => if String.eqb s (s_species q) then n1 ++ new s else new s). split; [|split; [|split; [|split]]].
      * intros s. specialize (B1 s). cbv beta in B1. destruct (String.eqb s (s_species q)); [by rewrite app_assoc|exact B1].
      * intros s. cbn [List.filter]. unfold feeds at 1. cbn [fst snd]. rewrite Ek, andb_true_r, (String.eqb_sym (s_species q) s).
        destruct (String.eqb s (s_species q)); [|apply B2]. rewrite app_length, A4, B2. reflexivity.
      * intros s. assert (Hold : Forall (fun p => exists dom' q' (c : srccell) ip uid, (dom', q') ∈ (dom, q) :: l /\ feeds s step (dom', q') = true /\ c ∈ r_cells dom' /\
            Made fl (u_rnd u) (s_drift q') (u_pdim u) (r_gdim dom') c (source_weight fl (u_spherical u) (u_pi4 u) q' c) ip uid p) (new s)).
        { eapply list.Forall_impl; [apply B3|]. intros p (d' & q' & c & ip & uid & H1 & H2). exists d', q', c, ip, uid. split; [by right|exact H2]. }
        destruct (String.eqb_spec s (s_species q)) as [->|Hne]; [|exact Hold]. apply Forall_app. split; [|exact Hold].
        eapply list.Forall_impl; [exact A5|]. intros p (c & ip & uid & H1 & H2). exists dom, q, c, ip, uid. split; [left|]. split; [|split; [exact H1|exact H2]].
        unfold feeds. cbn [snd]. by rewrite String.eqb_refl, Ek.
      * intros s Hs. cbv beta in Hs. revert Hs. destruct (String.eqb_spec s (s_species q)) as [->|Hne]; intros Hs.
        -- apply app_eq_nil in Hs as [Hs1 Hs2]. rewrite (B4 _ Hs2). by rewrite (A6 Hs1).
        -- rewrite (B4 s Hs). by apply A3.
      * eapply Hcons; [|exact B5]. eapply s_source. exact E1.
    + destruct (IH st st' pop HH E) as (new & B1 & B2 & B3 & B4 & B5). exists new. split; [exact B1|]. split; [|split; [|split; [exact B4|exact B5]]].
      * intros s. cbn [List.filter]. unfold feeds at 1. cbn [fst snd]. rewrite Ek, andb_false_r. apply B2.
      * intros s. eapply list.Forall_impl; [apply B3|]. intros p (d' & q' & c & ip & uid & H1 & H2). exists d', q', c, ip, uid. split; [by right|exact H2].
Qed.

Lemma fire_counter step time negE dom q st st' :
  create_maxwellian fl (u_names u) (u_spherical u) (u_pdim u) (u_pi4 u) (u_rnd u) (u_fuel u) (u_dE u) (Some negE) None step time dom q st = Ok st' ->
  ss_uid st' = (ss_uid st + Z.of_nat (length (r_cells dom) * Z.to_nat (s_percell q)))%Z.
Proof using.
  unfold create_maxwellian. destruct (negb _); [discriminate|]. destruct (weight_mult _ _ _ _) as [mult|]; [|discriminate].
  generalize (Z.to_nat (s_percell q)) as m. intros m.
  assert (H1 : forall c ips st st', new_particles fl (u_pdim u) (u_rnd u) (u_fuel u) (u_dE u) (Some negE) None (s_species q) step time (r_gdim dom) (s_drift q)
    c (fl (c_vol c * mult)) ips st = Ok st' -> ss_uid st' = (ss_uid st + Z.of_nat (length ips))%Z).
  { intros c ips. induction ips as [|ip ips IH]; intros s0 s1 E; cbn [new_particles] in E; [injection E as <-; cbn; lia|].
    destruct (new_particle _ _ _ _ _ _ _ _ _ _ _ _ _ _ _ _) as [s2|] eqn:E2; [|discriminate]. rewrite (IH _ _ E). cbn [length].
    unfold new_particle in E2. destruct (match ip with O => _ | S _ => _ end) as [[x k]|]; [|discriminate].
    destruct (negb _); [discriminate|]. destruct (add_particle _ _ _ _ _ _ _ _ _) as [[s3 T3]|]; [|discriminate]. injection E2 as <-. cbn [ss_uid]. lia. }
  revert st. induction (r_cells dom) as [|c cs IH]; intros st E; cbn [new_cells] in E; [injection E as <-; cbn; lia|].
  destruct (new_particles _ _ _ _ _ _ _ _ _ _ _ _ _ _ _ _) as [s1|] eqn:E1; [|discriminate]. rewrite (IH _ E), (H1 _ _ _ _ E1), seq_length. cbn [length]. lia.
Qed.
Lemma sources_counter step time negE l : forall st st', add_more_particles (source_list fl u negE l) step time st = Ok st' ->
  ss_uid st' = (ss_uid st + Z.of_nat (sum_list_with (fun dq => length (r_cells (fst dq)) * Z.to_nat (s_percell (snd dq)))%nat
                  (List.filter (fun dq => (step mod s_interval (snd dq) =? 0)%Z) l)))%Z.
Proof using.
  induction l as [|[dom q] l IH]; intros st st' E; cbn [source_list map add_more_particles fst snd] in E; [injection E as <-; cbn; lia|].
  destruct (s_interval q =? 0)%Z; [discriminate|]. fold (source_list fl u negE l) in E. cbn [List.filter snd].
  destruct (step mod s_interval q =? 0)%Z; [|by apply IH].
  destruct (create_maxwellian _ _ _ _ _ _ _ _ _ _ _ _ _ _ _) as [st1|] eqn:E1; [|discriminate].
  rewrite (IH _ _ E), (fire_counter _ _ _ _ _ _ _ E1). cbn [sum_list_with fst snd]. lia.
Qed.

(** A container that accepts no particle. *)
Definition Refuses (s : sap particle) : Prop := forall x, push_back s x = Raise AssertionError.
Lemma refuses_source step time negE dom q st : Refuses (ss_saps st (s_species q)) ->
  (0 < length (r_cells dom) * Z.to_nat (s_percell q))%nat ->
  exists e, create_maxwellian fl (u_names u) (u_spherical u) (u_pdim u) (u_pi4 u) (u_rnd u) (u_fuel u) (u_dE u) (Some negE) None step time dom q st = Raise e.
Proof using.
  intros HR Hn. unfold create_maxwellian. destruct (negb _); [by eexists|]. destruct (weight_mult _ _ _ _) as [mult|e]; [|by eexists].
  destruct (r_cells dom) as [|c cs]; [cbn in Hn; lia|]. destruct (Z.to_nat (s_percell q)) as [|m]; [lia|].
  cbn [new_cells seq new_particles]. destruct (new_particle _ _ _ _ _ _ _ _ _ _ _ _ _ _ _ _) as [st1|e] eqn:E; [|by eexists].
  unfold new_particle in E. destruct (let! x := coords _ _ _ in _) as [[x k]|]; [|discriminate].
  destruct (negb _); [discriminate|]. destruct (add_particle _ _ _ _ _ _ _ _ _) as [[s1 T1]|] eqn:Ea; [|discriminate].
  apply add_particle_push in Ea as (o & i & Ep). rewrite HR in Ep. discriminate.
Qed.
Lemma refuses_sources step time negE sn l : forall st, Refuses (ss_saps st sn) ->
  (0 < sum_list_with (fun dq => length (r_cells (fst dq)) * Z.to_nat (s_percell (snd dq)))%nat (List.filter (feeds sn step) l))%nat ->
  (forall s, exists xs, Reachable L (ss_saps st s) /\ Stores (ss_saps st s) xs) ->
  exists e, add_more_particles (source_list fl u negE l) step time st = Raise e.
Proof using HL.
  induction l as [|[dom q] l IH]; intros st HR Hn HH; cbn [source_list map add_more_particles fst snd]; [cbn in Hn; lia|].
  fold (source_list fl u negE l). destruct (Z.eqb_spec (s_interval q) 0) as [|Hk]; [by eexists|].
  cbn [List.filter] in Hn. unfold feeds in Hn at 1. cbn [snd] in Hn.
  destruct (step mod s_interval q =? 0)%Z eqn:Ek; [|rewrite andb_false_r in Hn; by apply IH].
  rewrite andb_true_r in Hn. destruct (String.eqb_spec (s_species q) sn) as [Hsn|Hne].
  - cbn [sum_list_with fst snd] in Hn. destruct (decide (0 < length (r_cells dom) * Z.to_nat (s_percell q))%nat) as [Hp|Hz].
    + destruct (refuses_source step time negE dom q st) as [e ->]; [by rewrite Hsn|exact Hp|by eexists].
    + destruct (create_maxwellian _ _ _ _ _ _ _ _ _ _ _ _ _ _ _) as [st1|e] eqn:E1; [|by eexists].
      destruct (HH (s_species q)) as (xs & H1 & H2). destruct (fire_made _ _ _ _ _ _ _ _ H1 H2 E1) as (new & _ & _ & _ & Hl & _ & Hsame).
      assert (new = []) as -> by (destruct new; [reflexivity|cbn in Hl; lia]). specialize (Hsame eq_refl).
      apply IH; [by rewrite Hsame|lia|by rewrite Hsame].
  - destruct (create_maxwellian _ _ _ _ _ _ _ _ _ _ _ _ _ _ _) as [st1|e] eqn:E1; [|by eexists].
    destruct (HH (s_species q)) as (xs & H1 & H2). destruct (fire_made _ _ _ _ _ _ _ _ H1 H2 E1) as (new & G1 & G2 & Ho & _).
    apply IH; [rewrite Ho by congruence; exact HR|exact Hn|]. intros s. destruct (String.eqb_spec s (s_species q)) as [->|Hs]; [by eexists|].
    rewrite Ho by exact Hs. apply HH.
Qed.
End Sources.

(** ** C40 *)
Section Run.
Context (fl st32 : R -> R) (u : setup) (L : Z) (HL : (1 <= L)%Z).

(** The clock: the number of the step counts the steps, and the time is advanced by the time step once per step. *)
Theorem C40_clock n w w' : time_loop fl st32 u n w = Ok w' ->
  rs_count w' = (rs_count w + Z.of_nat n)%Z /\ rs_time w' = Nat.iter n (fun t => fl (t + u_dt u)) (rs_time w).
Proof using.
  revert w. induction n as [|n IH]; intros w E; cbn [time_loop] in E.
  - injection E as <-. split; [lia|reflexivity].
  - destruct (time_step fl st32 u w) as [w1|] eqn:E1; [|discriminate].
    destruct (step_parts _ _ _ _ _ E1) as (_ & _ & _ & _ & _ & _ & _ & _ & _ & _ & _ & _ & _ & _ & _ & _ & Hc & Ht).
    destruct (IH w1 E) as [-> ->]. rewrite Hc, Ht. split; [lia|].
    change (S n) with (1 + n)%nat. rewrite Nat.add_comm. clear. 
    assert (H : forall (f : R -> R) k x, Nat.iter k f (f x) = Nat.iter (k + 1) f x).
    { intros f k x. induction k as [|k IHk]; [reflexivity|]. change (f (Nat.iter k f (f x)) = f (Nat.iter (k + 1) f x)). by rewrite IHk. }
    apply (H (fun t => fl (t + u_dt u))).
Qed.

(** One step: every species consists afterwards of what the mover left of it, in order, and of the new particles. *)
Theorem C40_step w w' pop : NoDup (u_charged u) -> (forall sn, Civil (u_bcs u sn)) ->
  StoresAll L (ss_saps (rs_src w)) pop -> time_step fl st32 u w = Ok w' ->
  exists fate new, StoresAll L (ss_saps (rs_src w')) (fun sn => survivors (fate sn) ++ new sn) /\
    forall sn, Forall2 (Fate fl u w w' sn) (pop sn) (fate sn) /\
      length (new sn) = emitted u sn (rs_count w') /\ Forall (FromSource fl u sn (rs_count w')) (new sn).
Proof using HL.
  intros Hnd Hciv HH E.
  destruct (step_parts _ _ _ _ _ E) as (saps1 & c1 & st2 & st3 & saps4 & saps5 & saps6 & E1 & (T & ->) & E3 & H4 & _ & H5 & _ & H6 & Hsrc & Hc & Ht).
  destruct (advance_holds fl u L HL _ _ _ _ Hnd Hciv _ _ _ _ _ HH E1) as (fate & A1 & A2 & A3 & _).
  assert (HN : exists new, StoresAll L (ss_saps st3) (fun sn => survivors (fate sn) ++ new sn) /\
    forall sn, length (new sn) = emitted u sn (rs_count w') /\ Forall (FromSource fl u sn (rs_count w')) (new sn)).
  { unfold add_from_sources in E3. unfold emitted, FromSource. rewrite Hc. destruct (u_sources u) as [l|].
    - destruct (sources_hold fl u L HL _ _ _ l (SrcSt saps1 _ _ T) _ _ A1 E3) as (new & B1 & B2 & B3 & _). exists new. split; [exact B1|]. intros sn. split; [apply B2|apply B3].
    - injection E3 as <-. exists (fun _ => []). split; [intros sn; rewrite app_nil_r; apply A1|]. intros sn. split; [reflexivity|constructor]. }
  destruct HN as (new & HN & Hnew). exists fate, new. split.
  - rewrite Hsrc. cbn [with_saps ss_saps]. eapply (looped_holds L HL); [exact H6|]. eapply (looped_holds L HL); [exact H5|].
    eapply (looped_holds L HL); [exact H4|]. exact HN.
  - intros sn. split; [|apply Hnew]. unfold Fate. case_bool_decide as Hin.
    + rewrite Hc, Ht. apply (A2 sn Hin).
    + destruct (A3 sn Hin) as [-> _]. clear. induction (pop sn) as [|p l IH]; constructor; [reflexivity|exact IH].
Qed.

(** The books of a run of [n] steps: its states, the particles stored after every step, what became of each particle in every
    step, and the new particles of every step. *)
Record Ledger (n : nat) (w w' : runst) (pop0 : string -> list particle) (ws : nat -> runst) (pop : nat -> string -> list particle)
    (fate : nat -> string -> list (option particle)) (new : nat -> string -> list particle) : Prop := {
  l_first : ws 0%nat = w;
  l_last : ws n = w';
  l_start : forall sn, pop 0%nat sn = pop0 sn;
  l_step : forall k, (k < n)%nat -> time_step fl st32 u (ws k) = Ok (ws (S k)) /\ rs_count (ws (S k)) = (rs_count w + Z.of_nat k + 1)%Z;
  l_holds : forall k, (k <= n)%nat -> StoresAll L (ss_saps (rs_src (ws k))) (pop k);
  l_books : forall k sn, (k < n)%nat -> pop (S k) sn = survivors (fate k sn) ++ new k sn /\
    Forall2 (Fate fl u (ws k) (ws (S k)) sn) (pop k sn) (fate k sn) /\
    length (new k sn) = emitted u sn (rs_count w + Z.of_nat k + 1) /\
    Forall (FromSource fl u sn (rs_count w + Z.of_nat k + 1)) (new k sn)
}.
Theorem C40_ledger n w w' pop0 : NoDup (u_charged u) -> (forall sn, Civil (u_bcs u sn)) ->
  StoresAll L (ss_saps (rs_src w)) pop0 -> time_loop fl st32 u n w = Ok w' ->
  exists ws pop fate new, Ledger n w w' pop0 ws pop fate new.
Proof using HL.
  intros Hnd Hciv. revert w pop0. induction n as [|n IH]; intros w pop0 HH E; cbn [time_loop] in E.
  - injection E as <-. exists (fun _ => w), (fun _ => pop0), (fun _ _ => []), (fun _ _ => []). split; try done; lia.
  - destruct (time_step fl st32 u w) as [w1|] eqn:E1; [|discriminate].
    destruct (C40_step w w1 pop0 Hnd Hciv HH E1) as (ft & nw & HH1 & Hb).
    pose proof (step_parts _ _ _ _ _ E1) as (_ & _ & _ & _ & _ & _ & _ & _ & _ & _ & _ & _ & _ & _ & _ & _ & Hc & _).
    destruct (IH w1 _ HH1 E) as (ws & pop & fate & new & [G1 G2 G3 G4 G5 G6]).
    exists (fun k => match k with O => w | S k => ws k end), (fun k => match k with O => pop0 | S k => pop k end),
      (fun k => match k with O => ft | S k => fate k end), (fun k => match k with O => nw | S k => new k end).
    split; [reflexivity|exact G2|reflexivity| | |].
    + intros [|k] Hk.
      * rewrite G1. split; [exact E1|]. rewrite Hc. lia.
      * destruct (G4 k ltac:(lia)) as [G7 G8]. split; [exact G7|]. rewrite G8, Hc. lia.
    + intros [|k] Hk; [exact HH|apply G5; lia].
    + intros [|k] sn Hk.
      * rewrite G1, G3. destruct (Hb sn) as (B1 & B2 & B3). rewrite Hc in *. replace (rs_count w + Z.of_nat 0 + 1)%Z with (rs_count w + 1)%Z by lia. done.
      * specialize (G6 k sn ltac:(lia)). rewrite Hc in G6.
        replace (rs_count w + Z.of_nat (S k) + 1)%Z with (rs_count w + 1 + Z.of_nat k + 1)%Z by lia. exact G6.
Qed.

(** The particles of [xs] that were deleted. *)
Definition lost (xs : list particle) (fate : list (option particle)) : list particle :=
  map fst (List.filter (fun pr => match snd pr with None => true | Some _ => false end) (combine xs fate)).

Lemma lost_sum (P : particle -> option particle -> Prop) (f : particle -> R) xs fate : Forall2 P xs fate ->
  (forall p q, P p (Some q) -> f q = f p) -> Rsum (map f xs) = Rsum (map f (survivors fate)) + Rsum (map f (lost xs fate)).
Proof using.
  intros HF Hf. induction HF as [|p r xs fate Hpr HF IH]; [cbn; lra|]. destruct r as [q|].
  - change (survivors (Some q :: fate)) with (q :: survivors fate). change (lost (p :: xs) (Some q :: fate)) with (lost xs fate).
    cbn [map]. rewrite !Rsum_cons, IH, (Hf p q Hpr). lra.
  - change (survivors (None :: fate)) with (survivors fate). change (lost (p :: xs) (None :: fate)) with (p :: lost xs fate).
    cbn [map]. rewrite !Rsum_cons, IH. lra.
Qed.

(** The balance of any quantity [f] that a particle keeps when it moves: 1 for the number of particles, the weight for the
    number of physical particles. *)
Theorem C40_balance n w w' pop0 ws pop fate new (f : particle -> R) sn :
  Ledger n w w' pop0 ws pop fate new -> (forall p q, pw q = pw p -> puid q = puid p -> is_traj q = is_traj p -> f q = f p) ->
  Rsum (map f (pop n sn)) = Rsum (map f (pop0 sn))
    + Rsum (map (fun k => Rsum (map f (new k sn))) (seq 0 n)) - Rsum (map (fun k => Rsum (map f (lost (pop k sn) (fate k sn)))) (seq 0 n)).
Proof using.
  intros [G1 G2 G3 G4 G5 G6] Hf. clear G1 G2 G4 G5. rewrite <- G3. clear G3. revert G6. induction n as [|n IH]; intros G6.
  - change (map (fun k => _) (seq 0 0)) with (@nil R) at 1. cbn. lra.
  - rewrite seq_S, !map_app, !Rsum_app. cbn [map]. cbn [Nat.add]. rewrite !Rsum_cons. destruct (G6 n sn ltac:(lia)) as (-> & HF & _).
    rewrite map_app, Rsum_app. change (Rsum []) with 0. specialize (IH (fun k s Hk => G6 k s (Nat.lt_lt_succ_r _ _ Hk))).
    rewrite (lost_sum _ f _ _ HF) in IH; [lra|]. intros p q. unfold Fate. case_bool_decide.
    + intros (H1 & H2 & H3 & _). by apply Hf.
    + intros [= ->]. reflexivity.
Qed.

(** The number of particles: the initial number, plus what the sources made, minus the deleted ones. *)
Theorem C40_number n w w' pop0 ws pop fate new sn : Ledger n w w' pop0 ws pop fate new ->
  IZR (get_number_of_items (ss_saps (rs_src w') sn)) = IZR (get_number_of_items (ss_saps (rs_src w) sn))
    + Rsum (map (fun k => INR (emitted u sn (rs_count w + Z.of_nat k + 1))) (seq 0 n))
    - Rsum (map (fun k => INR (length (lost (pop k sn) (fate k sn)))) (seq 0 n)).
Proof using.
  intros HB. pose proof (C40_balance n w w' pop0 ws pop fate new (fun _ => 1) sn HB (fun _ _ _ _ _ => eq_refl)) as H.
  assert (H1 : forall l : list particle, Rsum (map (fun _ => 1) l) = INR (length l)).
  { induction l as [|x l IHl]; [reflexivity|]. cbn [map length]. by rewrite Rsum_cons, S_INR, IHl, Rplus_comm. }
  destruct HB as [G1 G2 G3 G4 G5 G6].
  assert (Hn : forall k, (k <= n)%nat -> IZR (get_number_of_items (ss_saps (rs_src (ws k)) sn)) = INR (length (pop k sn))).
  { intros k Hk. destruct (G5 k Hk sn) as [_ [-> _]]. by rewrite INR_IZR_INZ. }
  rewrite <- G2, <- G1. rewrite !Hn by lia. rewrite G1, G3. rewrite H1 in H. rewrite H, H1.
  rewrite (map_ext_in (fun k => Rsum (map (fun _ => 1) (new k sn))) (fun k => INR (emitted u sn (rs_count w + Z.of_nat k + 1)))).
  - rewrite (map_ext (fun k => Rsum (map (fun _ => 1) (lost (pop k sn) (fate k sn)))) (fun k => INR (length (lost (pop k sn) (fate k sn))))); [reflexivity|].
    intros k. apply H1.
  - intros k Hk%in_seq. rewrite H1. f_equal. apply (G6 k sn). lia.
Qed.

(** *** IDs *)

(** The ID counter advances by the number of particles that the sources made. *)
Theorem C40_counter n w w' : time_loop fl st32 u n w = Ok w' ->
  ss_uid (rs_src w') = (ss_uid (rs_src w) + Z.of_nat (sum_list_with (fun k => emitted_all u (rs_count w + Z.of_nat k + 1)) (seq 0 n)))%Z.
Proof using.
  revert w. induction n as [|n IH]; intros w E; cbn [time_loop] in E.
  - injection E as <-. cbn. lia.
  - destruct (time_step fl st32 u w) as [w1|] eqn:E1; [|discriminate]. rewrite (IH _ E). clear IH E.
    destruct (step_parts _ _ _ _ _ E1) as (saps1 & c1 & st2 & st3 & saps4 & saps5 & saps6 & _ & (T & ->) & A3 & _ & _ & _ & _ & _ & Hsrc & Hc & _).
    assert (H1 : ss_uid st3 = (ss_uid (rs_src w) + Z.of_nat (emitted_all u (rs_count w + 1)))%Z).
    { unfold add_from_sources in A3. unfold emitted_all. destruct (u_sources u) as [l|]; [|injection A3 as <-; cbn; lia].
      rewrite (sources_counter _ _ _ _ _ _ _ _ A3). reflexivity. }
    rewrite Hsrc. cbn [with_saps ss_uid]. rewrite H1, Hc. cbn [seq sum_list_with]. rewrite <- seq_shift, Z.add_0_r.
    assert (H2 : forall l, sum_list_with (fun k => emitted_all u (rs_count w + Z.of_nat k + 1)) (map S l) =
                 sum_list_with (fun k => emitted_all u (rs_count w + 1 + Z.of_nat k + 1)) l).
    { induction l as [|k l IHl]; [reflexivity|]. cbn [map sum_list_with]. rewrite IHl. do 2 f_equal. lia. }
    rewrite H2. lia.
Qed.

Lemma steps_trans a b c : steps L a b -> steps L b c -> steps L a c.
Proof using. intros Hab Hbc. induction Hbc as [b|b c d Hbc IH Hcd]; [exact Hab|]. eapply steps_more; [by apply IH|exact Hcd]. Qed.
Lemma run_steps n w w' pop : (forall sn, Civil (u_bcs u sn)) -> NoDup (u_charged u) -> StoresAll L (ss_saps (rs_src w)) pop ->
  time_loop fl st32 u n w = Ok w' -> steps L (rs_src w) (rs_src w').
Proof using HL.
  intros Hciv Hnd. revert w pop. induction n as [|n IH]; intros w pop HH E; cbn [time_loop] in E.
  - injection E as <-. constructor.
  - destruct (time_step fl st32 u w) as [w1|] eqn:E1; [|discriminate].
    destruct (C40_step w w1 pop Hnd Hciv HH E1) as (ft & nw & HH1 & _). eapply steps_trans; [|by eapply IH]. clear IH E.
    destruct (step_parts _ _ _ _ _ E1) as (saps1 & c1 & st2 & st3 & saps4 & saps5 & saps6 & A1 & (T & ->) & A3 & H4 & _ & H5 & _ & H6 & Hsrc & _).
    destruct (advance_holds fl u L HL _ _ _ _ Hnd Hciv _ _ _ _ _ HH A1) as (fate & B1 & _).
    pose proof (advance_steps fl u L _ _ _ _ (ss_uid (rs_src w)) (ss_rng (rs_src w)) Hciv _ _ _ _ A1) as S1. cbn [usr] in S1.
    destruct (rs_src w) as [saps0 uid0 rng0 T0]. cbn [ss_saps ss_uid ss_rng ss_traj] in *.
    eapply steps_trans; [exact S1|]. eapply steps_trans; [eapply steps_more; [constructor|]; by apply (s_record L _ _ T)|].
    cbn [ss_saps ss_uid ss_rng]. eapply steps_trans.
    + unfold add_from_sources in A3. destruct (u_sources u) as [l|]; [|injection A3 as <-; constructor].
      destruct (sources_hold fl u L HL _ _ _ l (SrcSt saps1 uid0 rng0 T) _ _ B1 A3) as (new & _ & _ & _ & _ & S3). exact S3.
    + rewrite Hsrc. eapply (looped_steps L (ss_saps st3)); [|reflexivity]. by eapply looped_trans; [|eapply looped_trans]; [exact H4|exact H5|exact H6].
Qed.

(** A run that starts from a state reached from empty storage, with the ID counter at [u0], leaves no two particles with the
    same ID, in the same or in different species, as long as the IDs given before and the particles that the sources make are
    2^32 at most. *)
Theorem C40_unique_ids u0 n w w' s1 s2 i j p q : NoDup (u_charged u) -> (forall sn, Civil (u_bcs u sn)) ->
  runs L u0 (rs_src w) -> time_loop fl st32 u n w = Ok w' ->
  (ss_uid (rs_src w) - u0 + Z.of_nat (sum_list_with (fun k => emitted_all u (rs_count w + Z.of_nat k + 1)) (seq 0 n)) <= 2 ^ 32)%Z ->
  (0 <= i < get_number_of_items (ss_saps (rs_src w') s1))%Z -> get_item (ss_saps (rs_src w') s1) i = Ok (Some p) ->
  (0 <= j < get_number_of_items (ss_saps (rs_src w') s2))%Z -> get_item (ss_saps (rs_src w') s2) j = Ok (Some q) ->
  puid p = puid q -> s1 = s2 /\ i = j.
Proof using HL.
  intros Hnd Hciv Hr E Hu Hi Hp Hj Hq Hid. pose proof (C40_counter _ _ _ E) as Hcnt. destruct (runs_inv L HL u0 _ Hr) as (ks & [I1 I2 _ _ _] & _).
  assert (HH : exists pop, StoresAll L (ss_saps (rs_src w)) pop).
  { exists (fun sn => map (fun k => match get_item (ss_saps (rs_src w) sn) (Z.of_nat k) with Ok (Some x) => x | _ => u_junk u end)
       (seq 0 (Z.to_nat (get_number_of_items (ss_saps (rs_src w) sn))))).
    intros sn. split; [apply I1|]. destruct (I2 sn) as (xs & [Hn Hx] & _).
    assert (Hxs : map (fun k => match get_item (ss_saps (rs_src w) sn) (Z.of_nat k) with Ok (Some x) => x | _ => u_junk u end)
       (seq 0 (Z.to_nat (get_number_of_items (ss_saps (rs_src w) sn)))) = xs); [|rewrite Hxs; by split].
    apply list_eq. intros k. rewrite Hn, Nat2Z.id, list_lookup_fmap. destruct (xs !! k) as [x|] eqn:Ek.
    - rewrite lookup_seq_lt by (by apply lookup_lt_Some in Ek). cbn. by rewrite (Hx k x Ek).
    - rewrite lookup_seq_ge by (by apply lookup_ge_None in Ek). reflexivity. }
  destruct HH as [pop HH]. pose proof (run_steps n w w' pop Hciv Hnd HH E) as Hst.
  assert (Hr' : runs L u0 (rs_src w')). { clear - Hr Hst. induction Hst as [|a b c H IH Hs]; [exact Hr|]. eapply run_step; [by apply IH|exact Hs]. }
  eapply (C28_unique L u0 (rs_src w')); [exact HL|exact Hr'|lia|exact Hi|exact Hp|exact Hj|exact Hq|exact Hid].
Qed.

(** *** Feeding a species *)

Lemma advance_one step time negE sns sn : NoDup sns -> sn ∈ sns -> forall saps c saps' c',
  advance_species fl u step time negE sns saps c = Ok (saps', c') ->
  exists c1 c2, guarded_mover (py_ops particle) (mover_at fl u step time negE sn) (saps sn) c1 = Ok (saps' sn, c2).
Proof using.
  intros Hnd Hin.
  assert (Hout : forall l, sn ∉ l -> forall saps c saps' c', advance_species fl u step time negE l saps c = Ok (saps', c') -> saps' sn = saps sn).
  { induction l as [|s l IHl]; intros Hni saps c saps' c' E; cbn [advance_species] in E; [by injection E as <- <-|].
    apply not_elem_of_cons in Hni as [Hne Hni]. destruct (guarded_mover _ _ _ _) as [[s1 c1]|]; [|discriminate].
    rewrite (IHl Hni _ _ _ _ E). by apply set_key_other. }
  induction sns as [|s sns IH]; [inversion Hin|]. inversion_clear Hnd as [|? ? Hni Hnd']. intros saps c saps' c' E. cbn [advance_species] in E.
  destruct (guarded_mover _ _ _ _) as [[s1 c1]|] eqn:E1; [|discriminate]. destruct (decide (sn = s)) as [->|Hne].
  - rewrite (Hout sns Hni _ _ _ _ E), set_key_same. by exists c, c1.
  - apply elem_of_cons in Hin as [?|Hin]; [done|]. destruct (IH Hnd' Hin _ _ _ _ E) as (c2 & c3 & E2). exists c2, c3.
    by rewrite set_key_other in E2 by exact Hne.
Qed.

(** A step fails if a source has particles for a charged species whose last particle is deleted in this step while the segment
    length divides the number of those that are left.  This includes a species that dies out. *)
Theorem C40_feeding_refuted w pop sn xs z saps1 c1 : NoDup (u_charged u) -> (forall sn, Civil (u_bcs u sn)) ->
  StoresAll L (ss_saps (rs_src w)) pop -> sn ∈ u_charged u -> pop sn = xs ++ [z] ->
  advance_species fl u (rs_count w + 1) (fl (rs_time w + u_dt u)) (rs_negE w) (u_charged u) (ss_saps (rs_src w))
    (TCtx (rs_scr w) (ss_traj (rs_src w))) = Ok (saps1, c1) ->
  exists fate r, Stores (saps1 sn) (survivors (fate ++ [r])) /\
    Forall2 (Moved (mover_at fl u (rs_count w + 1) (fl (rs_time w + u_dt u)) (rs_negE w) sn)) (pop sn) (fate ++ [r]) /\
    ((Z.of_nat (length (survivors (fate ++ [r]))) mod L = 0)%Z -> r = None -> (0 < emitted u sn (rs_count w + 1))%nat ->
     exists e, time_step fl st32 u w = Raise e).
Proof using HL.
  intros Hnd Hciv HH Hin Hpop E1. destruct (advance_one _ _ _ _ _ Hnd Hin _ _ _ _ E1) as (c2 & c3 & Em). destruct (HH sn) as [HR HS].
  rewrite Hpop in HS. destruct (C47_mover_accepts L (fun _ => True) _ _ xs z _ _ _ HL ltac:(done) I HR HS Em) as (fate & r & HF & HS1 & Hacc). exists fate, r. split; [exact HS1|]. split.
  - rewrite Hpop. eapply Forall2_impl; [exact HF|]. intros p r' (c0 & i & q & c4 & _ & Ea & ->). cbn [deleted mover_at charged_hooks].
    destruct (is_deleted q) eqn:Eq; [by exists c0, i, q, c4|].
    destruct (mover_identity fl sn _ _ _ _ _ _ (mo_charged _ _ _ _ _ _ _ _ _ _ _ _ _ _ _ (Hciv sn)) Ea) as (? & ? & ?). unfold Moved. repeat (split; [assumption|]). by exists c0, i, c4.
  - intros Hk -> Hem. rewrite Hk in Hacc. cbn [Z.eqb andb] in Hacc.
    destruct (time_step fl st32 u w) as [w'|e] eqn:E; [|by eexists]. exfalso.
    destruct (step_parts _ _ _ _ _ E) as (saps1' & c1' & st2 & st3 & _ & _ & _ & E1' & (T & ->) & E3 & _).
    rewrite E1 in E1'. injection E1' as <- <-. destruct (advance_holds fl u L HL _ _ _ _ Hnd Hciv _ _ _ _ _ HH E1) as (ft & A1 & _).
    unfold add_from_sources in E3. unfold emitted in Hem. destruct (u_sources u) as [l|]; [|cbn in Hem; lia].
    destruct (refuses_sources fl u L HL (rs_count w + 1) (fl (rs_time w + u_dt u)) (rs_negE w) sn l (SrcSt saps1 (ss_uid (rs_src w)) (ss_rng (rs_src w)) T)) as [e E4]; [exact Hacc|exact Hem| |congruence].
    intros s. exists (survivors (ft s)). apply A1.
Qed.
End Run.

(** The clock in exact arithmetic. *)
Theorem C40_clock_exact st32 u n w w' : time_loop exact st32 u n w = Ok w' ->
  rs_count w' = (rs_count w + Z.of_nat n)%Z /\ rs_time w' = rs_time w + INR n * u_dt u.
Proof.
  intros E. apply C40_clock in E as [H1 H2]. split; [exact H1|]. rewrite H2. clear. induction n as [|n IH].
  - cbn. lra.
  - change (exact (Nat.iter n (fun t => exact (t + u_dt u)) (rs_time w) + u_dt u) = rs_time w + INR (S n) * u_dt u).
    rewrite IH, S_INR. unfold exact. lra.
Qed.

(** After every step the densities, the charge and the field are those of the particles that are stored then: the ones that
    moved together with the new ones, and none of those that were deleted.  Excluded are species that lost their last particle
    (C31 shows that the density then counts deleted ones). *)
Theorem C40_charge_current st32 u (L : Z) (vl : nat -> R) d w w' pop pop' : (1 <= L)%Z ->
  NoDup (u_charged u) -> (forall sn, Civil (u_bcs u sn)) -> NoDup (u_names u) ->
  DofSpace (u_fD u) (u_ncell u) (u_ndof u) -> CellSpace (u_fC u) (u_ncell u) d ->
  (forall c : nat, (c < u_ncell u)%nat -> u_vol u (Z.of_nat c) = Some (vl c)) ->
  StoresAll L (ss_saps (rs_src w)) pop -> StoresAll L (ss_saps (rs_src w')) pop' ->
  (forall sn, sn ∈ u_names u -> InMesh (u_ncell u) (pop' sn) /\ (pop' sn = [] -> NeverPushed L (ss_saps (rs_src w) sn))) ->
  time_step exact st32 u w = Ok w' ->
  (forall i, at_ (rs_rho w') i =
     Rsum (map (fun sn => u_charge u sn * Rsum (map (fun p => pw p * spread (u_fD u) (u_gdim u) i p) (pop' sn))) (u_names u))) /\
  (forall sn i, sn ∈ u_names u -> at_ (rs_dofs w' sn) i = Rsum (map (fun p => pw p * spread (u_fD u) (u_gdim u) i p) (pop' sn))) /\
  (forall sn c, sn ∈ u_names u -> (c < u_ncell u)%nat -> at_ (rs_cells w' sn) (d c) = cell_weight (Z.of_nat c) (pop' sn) / vl c) /\
  u_solve u (rs_rho w') = Ok (rs_negE w') /\
  (forall sn, sn ∈ u_names u -> pop' sn = [] -> NeverPushed L (ss_saps (rs_src w') sn)).
Proof.
  intros HL Hnd Hciv Hnn HD HC Hv HH HH' Hpop E.
  destruct (step_parts _ _ _ _ _ E) as (saps1 & c1 & st2 & st3 & saps4 & saps5 & saps6 & E1 & (T & ->) & E3 & H4 & Ed & H5 & Es & H6 & Hsrc & Hc & Ht).
  destruct (advance_holds exact u L HL _ _ _ _ Hnd Hciv _ _ _ _ _ HH E1) as (fate & A1 & A2 & A3 & A4).
  assert (HN : exists new, StoresAll L (ss_saps st3) (fun sn => survivors (fate sn) ++ new sn) /\ (forall sn, new sn = [] -> ss_saps st3 sn = saps1 sn)).
  { unfold add_from_sources in E3. destruct (u_sources u) as [l|].
    - destruct (sources_hold exact u L HL _ _ _ l (SrcSt saps1 _ _ T) _ _ A1 E3) as (new & B1 & _ & _ & B4 & _). exists new. by split.
    - injection E3 as <-. exists (fun _ => []). split; [intros sn; rewrite app_nil_r; apply A1|done]. }
  destruct HN as (new & HN & Hsame).
  assert (Hp : forall sn, pop' sn = survivors (fate sn) ++ new sn).
  { assert (HL6 : StoresAll L saps6 (fun sn => survivors (fate sn) ++ new sn)).
    { eapply (looped_holds L HL); [exact H6|]. eapply (looped_holds L HL); [exact H5|]. eapply (looped_holds L HL); [exact H4|]. exact HN. }
    intros sn. destruct (HH' sn) as [_ HS]. destruct (HL6 sn) as [_ HS6]. rewrite Hsrc in HS. exact (stores_inj _ _ _ HS HS6). }
  assert (HCt : forall sn, sn ∈ u_names u -> Counted L (ss_saps st3 sn) (pop' sn)).
  { intros sn Hsn. split; [apply HN|]. split; [rewrite Hp; apply HN|]. intros Hnil. destruct (Hpop sn Hsn) as [_ Hnp].
    specialize (Hnp Hnil). rewrite Hp in Hnil. apply app_eq_nil in Hnil as [_ Hn]. rewrite (Hsame sn Hn).
    destruct (never_pushed_rel L HL _ Hnp) as (a & Ha & Hi & _). destruct (HH sn) as [_ HS].
    pose proof (rel_stores_eq L HL _ a _ Ha HS) as Hq. rewrite Hi in Hq. rewrite (A4 sn); [exact Hnp|by symmetry]. }
  assert (HC4 : forall sn, sn ∈ u_names u -> Counted L (saps4 sn) (pop' sn)).
  { intros sn Hsn. eapply (looped_counted L HL); [exact H4|by apply HCt]. }
  destruct (C33_assembled_charge L (u_ncell u) (u_gdim u) (u_ndof u) (u_vol u) vl (u_junk u) (u_fD u) (u_fC u) d (u_charge u) (u_names u) saps4 pop' HL HD HC Hv Hnn)
    as (s' & r' & d' & c' & Ed' & G1 & G2 & G3 & G4 & G5).
  { intros sn Hsn. split; [by apply HC4|by apply Hpop]. }
  rewrite Ed in Ed'. injection Ed' as <- <- <- <-. split; [exact G3|]. split; [exact G4|]. split; [exact G5|]. split; [exact Es|].
  intros sn Hsn Hnil. assert (HC6 : Counted L (ss_saps (rs_src w') sn) (pop' sn)); [|by apply HC6].
  rewrite Hsrc. eapply (looped_counted L HL); [exact H6|]. by apply G1.
Qed.

(** The examples are at the end of RunTotalProps.v. *)

Print Assumptions C40_clock.
Print Assumptions C40_clock_exact.
Print Assumptions C40_step.
Print Assumptions C40_ledger.
Print Assumptions C40_balance.
Print Assumptions C40_number.
Print Assumptions C40_counter.
Print Assumptions C40_unique_ids.
Print Assumptions C40_feeding_refuted.
Print Assumptions C40_charge_current.
