(** C51: recording trajectories changes nothing else in a run. *)
From Coq Require Import String.
From stdpp Require Import strings numbers list list_numbers.
From Verif Require Import SapModel MoverModel SapProofs SapSpec SapRefine StorageProps.
From Verif Require Import Vec VecProofs Rounding TrackModel TrajModel TrajProofs TrajProps TrajRecProps DiagModel DiagProofs DumpProps SumProps HistoryProps.
From Verif Require Import AcceptProps DensityModel DensityProps SourceModel SourceProps UidProps RunModel RunProps.
Local Open Scope R_scope.

(** ** Specification *)

(** The same state without trajectories: [traj_T] is None. *)
Definition untraced (c : tctx (K:=option traj)) : tctx (K:=option traj) := TCtx (scr c) None.
Definition no_traj (st : srcst) : srcst := with_traj st None.
Definition no_trajs (w : runst) : runst :=
  RunSt (rs_count w) (rs_time w) (rs_scr w) (no_traj (rs_src w)) (rs_out w) (rs_rho w) (rs_dofs w) (rs_cells w) (rs_negE w) (rs_hist w).

(** Boundary functions that neither use nor change the trajectories. *)
Definition Oblivious (bcs : Z -> option (bcfun (K:=option traj))) : Prop :=
  forall v bc c p mf f n, bcs v = Some bc ->
    bc c p mf f n = let! (q, c1) := bc (untraced c) p mf f n in Ok (q, TCtx (scr c1) (usr c)).
Lemma oblivious_same bcs v bc c p mf f n q c' : Oblivious bcs -> bcs v = Some bc -> bc c p mf f n = Ok (q, c') ->
  bc (untraced c) p mf f n = Ok (q, untraced c').
Proof.
  intros HO Hb E. rewrite (HO _ _ c p mf f n Hb) in E. pose proof (HO _ _ (untraced c) p mf f n Hb) as E2. unfold untraced at 2 in E2.
  change (TCtx (scr (untraced c)) None) with (untraced c) in E2. destruct (bc (untraced c) p mf f n) as [[q1 c1]|]; [|discriminate].
  injection E as <- <-. rewrite E2. reflexivity.
Qed.

(** ** The movers *)
Section Same.
Context {A C : Type} (er : C -> C) (hk : hooks A C).
Context (Hadv : forall c i p q c1, adv hk c i p = Ok (q, c1) -> adv hk (er c) i p = Ok (q, er c1)).
Context (Hkeep : forall c ch i j q c1, on_keep hk c ch i j q = Ok c1 -> on_keep hk (er c) ch i j q = Ok (er c1)).
Context (Hdrop : forall c i p q c1, on_drop hk c i p q = Ok c1 -> on_drop hk (er c) i p q = Ok (er c1)).
Definition er_ms (m : mstate A C) : mstate A C :=
  MState (ms_sap m) (ms_oarr m) (ms_oseg m) (ms_ipOut m) (ms_count m) (ms_change m) (er (ms_ctx m)).
Lemma particle_same iarr iseg m ip m' : mover_particle (py_ops A) hk iarr iseg m ip = Ok m' ->
  mover_particle (py_ops A) hk iarr iseg (er_ms m) ip = Ok (er_ms m').
Proof using Hadv Hkeep Hdrop.
  unfold mover_particle. intros E. destruct m as [s oa os ipo cnt ch c]. unfold er_ms. cbn [ms_sap ms_oarr ms_oseg ms_ipOut ms_count ms_change ms_ctx] in *.
  destruct (if (ipo =? slen s)%Z then _ else _) as [m1|] eqn:E1; [|discriminate].
  assert ((if (ipo =? slen s)%Z then let! (s1, seg) := op_next_out (py_ops A) s in Ok (MState s1 (out_sa s1) seg 0 cnt ch (er c))
    else Ok (MState s oa os ipo cnt ch (er c))) = Ok (er_ms m1)) as ->.
  { destruct (ipo =? slen s)%Z; [|injection E1 as <-; reflexivity]. destruct (op_next_out _ s) as [[s1 seg]|]; [|discriminate]. injection E1 as <-. reflexivity. }
  destruct m1 as [s1 oa1 os1 ipo1 cnt1 ch1 c1]. unfold er_ms. cbn [ms_sap ms_oarr ms_oseg ms_ipOut ms_count ms_change ms_ctx] in *.
  destruct (fetch _ _ _) as [[p|]|]; [|discriminate|discriminate]. destruct (negb _); [discriminate|].
  destruct (get_full_indices s1 ip ipo1) as [fi fo]. destruct (adv hk c1 fi p) as [[q c2]|] eqn:Ea; [|discriminate]. rewrite (Hadv _ _ _ _ _ Ea).
  destruct (store _ _ _ _) as [a1|]; [|discriminate]. destruct (deleted hk q).
  - destruct (on_drop hk c2 fi p q) as [c3|] eqn:Ed; [|discriminate]. rewrite (Hdrop _ _ _ _ _ Ed). cbn [ms_sap ms_oarr ms_oseg ms_ipOut ms_count ms_change ms_ctx] in *.
    injection E as <-. destruct (ipo1 =? slen s)%Z; reflexivity.
  - destruct (on_keep hk c2 ch1 fi fo q) as [c3|] eqn:Ek; [|discriminate]. rewrite (Hkeep _ _ _ _ _ _ Ek). cbn [ms_sap ms_oarr ms_oseg ms_ipOut ms_count ms_change ms_ctx] in *.
    injection E as <-. destruct (ipo1 + 1 =? slen s)%Z; reflexivity.
Qed.
Lemma segment_same iarr iseg k : forall m ip m', mover_segment (py_ops A) hk iarr iseg m ip k = Ok m' ->
  mover_segment (py_ops A) hk iarr iseg (er_ms m) ip k = Ok (er_ms m').
Proof using Hadv Hkeep Hdrop.
  induction k as [|k IH]; intros m ip m' E; cbn [mover_segment] in *; [injection E as <-; reflexivity|].
  destruct (mover_particle _ _ _ _ m ip) as [m1|] eqn:E1; [|discriminate]. rewrite (particle_same _ _ _ _ _ E1). by apply IH.
Qed.
Lemma segments_same iarr fuel : forall m iseg np m', mover_segments (py_ops A) hk fuel m iarr iseg np = Ok m' ->
  mover_segments (py_ops A) hk fuel (er_ms m) iarr iseg np = Ok (er_ms m').
Proof using Hadv Hkeep Hdrop.
  induction fuel as [|fuel IH]; intros m iseg np m' E; cbn [mover_segments] in *; [discriminate|].
  destruct (mover_segment _ _ _ _ m _ _) as [m1|] eqn:E1; [|discriminate]. rewrite (segment_same _ _ _ _ _ _ E1).
  destruct m1 as [s oa os ipo cnt ch c]. unfold er_ms at 1 2 3 4 5. cbn [ms_sap ms_oarr ms_oseg ms_ipOut ms_count ms_change ms_ctx er_ms] in *.
  destruct (op_next_in _ s) as [[s2 np2]|]; [|discriminate]. destruct (np2 =? 0)%Z; [injection E as <-; reflexivity|]. apply IH in E. exact E.
Qed.
Lemma mover_same s c s' c' : guarded_mover (py_ops A) hk s c = Ok (s', c') -> guarded_mover (py_ops A) hk s (er c) = Ok (s', er c').
Proof using Hadv Hkeep Hdrop.
  unfold guarded_mover. destruct (_ =? 0)%Z; [intros [= <- <-]; reflexivity|]. unfold mover.
  destruct (op_init_inout _ s) as [[s1 [np go]]|]; [|discriminate].
  intros E. destruct (if go then _ else _) as [m|] eqn:E1; [|discriminate].
  assert ((if go then mover_segments (py_ops A) hk (Z.to_nat (nseg (arr s1 (in_sa s1)) + 1)) (MState s1 (out_sa s1) 0 0 0 false (er c)) (in_sa s1) 0 np
    else Ok (MState s1 (out_sa s1) 0 0 0 false (er c))) = Ok (er_ms m)) as ->.
  { destruct go; [|injection E1 as <-; reflexivity]. apply segments_same in E1. exact E1. }
  injection E as <- <-. reflexivity.
Qed.
End Same.

Section Track.
Context (fl : R -> R) (bcs : Z -> option (bcfun (K:=option traj))) (HO : Oblivious bcs).
Context (recd : tctx (K:=option traj) -> Z -> particle -> R -> res (tctx (K:=option traj))).
Context (Hrec : forall c i p t c', recd c i p t = Ok c' -> recd (untraced c) i p t = Ok (untraced c')).
Lemma on_marker_same m fi mf f n t p c q c' : on_marker bcs recd m fi mf f n t p c = Ok (q, c') ->
  on_marker bcs recd m fi mf f n t p (untraced c) = Ok (q, untraced c').
Proof using HO Hrec.
  unfold on_marker. destruct (_ =? 0)%Z; [intros [= <- <-]; reflexivity|].
  destruct (if is_traj p then recd c fi p t else Ok c) as [c1|] eqn:E1; [|discriminate].
  assert ((if is_traj p then recd (untraced c) fi p t else Ok (untraced c)) = Ok (untraced c1)) as ->.
  { destruct (is_traj p); [by apply Hrec|injection E1 as <-; reflexivity]. }
  destruct (bcs (marker m mf)) as [bc|] eqn:Eb; [|discriminate]. by apply (oblivious_same bcs (marker m mf)).
Qed.
Lemma track_loop_same k m maxc fi : forall fuel ci ml cnt tS dtR p c q n c',
  track_loop fl bcs recd fuel k m maxc fi ci ml cnt tS dtR p c = Ok (q, n, c') ->
  track_loop fl bcs recd fuel k m maxc fi ci ml cnt tS dtR p (untraced c) = Ok (q, n, untraced c').
Proof using HO Hrec.
  induction fuel as [|fuel IH]; intros ci ml cnt tS dtR p c q n c' E; cbn [track_loop] in *; [discriminate|].
  destruct (cells m ci) as [cr|]; [|discriminate].
  destruct (inside m ci _); [injection E as <- <- <-; reflexivity|].
  destruct (_ <? _)%Z; [discriminate|].
  destruct (find_facet _ _ _ _ _) as [[[cf f] nn]|]; [|discriminate]. cbv beta iota zeta in *.
  destruct (cf =? NO_FACET)%Z; [discriminate|].
  destruct (py_get (fids cr) cf) as [mf|]; [|discriminate].
  destruct (mf =? ml)%Z; [discriminate|].
  destruct (on_marker bcs recd _ _ _ _ _ _ _ _) as [[p2 c2]|] eqn:E1; [|discriminate]. apply on_marker_same in E1.
  assert (Hput : forall dx, put_move k (untraced c) dx = untraced (put_move k c dx)) by (intros dx; destruct k; reflexivity). rewrite Hput, E1.
  destruct (py_get (nbrs cr) cf) as [cn|]; [|discriminate].
  destruct (cn =? NO_CELL)%Z; [|by apply IH]. destruct (is_deleted p2); [|by apply IH]. injection E as <- <- <-. reflexivity.
Qed.
Lemma track_same k m maxc fi time dt p c q c' : track fl bcs recd k m maxc fi time dt p c = Ok (q, c') ->
  track fl bcs recd k m maxc fi time dt p (untraced c) = Ok (q, untraced c').
Proof using HO Hrec.
  unfold track. destruct (track_loop _ _ _ _ _ _ _ _ _ _ _ _ _ p c) as [[[q1 n] c1]|] eqn:E; [|discriminate].
  rewrite (track_loop_same _ _ _ _ _ _ _ _ _ _ _ _ _ _ _ E). intros [= <- <-]. reflexivity.
Qed.
End Track.

(** The movers with their own arguments and boundary functions that do not use the trajectories. *)
Inductive Tracer (fl : R -> R) (sn : string) : hooks particle (tctx (K:=option traj)) -> Prop :=
| tr_charged step time dt qom maxc m bcs dE negE Eext solved ext ao : Oblivious bcs ->
    Tracer fl sn (charged_hooks fl sn step time dt qom maxc m bcs dE negE Eext solved ext ao)
| tr_neutral step time dt maxc m bcs : Oblivious bcs -> Tracer fl sn (neutral_hooks fl sn step time dt maxc m bcs).

Lemma keep_same sn c ch i j q c1 : keep_particle sn c ch i j q = Ok c1 -> keep_particle sn (untraced c) ch i j q = Ok (untraced c1).
Proof.
  unfold keep_particle. cbn [untraced usr]. destruct (usr c) as [T|]; [|intros [= <-]; reflexivity].
  destruct (is_traj q && ch); [|intros [= <-]; reflexivity]. destruct (update_particleId _ _ _ _); [|discriminate]. intros [= <-]. reflexivity.
Qed.
Lemma drop_same fl sn step time dt zE c i p q c1 : drop_particle fl sn step time dt zE c i p q = Ok c1 ->
  drop_particle fl sn step time dt zE (untraced c) i p q = Ok (untraced c1).
Proof.
  unfold drop_particle. cbn [untraced usr]. destruct (usr c) as [T|]; [|intros [= <-]; reflexivity].
  destruct (is_traj p); [|intros [= <-]; reflexivity]. destruct (remove_particleId _ _ _ _ _ _ _ _ _); [|discriminate]. intros [= <-]. reflexivity.
Qed.
Lemma crossing_charged_same sn step dE Es Eext ext pin c i p t c' : rec_crossing_charged sn step dE Es Eext ext pin c i p t = Ok c' ->
  rec_crossing_charged sn step dE Es Eext ext pin (untraced c) i p t = Ok (untraced c').
Proof.
  unfold rec_crossing_charged. destruct Es as [e|]; [|discriminate]. destruct (match Eext with Some _ => _ | None => _ end) as [x|]; [|discriminate].
  cbn [untraced usr record_datum]. destruct (record_datum (usr c) _ _ _ _ _ _ _ _); [|discriminate]. intros [= <-]. reflexivity.
Qed.
Lemma crossing_neutral_same sn step c i p t c' : rec_crossing_neutral sn step c i p t = Ok c' ->
  rec_crossing_neutral sn step (untraced c) i p t = Ok (untraced c').
Proof.
  unfold rec_crossing_neutral. cbn [untraced usr record_datum]. destruct (record_datum (usr c) _ _ _ _ _ _ _ _); [|discriminate]. intros [= <-]. reflexivity.
Qed.
Lemma tracer_adv fl sn hk c i p q c1 : Tracer fl sn hk -> adv hk c i p = Ok (q, c1) -> adv hk (untraced c) i p = Ok (q, untraced c1).
Proof.
  intros [step time dt qom maxc m bcs dE negE Eext solved ext ao HO|step time dt maxc m bcs HO]; cbn [charged_hooks neutral_hooks adv].
  - destruct (select_E _ _ _ _ _ _ _) as [Es|]; [|discriminate]. apply track_same; [exact HO|]. intros *. apply crossing_charged_same.
  - apply track_same; [exact HO|]. intros *. apply crossing_neutral_same.
Qed.

(** A pass that records trajectories moves, stores and deletes the particles exactly as a pass that does not. *)
Theorem C51_movers fl sn hk s c s' c' : Tracer fl sn hk ->
  guarded_mover (py_ops particle) hk s c = Ok (s', c') -> guarded_mover (py_ops particle) hk s (untraced c) = Ok (s', untraced c').
Proof.
  intros HT. apply mover_same.
  - intros *. by apply (tracer_adv fl sn).
  - intros *. destruct HT; apply keep_same.
  - intros *. destruct HT; apply drop_same.
Qed.

(** ** The program *)
Section Run.
Context (fl st32 : R -> R) (u : setup) (HO : forall sn, Oblivious (u_bcs u sn)).

Lemma advance_same step time negE sns : forall saps c saps' c', advance_species fl u step time negE sns saps c = Ok (saps', c') ->
  advance_species fl u step time negE sns saps (untraced c) = Ok (saps', untraced c').
Proof using HO.
  induction sns as [|sn sns IH]; intros saps c saps' c' E; cbn [advance_species] in *; [injection E as <- <-; reflexivity|].
  destruct (guarded_mover _ _ _ c) as [[s1 c1]|] eqn:E1; [|discriminate]. apply (C51_movers fl sn) in E1; [|by constructor]. rewrite E1. by apply IH.
Qed.
Lemma add_same first sn step time E Ex s T p s' T' : add_particle first sn step time E Ex s T p = Ok (s', T') ->
  add_particle first sn step time E Ex s None p = Ok (s', None).
Proof using.
  unfold add_particle. destruct (push_back s p) as [[s1 [seg full]]|]; [|discriminate]. destruct (is_traj p); [|intros [= <- _]; reflexivity].
  destruct T as [T|]; [|intros [= <- _]; reflexivity]. cbv zeta. destruct first; [|intros [= <- _]; reflexivity].
  destruct (current_out_item s1 seg) as [[q|]|]; [|discriminate|discriminate].
  destruct (record_datum _ _ _ _ _ _ _ _ _); [|discriminate]. intros [= <- _]. reflexivity.
Qed.
Lemma new_particle_same nE Ex sn step time g drift c w ip st st' :
  new_particle fl (u_pdim u) (u_rnd u) (u_fuel u) (u_dE u) nE Ex sn step time g drift c w ip st = Ok st' ->
  new_particle fl (u_pdim u) (u_rnd u) (u_fuel u) (u_dE u) nE Ex sn step time g drift c w ip (no_traj st) = Ok (no_traj st').
Proof using.
  unfold new_particle. cbn [no_traj with_traj ss_saps ss_uid ss_rng ss_traj].
  destruct (match ip with O => _ | S _ => _ end) as [[x k]|]; [|discriminate]. destruct (negb _); [discriminate|]. cbv zeta.
  destruct (add_particle _ _ _ _ _ _ _ (ss_traj st) _) as [[s1 T1]|] eqn:Ea; [|discriminate]. apply add_same in Ea. rewrite Ea. intros [= <-]. reflexivity.
Qed.
Lemma new_particles_same nE Ex sn step time g drift c w ips : forall st st',
  new_particles fl (u_pdim u) (u_rnd u) (u_fuel u) (u_dE u) nE Ex sn step time g drift c w ips st = Ok st' ->
  new_particles fl (u_pdim u) (u_rnd u) (u_fuel u) (u_dE u) nE Ex sn step time g drift c w ips (no_traj st) = Ok (no_traj st').
Proof using.
  induction ips as [|ip ips IH]; intros st st' E; cbn [new_particles] in *; [injection E as <-; reflexivity|].
  destruct (new_particle _ _ _ _ _ _ _ _ _ _ _ _ _ _ _ st) as [st1|] eqn:E1; [|discriminate]. apply new_particle_same in E1. rewrite E1. by apply IH.
Qed.
Lemma new_cells_same nE Ex sn step time g drift mult n cs : forall st st',
  new_cells fl (u_pdim u) (u_rnd u) (u_fuel u) (u_dE u) nE Ex sn step time g drift mult n cs st = Ok st' ->
  new_cells fl (u_pdim u) (u_rnd u) (u_fuel u) (u_dE u) nE Ex sn step time g drift mult n cs (no_traj st) = Ok (no_traj st').
Proof using.
  induction cs as [|c cs IH]; intros st st' E; cbn [new_cells] in *; [injection E as <-; reflexivity|].
  destruct (new_particles _ _ _ _ _ _ _ _ _ _ _ _ _ _ _ st) as [st1|] eqn:E1; [|discriminate]. apply new_particles_same in E1. rewrite E1. by apply IH.
Qed.
Lemma maxwellian_same nE Ex step time dom q st st' :
  create_maxwellian fl (u_names u) (u_spherical u) (u_pdim u) (u_pi4 u) (u_rnd u) (u_fuel u) (u_dE u) nE Ex step time dom q st = Ok st' ->
  create_maxwellian fl (u_names u) (u_spherical u) (u_pdim u) (u_pi4 u) (u_rnd u) (u_fuel u) (u_dE u) nE Ex step time dom q (no_traj st) = Ok (no_traj st').
Proof using. unfold create_maxwellian. destruct (negb _); [discriminate|]. destruct (weight_mult _ _ _ _); [|discriminate]. apply new_cells_same. Qed.
Lemma sources_same step time negE st st' : add_from_sources fl u step time negE st = Ok st' ->
  add_from_sources fl u step time negE (no_traj st) = Ok (no_traj st').
Proof using.
  unfold add_from_sources. destruct (u_sources u) as [l|]; [|intros [= <-]; reflexivity]. revert st.
  induction l as [|[dom q] l IH]; intros st E; cbn [source_list map add_more_particles fst snd] in *; [injection E as <-; reflexivity|].
  destruct (_ =? 0)%Z; [discriminate|]. destruct (_ =? 0)%Z.
  - destruct (create_maxwellian _ _ _ _ _ _ _ _ _ _ _ _ _ _ st) as [st1|] eqn:E1; [|discriminate]. apply maxwellian_same in E1. rewrite E1. by apply IH.
  - by apply IH.
Qed.
Lemma sample_same step time negE st st' : record_trajectories fl u step time negE st = Ok st' ->
  record_trajectories fl u step time negE (no_traj st) = Ok (no_traj st').
Proof using.
  unfold record_trajectories. cbn [no_traj with_traj ss_traj]. destruct (ss_traj st); [|intros [= <-]; reflexivity].
  destruct (record_trajectory_data _ _ _ _ _ _ _ _ _ _); [|discriminate]. intros [= <-]. reflexivity.
Qed.
Lemma write_same close step time st o st' o' : write_snapshot fl u close step time (st, o) = Ok (st', o') ->
  write_snapshot fl u close step time (no_traj st, o) = Ok (no_traj st', o').
Proof using. unfold write_snapshot. cbn [no_traj with_traj ss_saps]. destruct (write_particles _ _ _ _ _ _ _ _ _ _) as [o1|]; [|discriminate]. intros [= <- <-]. reflexivity. Qed.
Lemma history_same step time st h st' h' : record_run_history fl st32 u step time (st, h) = Ok (st', h') ->
  record_run_history fl st32 u step time (no_traj st, h) = Ok (no_traj st', h').
Proof using.
  unfold record_run_history. cbn [fst snd no_traj with_traj ss_saps]. destruct h as [h|]; [|intros [= <- <-]; reflexivity].
  destruct (record_history _ _ _ _ _ _ _ _ _) as [[s1 h1]|]; [|discriminate]. intros [= <- <-]. reflexivity.
Qed.
Lemma step_same w w' : time_step fl st32 u w = Ok w' -> time_step fl st32 u (no_trajs w) = Ok (no_trajs w').
Proof using HO.
  intros E. unfold time_step in *. cbn [no_trajs rs_count rs_time rs_scr rs_src rs_out rs_rho rs_dofs rs_cells rs_negE rs_hist] in *.
  destruct (advance_species _ _ _ _ _ _ _ _) as [[saps1 c1]|] eqn:E1; [|discriminate]. apply advance_same in E1. unfold untraced in E1. cbn [scr] in E1.
  cbn [no_traj with_traj ss_saps ss_traj ss_uid ss_rng]. rewrite E1. cbn [usr scr].
  set (st1 := SrcSt saps1 (ss_uid (rs_src w)) (ss_rng (rs_src w)) (usr c1)) in *.
  destruct (match ss_traj st1 with None => Ok st1 | Some _ => _ end) as [st2|] eqn:E2; [|discriminate].
  assert (H2 : no_traj st2 = no_traj st1 /\ ss_saps st2 = ss_saps st1).
  { destruct (ss_traj st1) as [T|] eqn:ET; [|injection E2 as <-; split; reflexivity]. apply every_ok in E2 as [[_ E2]| ->]; [|split; reflexivity].
    unfold record_trajectories in E2. rewrite ET in E2. destruct (record_trajectory_data _ _ _ _ _ _ _ _ _ _); [|discriminate]. injection E2 as <-. split; reflexivity. }
  destruct (add_from_sources _ _ _ _ _ st2) as [st3|] eqn:E3; [|discriminate]. apply sources_same in E3. rewrite (proj1 H2) in E3.
  change (SrcSt saps1 (ss_uid (rs_src w)) (ss_rng (rs_src w)) None) with (no_traj st1). rewrite E3.
  destruct (match u_out_interval u with None => _ | Some _ => _ end) as [[st4 o4]|] eqn:E4; [|discriminate].
  assert (match u_out_interval u with None => Ok (no_traj st3, rs_out w)
    | Some k => every k (rs_count w + 1)%Z (write_snapshot fl u false (rs_count w + 1)%Z (fl (rs_time w + u_dt u))) (no_traj st3, rs_out w) end = Ok (no_traj st4, o4)) as ->.
  { destruct (u_out_interval u) as [k|]; [|injection E4 as <- <-; reflexivity]. unfold every in E4 |- *. destruct (k =? 0)%Z; [discriminate|].
    destruct (_ mod k =? 0)%Z; [by apply write_same|injection E4 as <- <-; reflexivity]. }
  change (ss_saps (no_traj st4)) with (ss_saps st4).
  destruct (density_update _ _ _ _ _ _ _ _ _ _ _) as [[[[saps5 rho] dofs] cells]|]; [|discriminate].
  destruct (u_solve u rho) as [negE|]; [|discriminate].
  destruct (match rs_hist w with None => _ | Some _ => _ end) as [[st6 h6]|] eqn:E6; [|discriminate].
  change (with_saps (no_traj st4) saps5) with (no_traj (with_saps st4 saps5)).
  assert (match rs_hist w with None => Ok (no_traj (with_saps st4 saps5), None)
    | Some _ => every (u_hist_skip u) (rs_count w + 1)%Z (record_run_history fl st32 u (rs_count w + 1)%Z (fl (rs_time w + u_dt u))) (no_traj (with_saps st4 saps5), rs_hist w) end
    = Ok (no_traj st6, h6)) as ->.
  { destruct (rs_hist w) as [k|]; [|injection E6 as <- <-; reflexivity]. unfold every in E6 |- *. destruct (u_hist_skip u =? 0)%Z; [discriminate|].
    destruct (_ mod u_hist_skip u =? 0)%Z; [by apply history_same|injection E6 as <- <-; reflexivity]. }
  injection E as <-. reflexivity.
Qed.
Lemma loop_same n : forall w w', time_loop fl st32 u n w = Ok w' -> time_loop fl st32 u n (no_trajs w) = Ok (no_trajs w').
Proof using HO.
  induction n as [|n IH]; intros w w' E; cbn [time_loop] in *; [injection E as <-; reflexivity|].
  destruct (time_step _ _ _ w) as [w1|] eqn:E1; [|discriminate]. apply step_same in E1. rewrite E1. by apply IH.
Qed.
Lemma list_same sn ps : forall st st', create_from_list sn ps st = Ok st' -> create_from_list sn ps (no_traj st) = Ok (no_traj st').
Proof using.
  induction ps as [|p ps IH]; intros st st' E; cbn [create_from_list] in *; [injection E as <-; reflexivity|].
  destruct (add_particle _ _ _ _ _ _ _ _ _) as [[s1 T1]|] eqn:Ea; [|discriminate]. apply add_same in Ea.
  cbn [no_traj with_traj ss_saps ss_uid ss_rng ss_traj]. rewrite Ea. apply IH in E. exact E.
Qed.
Lemma initial_same l : forall st st',
  initialize_particles fl (u_names u) (u_spherical u) (u_pdim u) (u_pi4 u) (u_rnd u) (u_fuel u) (u_dE u) ANone l st = Ok st' ->
  initialize_particles fl (u_names u) (u_spherical u) (u_pdim u) (u_pi4 u) (u_rnd u) (u_fuel u) (u_dE u) ANone l (no_traj st) = Ok (no_traj st').
Proof using.
  induction l as [|[sn ps|q r|] l IH]; intros st st' E; cbn [initialize_particles] in *; [injection E as <-; reflexivity| |discriminate|discriminate].
  destruct (negb _); [discriminate|]. destruct (create_from_list sn ps st) as [st1|] eqn:E1; [|discriminate]. apply list_same in E1. rewrite E1. by apply IH.
Qed.
Lemma init_same file ini w w' : initialization fl st32 u file ini w = Ok w' -> initialization fl st32 u file ini (no_trajs w) = Ok (no_trajs w').
Proof using.
  intros E. unfold initialization in *. cbn [no_trajs rs_count rs_time rs_scr rs_src rs_out rs_rho rs_dofs rs_cells rs_negE rs_hist] in *.
  set (o := if file then _ else _) in *. clearbody o.
  destruct (match ini with None => _ | Some _ => _ end) as [w2|] eqn:E2; [|discriminate].
  assert (match ini with None => Ok (RunSt (rs_count w) (rs_time w) (rs_scr w) (no_traj (rs_src w)) o (rs_rho w) (rs_dofs w) (rs_cells w) (rs_negE w) (rs_hist w))
    | Some l => initial_particles fl u file l (RunSt (rs_count w) (rs_time w) (rs_scr w) (no_traj (rs_src w)) o (rs_rho w) (rs_dofs w) (rs_cells w) (rs_negE w) (rs_hist w)) end
    = Ok (no_trajs w2)) as ->.
  { destruct ini as [l|]; [|injection E2 as <-; reflexivity]. unfold initial_particles in *. cbn [rs_count rs_time rs_scr rs_src rs_out rs_rho rs_dofs rs_cells rs_negE rs_hist] in *.
    destruct (initialize_particles _ _ _ _ _ _ _ _ _ _ _) as [st1|] eqn:F1; [|discriminate]. apply initial_same in F1. rewrite F1.
    destruct (if file then _ else _) as [[st2 o2]|] eqn:F2; [|discriminate].
    assert ((if file then write_snapshot fl u false (rs_count w) (rs_time w) (no_traj st1, o) else Ok (no_traj st1, o)) = Ok (no_traj st2, o2)) as ->.
    { destruct file; [by apply write_same|injection F2 as <- <-; reflexivity]. }
    destruct (record_trajectories _ _ _ _ _ _) as [st3|] eqn:F3; [|discriminate]. apply sample_same in F3. rewrite F3. cbn [no_traj with_traj ss_saps].
    destruct (density_update _ _ _ _ _ _ _ _ _ _ _) as [[[[saps5 rho] dofs] cells]|]; [|discriminate].
    destruct (u_solve u rho) as [negE|]; [|discriminate]. injection E2 as <-. reflexivity. }
  cbn [no_trajs rs_count rs_time rs_scr rs_src rs_out rs_rho rs_dofs rs_cells rs_negE rs_hist].
  destruct (record_run_history _ _ _ _ _ _) as [[st3 h3]|] eqn:E3; [|discriminate]. apply history_same in E3. rewrite E3. injection E as <-. reflexivity.
Qed.
Lemma finish_same file w w' : finish fl u file w = Ok w' -> finish fl u file (no_trajs w) = Ok (no_trajs w').
Proof using.
  intros E. unfold finish in *. cbn [no_trajs rs_count rs_time rs_scr rs_src rs_out rs_rho rs_dofs rs_cells rs_negE rs_hist] in *.
  destruct (if file then _ else _) as [[st1 o1]|] eqn:E1; [|discriminate].
  assert ((if file then write_snapshot fl u true (rs_count w) (rs_time w) (no_traj (rs_src w), rs_out w) else Ok (no_traj (rs_src w), rs_out w)) = Ok (no_traj st1, o1)) as ->.
  { destruct file; [by apply write_same|injection E1 as <- <-; reflexivity]. }
  destruct (record_trajectories _ _ _ _ _ _) as [st3|] eqn:F3; [|discriminate]. apply sample_same in F3. rewrite F3. injection E as <-. reflexivity.
Qed.

(** A program that records trajectories and runs to its end leaves the same particles, in the same places, the same output file,
    histories, densities and field as the program that does not record any, which runs to its end too. *)
Theorem C51_run_unchanged file ini n w w' : main_run fl st32 u file ini n w = Ok w' ->
  main_run fl st32 u file ini n (no_trajs w) = Ok (no_trajs w').
Proof using HO.
  unfold main_run. intros E. destruct (initialization _ _ _ _ _ w) as [w1|] eqn:E1; [|discriminate]. apply init_same in E1. rewrite E1.
  destruct (time_loop _ _ _ _ w1) as [w2|] eqn:E2; [|discriminate]. apply loop_same in E2. rewrite E2. by apply finish_same.
Qed.
End Run.

(** For a concrete run see [C51_example] in HarmlessProps.v. *)
Print Assumptions C51_movers.
Print Assumptions C51_run_unchanged.
