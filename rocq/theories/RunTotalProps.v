(** C40, continued: runs on a line with absorbing ends do not fail. *)
From Coq Require Import String.
From stdpp Require Import strings numbers list list_numbers.
From Verif Require Import SapModel MoverModel SapProofs SapSpec SapRefine StorageProps.
From Verif Require Import Vec VecProofs Rounding BcModel TrackModel TrackGeomProofs TrajModel TrajProofs TrajProps DiagModel DiagProofs DumpProps SumProps HistoryProps.
From Verif Require RegionProps.
From Verif Require Import AcceptProps DensityModel DensityProps SourceModel SourceProps UidProps LineMeshModel LineMeshProps RunModel RunProps FieldProps.
Local Open Scope R_scope.

(** ** Tracking without trajectories *)
Section Untraced.
Context (fl : R -> R) (bcs : Z -> option (bcfun (K:=option traj))) (HC : Civil bcs).
Context (r1 r2 : tctx (K:=option traj) -> Z -> particle -> R -> res (tctx (K:=option traj))).
Context (H1 : forall c i p t, usr c = None -> r1 c i p t = Ok c) (H2 : forall c i p t, usr c = None -> r2 c i p t = Ok c).

Lemma on_marker_untraced m fi mf f n t p c : usr c = None ->
  on_marker bcs r1 m fi mf f n t p c = on_marker bcs r2 m fi mf f n t p c /\
  forall q c', on_marker bcs r1 m fi mf f n t p c = Ok (q, c') -> usr c' = None.
Proof using HC H1 H2.
  intros Hc. unfold on_marker. destruct (_ =? 0)%Z; [split; [reflexivity|intros q c' [= <- <-]; exact Hc]|].
  rewrite H1, H2 by exact Hc. assert ((if is_traj p then Ok c else Ok c) = Ok c) as -> by (by destruct (is_traj p)).
  destruct (bcs (marker m mf)) as [bc|] eqn:Eb; [|split; [reflexivity|discriminate]].
  split; [reflexivity|]. intros q c' E. destruct (HC _ _ _ _ _ _ _ _ _ Eb E) as [_ ->]. exact Hc.
Qed.
Lemma track_loop_untraced k m maxc fi : forall fuel ci ml cnt tS dtR p c, usr c = None ->
  track_loop fl bcs r1 fuel k m maxc fi ci ml cnt tS dtR p c = track_loop fl bcs r2 fuel k m maxc fi ci ml cnt tS dtR p c /\
  forall q n c', track_loop fl bcs r1 fuel k m maxc fi ci ml cnt tS dtR p c = Ok (q, n, c') -> usr c' = None.
Proof using HC H1 H2.
  induction fuel as [|fuel IH]; intros ci ml cnt tS dtR p c Hc; cbn [track_loop]; [split; [reflexivity|discriminate]|].
  destruct (cells m ci) as [cr|]; [|split; [reflexivity|discriminate]].
  destruct (inside m ci _); [split; [reflexivity|intros q n c' [= <- <- <-]; exact Hc]|].
  destruct (_ <? _)%Z; [split; [reflexivity|discriminate]|].
  destruct (find_facet _ _ _ _ _) as [[[cf f] n]|]; [|split; [reflexivity|discriminate]]. cbv beta iota zeta.
  destruct (cf =? NO_FACET)%Z; [split; [reflexivity|discriminate]|].
  destruct (py_get (fids cr) cf) as [mf|]; [|split; [reflexivity|discriminate]].
  destruct (mf =? ml)%Z; [split; [reflexivity|discriminate]|].
  match goal with |- context[on_marker bcs r1 ?m ?fi ?mf ?f ?n ?t ?p ?c] =>
    destruct (on_marker_untraced m fi mf f n t p c) as [<- Hu]; [by destruct k|];
    destruct (on_marker bcs r1 m fi mf f n t p c) as [[p2 c2]|]; [|split; [reflexivity|discriminate]] end.
  specialize (Hu _ _ eq_refl). destruct (py_get (nbrs cr) cf) as [cn|]; [|split; [reflexivity|discriminate]].
  destruct (cn =? NO_CELL)%Z; [|by apply IH]. destruct (is_deleted p2); [|by apply IH].
  split; [reflexivity|]. intros q n' c' [= <- <- <-]. exact Hu.
Qed.
Lemma track_untraced k m maxc fi time dt p c : usr c = None ->
  track fl bcs r1 k m maxc fi time dt p c = track fl bcs r2 k m maxc fi time dt p c /\
  forall q c', track fl bcs r1 k m maxc fi time dt p c = Ok (q, c') -> usr c' = None.
Proof using HC H1 H2.
  intros Hc. unfold track. match goal with |- context[track_loop fl bcs r1 ?a ?b ?c ?d ?e ?f ?g ?h ?i ?j ?k ?l] =>
    destruct (track_loop_untraced b c d e a f g h i j k l Hc) as [<- Hu];
    destruct (track_loop fl bcs r1 a b c d e f g h i j k l) as [[[q n] c']|]; [|split; [reflexivity|discriminate]] end.
  split; [reflexivity|]. intros q' c'' [= <- <-]. by eapply Hu.
Qed.
End Untraced.

(** ** The setting *)

(** A particle on the line: one coordinate, one velocity component, in its cell, not deleted. *)
Definition OnLine (vs : list R) (p : particle) : Prop :=
  exists x v, px p = [x] /\ pu p = [v] /\ LineMeshProps.Holds vs (pcell p) x /\ is_deleted p = false.

(** A run on the line mesh with vertices [vs], from [a] to [b], whose ends absorb the charged particles.  The sources feed
    charged species; their cells are cells of the mesh; the random numbers hit them within [u_fuel] tries.  Output and histories
    as described by [lr_out] and [lr_hist]. *)
Record LineRun (u : setup) (vs : list R) (mk : Z -> Z) (a b : R) (d : nat -> nat) (vl : nat -> R) : Prop := {
  lr_incr : Increasing vs;
  lr_mesh : interval_mesh vs mk = Ok (u_mesh u);
  lr_a : head vs = Some a;
  lr_b : list.last vs = Some b;
  lr_ncell : u_ncell u = pred (length vs);
  lr_inner : forall f, (0 < f < Z.of_nat (u_ncell u))%Z -> mk f = 0%Z;
  lr_ends : mk 0%Z <> 0%Z /\ mk (Z.of_nat (u_ncell u)) <> 0%Z;
  lr_bcs : forall sn, sn ∈ u_charged u -> u_bcs u sn (mk 0%Z) = Some absorb_bc /\ u_bcs u sn (mk (Z.of_nat (u_ncell u))) = Some absorb_bc;
  lr_civil : forall sn, Civil (u_bcs u sn);
  lr_maxc : (Z.of_nat (u_ncell u) <= u_maxc u)%Z;
  lr_int : (Z.of_nat (u_ncell u) <= 2 ^ 31)%Z;
  lr_names : NoDup (u_names u);
  lr_charged : NoDup (u_charged u);
  lr_known : forall sn, sn ∈ u_charged u -> sn ∈ u_names u;
  lr_dE : u_dE u = 1%nat;
  lr_Eext : forall k, fields_of 1 (u_Eext u k);
  lr_apply : forall sn k, sn ∈ u_charged u -> u_solved u sn <> Some false /\ (u_Eext u k <> None -> u_ext u sn <> Some false);
  lr_D : DofSpace (u_fD u) (u_ncell u) (u_ndof u);
  lr_C : CellSpace (u_fC u) (u_ncell u) d;
  lr_vol : forall c : nat, (c < u_ncell u)%nat -> u_vol u (Z.of_nat c) = Some (vl c);
  lr_solve : forall rho, length rho = u_ndof u -> exists g, u_solve u rho = Ok g /\ forall p, length (g p) = 1%nat;
  lr_pdim : u_pdim u = 1%nat;
  lr_rnd : forall k, length (u_rnd u k) = 1%nat;
  lr_out : match u_out_interval u with
           | None => True
           | Some k => k <> 0%Z /\ NoDup (u_atts u) /\ forall pA, pA ∈ u_atts u -> writable (u_column u) pA
           end;
  lr_hist : u_hist_skip u <> 0%Z /\ u_nv u = 1%nat /\ forall name, name ∈ u_hist_names u -> (name = "count" \/ name = "KE")%string;
  lr_sources : forall dom q, (dom, q) ∈ default [] (u_sources u) ->
    s_interval q <> 0%Z /\ s_species q ∈ u_charged u /\ (1 <= s_percell q)%Z /\ r_gdim dom = 1%nat /\ length (s_drift q) = 1%nat /\
    forall c, c ∈ r_cells dom ->
      (forall y, c_in c y = true -> exists x, y = [x] /\ LineMeshProps.Holds vs (c_index c) x) /\
      (exists x, c_mid c = [x] /\ LineMeshProps.Holds vs (c_index c) x) /\
      (forall k, exists j, (j < u_fuel u)%nat /\ c_in c (tried exact 1 (u_rnd u) 1 c (k + j)) = true)
}.

(** A state of the run: the particles [pop] are on the line, a species without particles never had one and accepts particles,
    no trajectories, the output file is open if there is output, and the field has one component. *)
Record Fit (u : setup) (L : Z) (vs : list R) (w : runst) (pop : string -> list particle) : Prop := {
  ft_stored : StoresAll L (ss_saps (rs_src w)) pop;
  ft_line : forall sn p, p ∈ pop sn -> OnLine vs p;
  ft_fresh : forall sn, pop sn = [] -> NeverPushed L (ss_saps (rs_src w) sn) /\ Accepts (ss_saps (rs_src w) sn);
  ft_traj : ss_traj (rs_src w) = None;
  ft_out : u_out_interval u = None \/ OutOk (rs_out w) /\ o_open (rs_out w) = true;
  ft_hist : match rs_hist w with None => True | Some h => (0 <= h_counter h)%Z end;
  ft_field : forall p, length (rs_negE w p) = 1%nat
}.

(** Where a particle lands in the step, and whether it is still on the line there. *)
Definition new_velocity (u : setup) (step : Z) (negE : particle -> vec) (sn : string) (p : particle) : R :=
  comp (pu p) 0 + u_qom u sn * u_dt u * (solved_part (Some negE) (u_solved u sn) p 0 + external_part (u_Eext u step) (u_ext u sn) p 0).
Definition landing (u : setup) (step : Z) (negE : particle -> vec) (sn : string) (p : particle) : R :=
  comp (px p) 0 + new_velocity u step negE sn p * u_dt u.
Definition stays (u : setup) (a b : R) (step : Z) (negE : particle -> vec) (sn : string) (p : particle) : bool :=
  negb (Rltb (landing u step negE sn p) a) && negb (Rltb b (landing u step negE sn p)).
(** What the particle [p] that stays has become. *)
Record Landed (u : setup) (step : Z) (negE : particle -> vec) (sn : string) (p q : particle) : Prop := {
  ld_x : px q = [landing u step negE sn p];
  ld_u : pu q = [new_velocity u step negE sn p];
  ld_w : pw q = pw p;
  ld_id : puid q = puid p
}.
(** The species [sn] survives the step and can be fed if need be. *)
Definition Feedable (L : Z) (u : setup) (a b : R) (w : runst) (pop : string -> list particle) (sn : string) : Prop :=
  let step := (rs_count w + 1)%Z in
  let k := length (List.filter (stays u a b step (rs_negE w) sn) (pop sn)) in
  pop sn = [] \/ (0 < k)%nat /\
    (emitted u sn step = 0%nat \/ (Z.of_nat k mod L <> 0)%Z \/ exists xs z, pop sn = xs ++ [z] /\ stays u a b step (rs_negE w) sn z = true).
(** What the next step needs: no charged species dies out or is refused its new particles; output that is due has less than 2^53
    particles to write; and there is room for a row of the history that is due. *)
Definition Served (L : Z) (u : setup) (a b : R) (w : runst) (pop : string -> list particle) : Prop :=
  let step := (rs_count w + 1)%Z in
  (forall sn, sn ∈ u_charged u -> Feedable L u a b w pop sn) /\
  match u_out_interval u with
  | None => True
  | Some k => (step mod k = 0)%Z -> (Z.of_nat (sum_list_with (fun sn => length (pop sn) + emitted u sn step)%nat (u_names u)) < 2 ^ 53)%Z
  end /\
  match rs_hist w with
  | None => True
  | Some h => (step mod u_hist_skip u = 0)%Z -> (h_counter h < Z.of_nat (length (h_rows h)))%Z
  end.

(** ** One particle *)
Section Line.
Context (u : setup) (L : Z) (HL : (1 <= L)%Z) (vs : list R) (mk : Z -> Z) (a b : R) (d : nat -> nat) (vl : nat -> R).
Context (HR : LineRun u vs mk a b d vl).

Lemma select_some step negE sn p : sn ∈ u_charged u -> exists e,
  select_E exact (u_dE u) (Some negE) (u_Eext u step) (u_solved u sn) (u_ext u sn) p = Ok (Some e).
Proof using HR.
  intros Hsn. destruct (lr_apply _ _ _ _ _ _ _ HR sn step Hsn) as [H1 H2]. unfold select_E.
  destruct (u_solved u sn) as [[]|]; [|done|]; (destruct (u_Eext u step) as [h|]; [|by eexists]); specialize (H2 ltac:(done));
    destruct (u_ext u sn) as [[]|]; try done; by eexists.
Qed.
Lemma record_none sn step e p : sn ∈ u_charged u -> forall c i q t, usr c = None ->
  rec_crossing_charged sn step (u_dE u) (Some e) (u_Eext u step) (u_ext u sn) p c i q t = Ok c.
Proof using HR.
  intros Hsn [sc us] i q t Hc. cbn in Hc. subst us. destruct (lr_apply _ _ _ _ _ _ _ HR sn step Hsn) as [_ H2]. unfold rec_crossing_charged.
  destruct (u_Eext u step) as [h|]; [|reflexivity]. specialize (H2 ltac:(done)). by destruct (u_ext u sn) as [[]|].
Qed.
Lemma mover_keeps step time negE sn : sn ∈ u_charged u ->
  Keeps (fun c : tctx (K:=option traj) => usr c = None) (mover_at exact u step time negE sn).
Proof using HR.
  intros Hsn. split; [|split].
  - intros c i p q c1 Hc E. unfold mover_at in E. cbn [adv charged_hooks] in E. destruct (select_some step negE sn p Hsn) as [e Ee]. rewrite Ee in E.
    unfold advance_charged in E. destruct (track_untraced exact _ (lr_civil _ _ _ _ _ _ _ HR sn) _ _ (record_none sn step e p Hsn) (record_none sn step e p Hsn)
      Charged (u_mesh u) (u_maxc u) i time (u_dt u) (free_move exact (u_dt u) (accelerate exact (exact (u_qom u sn * u_dt u)) (Some e) p)) c Hc) as [_ H]. by eapply H.
  - intros [sc us] ch i j q c1 Hc. cbn in Hc. subst us. intros [= <-]. reflexivity.
  - intros [sc us] i p q c1 Hc. cbn in Hc. subst us. intros [= <-]. reflexivity.
Qed.

Lemma adv_line step time negE sn c i p : sn ∈ u_charged u -> (forall p, length (negE p) = 1%nat) -> OnLine vs p -> usr c = None ->
  exists q c', adv (mover_at exact u step time negE sn) c i p = Ok (q, c') /\ usr c' = None /\
    Landed u step negE sn p q /\ is_deleted q = negb (stays u a b step negE sn p) /\ (stays u a b step negE sn p = true -> OnLine vs q).
Proof using HR.
  intros Hsn Hneg (y & v & Hx & Hu & Hin & Hdel) Hc. destruct (select_some step negE sn p Hsn) as [e Ee].
  assert (He : e = [solved_part (Some negE) (u_solved u sn) p 0 + external_part (u_Eext u step) (u_ext u sn) p 0]).
  { pose proof Ee as Ee'. rewrite (lr_dE _ _ _ _ _ _ _ HR) in Ee'. apply select_parts in Ee' as [Hl Hcomp]; [|exact Hneg|apply (lr_Eext _ _ _ _ _ _ _ HR)].
    destruct e as [|e0 [|]]; try discriminate Hl. specialize (Hcomp 0%nat). cbn [List.nth] in Hcomp. by rewrite Hcomp. }
  set (p2 := free_move exact (u_dt u) (accelerate exact (exact (u_qom u sn * u_dt u)) (Some e) p)).
  assert (P1 : px p2 = [landing u step negE sn p]).
  { subst p2 e. unfold landing, new_velocity. cbn [free_move accelerate px set_px set_px0 set_pu pu]. rewrite Hx, Hu. cbn. unfold exact. reflexivity. }
  assert (P2 : pu p2 = [new_velocity u step negE sn p]).
  { subst p2 e. unfold new_velocity. cbn [free_move accelerate px set_px set_px0 set_pu pu]. rewrite Hu. cbn. unfold exact. reflexivity. }
  assert (P3 : px0 p2 = [y]) by (subst p2; cbn; exact Hx).
  assert (P4 : pcell p2 = pcell p /\ pbits p2 = pbits p /\ pw p2 = pw p /\ puid p2 = puid p) by done. destruct P4 as (P4 & P5 & P6 & P7).
  destruct (lr_ends _ _ _ _ _ _ _ HR) as [M0 Mn]. destruct (lr_bcs _ _ _ _ _ _ _ HR sn Hsn) as [B0 Bn].
  destruct (C49_tracking (u_bcs u sn) (fun c _ _ _ => Ok c) Charged vs mk (u_mesh u) (u_maxc u) i time (u_dt u) p2 c (landing u step negE sn p) y a b)
    as (q & c' & Et & S1 & S2 & S3 & S4 & T1 & T2 & T3); rewrite <- ?(lr_ncell _ _ _ _ _ _ _ HR); try assumption; try apply HR.
  { intros c0 i0 p0 t0. by exists c0. }
  destruct (track_untraced exact _ (lr_civil _ _ _ _ _ _ _ HR sn) _ (fun c _ _ _ => Ok c) (record_none sn step e p Hsn) (fun c i p t H => eq_refl)
      Charged (u_mesh u) (u_maxc u) i time (u_dt u) p2 c Hc) as [Eu Hc'].
  exists q, c'. unfold mover_at. cbn [adv charged_hooks]. rewrite Ee. unfold advance_charged. fold p2. rewrite Eu. split; [exact Et|].
  split; [eapply Hc'; rewrite Eu; exact Et|]. split; [split; [by rewrite S1|by rewrite S2|by rewrite S3|by rewrite S4]|].
  unfold stays. set (x := landing u step negE sn p) in *. destruct (Rltb x a) eqn:Ea; [|destruct (Rltb b x) eqn:Eb]; cbn [negb andb].
  - apply Rltb_true in Ea. destruct (T2 Ea) as (D1 & _). split; [|discriminate]. unfold is_deleted. rewrite D1. exact (absorb_deletes p2).
  - apply Rltb_true in Eb. destruct (T3 Eb) as (D1 & _). split; [|discriminate]. unfold is_deleted. rewrite D1. exact (absorb_deletes p2).
  - apply Rltb_false in Ea, Eb. destruct T1 as (D1 & D2 & _); [lra|].
    assert (Hd : is_deleted q = false) by (unfold is_deleted; rewrite D1, P5; exact Hdel). split; [exact Hd|]. intros _.
    exists x, (new_velocity u step negE sn p). split; [by rewrite S1|]. split; [by rewrite S2|]. by split.
Qed.

(** ** One species *)
Definition LineFate (step : Z) (negE : particle -> vec) (sn : string) (p : particle) (r : option particle) : Prop :=
  match r with
  | Some q => stays u a b step negE sn p = true /\ Landed u step negE sn p q /\ OnLine vs q
  | None => stays u a b step negE sn p = false
  end.
Lemma pass_line step time negE sn xs : sn ∈ u_charged u -> (forall p, length (negE p) = 1%nat) -> (forall p, p ∈ xs -> OnLine vs p) ->
  forall i kept ch c, usr c = None ->
  exists ys c', seq_pass (mover_at exact u step time negE sn) i kept ch c xs = Ok (ys, c') /\ usr c' = None.
Proof using HR.
  intros Hsn Hneg. induction xs as [|p xs IH]; intros Hxs i kept ch c Hc; cbn [seq_pass]; [by exists kept, c|].
  destruct (adv_line step time negE sn c i p Hsn Hneg (Hxs p ltac:(left)) Hc) as (q & c1 & -> & Hc1 & _ & _ & _).
  assert (Hr : forall i kept ch c, usr c = None ->
    exists ys c', seq_pass (mover_at exact u step time negE sn) i kept ch c xs = Ok (ys, c') /\ usr c' = None).
  { apply IH. intros p' Hp'. apply Hxs. by right. }
  destruct c1 as [sc us]. cbn in Hc1. subst us. cbn beta iota.
  destruct (deleted _ q); [cbn [on_drop mover_at charged_hooks]; unfold drop_particle|cbn [on_keep mover_at charged_hooks]; unfold keep_particle];
    cbn [usr]; by apply Hr.
Qed.
Lemma fate_line step time negE sn p r : sn ∈ u_charged u -> (forall p, length (negE p) = 1%nat) -> OnLine vs p ->
  (exists c i q c1, usr c = None /\ adv (mover_at exact u step time negE sn) c i p = Ok (q, c1) /\
     r = if deleted (mover_at exact u step time negE sn) q then None else Some q) -> LineFate step negE sn p r.
Proof using HR.
  intros Hsn Hneg Hp (c & i & q & c1 & Hc & E & ->).
  destruct (adv_line step time negE sn c i p Hsn Hneg Hp Hc) as (q' & c1' & E' & _ & HLd & Hd & Hst). rewrite E in E'. injection E' as <- <-.
  change (deleted (mover_at exact u step time negE sn) q) with (is_deleted q). rewrite Hd.
  destruct (stays u a b step negE sn p) eqn:Es; cbn [negb]; unfold LineFate; [|exact Es]. split; [exact Es|]. split; [exact HLd|]. by apply Hst.
Qed.
Lemma fates_filter step negE sn xs fate : Forall2 (LineFate step negE sn) xs fate ->
  Forall2 (Landed u step negE sn) (List.filter (stays u a b step negE sn) xs) (survivors fate) /\
  forall q, q ∈ survivors fate -> OnLine vs q.
Proof using.
  induction 1 as [|p r xs fate Hr HF [IH1 IH2]]; [split; [constructor|intros q Hq; inversion Hq]|]. cbn [List.filter]. destruct r as [q|].
  - destruct Hr as (-> & H1 & H2). change (survivors (Some q :: fate)) with (q :: survivors fate). split; [by constructor|].
    intros q' Hq'. apply elem_of_cons in Hq' as [->|Hq']; [exact H2|by apply IH2].
  - cbn in Hr. rewrite Hr. change (survivors (None :: fate)) with (survivors fate). by split.
Qed.

(** What a mover pass leaves of a species. *)
Record Passed (step : Z) (negE : particle -> vec) (sn : string) (s : sap particle) (xs : list particle) (s' : sap particle) (ys : list particle) : Prop := {
  pa_reach : Reachable L s';
  pa_stores : Stores s' ys;
  pa_landed : Forall2 (Landed u step negE sn) (List.filter (stays u a b step negE sn) xs) ys;
  pa_line : forall q, q ∈ ys -> OnLine vs q;
  pa_empty : xs = [] -> s' = s;
  pa_accepts : (Z.of_nat (length ys) mod L <> 0)%Z \/ (exists xs0 z, xs = xs0 ++ [z] /\ stays u a b step negE sn z = true) -> Accepts s';
  pa_refuses : forall xs0 z, xs = xs0 ++ [z] -> stays u a b step negE sn z = false -> (Z.of_nat (length ys) mod L = 0)%Z -> Refuses s'
}.
Lemma species_line step time negE sn s xs c : sn ∈ u_charged u -> (forall p, length (negE p) = 1%nat) ->
  Reachable L s -> Stores s xs -> (forall p, p ∈ xs -> OnLine vs p) -> usr c = None ->
  exists s' c' ys, guarded_mover (py_ops particle) (mover_at exact u step time negE sn) s c = Ok (s', c') /\ usr c' = None /\
    Passed step negE sn s xs s' ys.
Proof using HR HL.
  intros Hsn Hneg Hr Hs Hxs Hc. pose proof (C04_pass_is_sequential L s xs (mover_at exact u step time negE sn) c HL Hr Hs) as H.
  destruct (pass_line step time negE sn xs Hsn Hneg Hxs 0%Z [] false c Hc) as (ys & c' & Ep & Hc'). rewrite Ep in H.
  destruct H as (s' & Em & Hs' & Hr'). exists s', c', ys. split; [exact Em|]. split; [exact Hc'|].
  destruct (seq_pass_fate_inv (fun c => usr c = None) _ _ (mover_keeps step time negE sn Hsn) _ _ _ _ _ _ Hc Ep) as (fate & Ey & _ & HF).
  cbn [app] in Ey. assert (HF' : Forall2 (LineFate step negE sn) xs fate).
  { apply Forall2_same_length_lookup. split; [by eapply Forall2_length|]. intros k p r Hp Hf. eapply fate_line; [exact Hsn|exact Hneg| |].
    - apply Hxs. by eapply elem_of_list_lookup_2.
    - apply (Forall2_lookup_lr _ _ _ _ _ _ HF Hp Hf). }
  destruct (fates_filter step negE sn xs fate HF') as [G1 G2]. rewrite <- Ey in G1, G2. 
  assert (Hlast : forall xs0 z, xs = xs0 ++ [z] -> if (Z.of_nat (length ys) mod L =? 0)%Z && negb (stays u a b step negE sn z) then Refuses s' else Accepts s').
  { intros xs0 z ->.
    destruct (C47_mover_accepts L (fun c => usr c = None) _ s xs0 z c s' c' HL (mover_keeps step time negE sn Hsn) Hc Hr Hs Em) as (ft & r & HFt & HSt & Hif).
    assert (Hsv : survivors (ft ++ [r]) = ys) by (exact (stores_inj _ _ _ HSt Hs')).
    assert (Hlen : length xs0 = length ft) by (apply Forall2_length in HFt; rewrite !app_length in HFt; cbn in HFt; lia).
    apply (Forall2_app_inv _ _ _ _ _ Hlen) in HFt as [_ HFz]. inversion_clear HFz as [|? ? ? ? Hz _].
    apply fate_line in Hz; [|exact Hsn|exact Hneg|apply Hxs; apply elem_of_app; right; left]. rewrite Hsv in Hif.
    destruct r as [q|]; [destruct Hz as [-> _]|cbn in Hz; rewrite Hz]; exact Hif. }
  split; [exact Hr'|exact Hs'|exact G1|exact G2| | |].
  - intros ->. destruct Hs as [Hn _]. unfold guarded_mover in Em. rewrite Hn in Em. cbn in Em. by injection Em as <- _.
  - intros Hacc. assert (Hl : xs = [] \/ exists xs0 z, xs = xs0 ++ [z]).
    { destruct (decide (xs = [])) as [->|Hne]; [by left|right]. destruct (exists_last Hne) as (xs0 & z & ->). by exists xs0, z. }
    destruct Hl as [->|(xs0 & z & ->)].
    { exfalso. destruct Hacc as [Hacc|(xs0 & z & Ex & _)]; [|by destruct xs0]. apply Forall2_nil_inv_l in G1. rewrite G1 in Hacc. apply Hacc. reflexivity. }
    specialize (Hlast xs0 z eq_refl). destruct (Z.eqb_spec (Z.of_nat (length ys) mod L) 0) as [H0|H0]; cbn [andb] in Hlast; [|exact Hlast].
    destruct Hacc as [Hacc|(xs1 & z1 & Ex & Hst)]; [done|]. apply app_inj_tail in Ex as [<- <-]. by rewrite Hst in Hlast.
  - intros xs0 z Ex Hst H0. specialize (Hlast xs0 z Ex). rewrite H0, Hst in Hlast. exact Hlast.
Qed.

(** ** All charged species *)
Lemma advance_line step time negE sns : NoDup sns -> (forall sn, sn ∈ sns -> sn ∈ u_charged u) -> (forall p, length (negE p) = 1%nat) ->
  forall saps c pop, StoresAll L saps pop -> (forall sn p, p ∈ pop sn -> OnLine vs p) -> usr c = None ->
  exists saps' c' pop', advance_species exact u step time negE sns saps c = Ok (saps', c') /\ usr c' = None /\
    (forall sn, sn ∈ sns -> Passed step negE sn (saps sn) (pop sn) (saps' sn) (pop' sn)) /\
    (forall sn, sn ∉ sns -> saps' sn = saps sn /\ pop' sn = pop sn).
Proof using HR HL.
  intros Hnd Hsub Hneg. induction sns as [|sn sns IH]; intros saps c pop HH Hline Hc; cbn [advance_species].
  - exists saps, c, pop. split; [reflexivity|]. split; [exact Hc|]. split; [intros sn Hsn; inversion Hsn|done].
  - inversion_clear Hnd as [|? ? Hni Hnd']. destruct (HH sn) as [Hr Hs].
    destruct (species_line step time negE sn (saps sn) (pop sn) c (Hsub sn ltac:(left)) Hneg Hr Hs (Hline sn) Hc) as (s1 & c1 & ys & Em & Hc1 & HP).
    change (charged_hooks exact sn step time (u_dt u) (u_qom u sn) (u_maxc u) (u_mesh u) (u_bcs u sn) (u_dE u) (Some negE)
      (u_Eext u step) (u_solved u sn) (u_ext u sn) false) with (mover_at exact u step time negE sn). rewrite Em. cbn iota beta.
    destruct (IH Hnd' (fun s Hs => Hsub s (elem_of_list_further _ _ _ Hs)) (set_key saps sn s1) c1 (fun s => if String.eqb s sn then ys else pop s)) as (saps' & c' & pop' & E & Hc' & G1 & G2).
    + intros s. unfold set_key. destruct (String.eqb_spec s sn) as [->|Hne]; [split; apply HP|apply HH].
    + intros s p. destruct (String.eqb_spec s sn) as [->|Hne]; [apply HP|apply Hline].
    + exact Hc1.
    + exists saps', c', pop'. split; [exact E|]. split; [exact Hc'|]. destruct (G2 sn Hni) as [K1 K2]. rewrite set_key_same in K1. rewrite String.eqb_refl in K2. split.
      * intros s Hs'. destruct (String.eqb_spec s sn) as [->|Hne]; [by rewrite K1, K2|]. apply elem_of_cons in Hs' as [?|Hs']; [done|].
        specialize (G1 s Hs'). rewrite set_key_other in G1 by exact Hne. by replace (String.eqb s sn) with false in G1 by (symmetry; by apply String.eqb_neq).
      * intros s Hs'. apply not_elem_of_cons in Hs' as [Hne Hs']. destruct (G2 s Hs') as [K3 K4]. rewrite set_key_other in K3 by exact Hne.
        replace (String.eqb s sn) with false in K4 by (symmetry; by apply String.eqb_neq). by split.
Qed.

(** ** Sources *)
Lemma source_untraced step time negE dom q st st' : ss_traj st = None ->
  create_maxwellian exact (u_names u) (u_spherical u) (u_pdim u) (u_pi4 u) (u_rnd u) (u_fuel u) (u_dE u) (Some negE) None step time dom q st = Ok st' ->
  ss_traj st' = None.
Proof using.
  unfold create_maxwellian. destruct (negb _); [discriminate|]. destruct (weight_mult _ _ _ _) as [mult|]; [|discriminate].
  assert (H1 : forall c w ip st st', ss_traj st = None ->
    new_particle exact (u_pdim u) (u_rnd u) (u_fuel u) (u_dE u) (Some negE) None (s_species q) step time (r_gdim dom) (s_drift q) c w ip st = Ok st' -> ss_traj st' = None).
  { intros c w ip t t' Ht E. unfold new_particle in E. destruct (match ip with O => _ | S _ => _ end) as [[x k]|]; [|discriminate].
    destruct (negb _); [discriminate|]. rewrite Ht in E. unfold add_particle in E. destruct (push_back _ _) as [[s1 [o i]]|]; [|discriminate].
    destruct (is_traj _) in E; injection E as <-; reflexivity. }
  assert (H2 : forall c w ips st st', ss_traj st = None ->
    new_particles exact (u_pdim u) (u_rnd u) (u_fuel u) (u_dE u) (Some negE) None (s_species q) step time (r_gdim dom) (s_drift q) c w ips st = Ok st' -> ss_traj st' = None).
  { intros c w. induction ips as [|ip ips IH]; intros t t' Ht E; cbn [new_particles] in E; [by injection E as <-|].
    destruct (new_particle _ _ _ _ _ _ _ _ _ _ _ _ _ _ _ _) as [t1|] eqn:E1; [|discriminate]. eapply IH; [|exact E]. by eapply H1. }
  generalize (r_cells dom). intros cs. revert st. induction cs as [|c cs IH]; intros st Ht E; cbn [new_cells] in E; [by injection E as <-|].
  destruct (new_particles _ _ _ _ _ _ _ _ _ _ _ _ _ _ _ _) as [t1|] eqn:E1; [|discriminate]. eapply IH; [|exact E]. by eapply H2.
Qed.
Lemma source_nocells step time negE dom q st : s_species q ∈ u_names u -> (1 <= s_percell q)%Z -> r_cells dom = [] ->
  create_maxwellian exact (u_names u) (u_spherical u) (u_pdim u) (u_pi4 u) (u_rnd u) (u_fuel u) (u_dE u) (Some negE) None step time dom q st = Ok st.
Proof using.
  intros Hin Hn Hc. unfold create_maxwellian.
  assert (existsb (String.eqb (s_species q)) (u_names u) = true) as ->.
  { apply existsb_exists. exists (s_species q). split; [by apply elem_of_list_In|apply String.eqb_refl]. }
  cbn [negb]. unfold weight_mult. replace (s_percell q =? 0)%Z with false by lia. rewrite Hc. reflexivity.
Qed.
Lemma sources_line step time negE l : (forall dom q, (dom, q) ∈ l -> (dom, q) ∈ default [] (u_sources u)) ->
  forall st pop, StoresAll L (ss_saps st) pop -> ss_traj st = None ->
  (forall dom q, (dom, q) ∈ l -> feeds (s_species q) step (dom, q) = true -> r_cells dom <> [] -> Accepts (ss_saps st (s_species q))) ->
  exists st', add_more_particles (source_list exact u negE l) step time st = Ok st' /\ ss_traj st' = None.
Proof using HR HL.
  induction l as [|[dom q] l IH]; intros Hsub st pop HH HT Hacc; cbn [source_list map add_more_particles fst snd]; [by exists st|].
  fold (source_list exact u negE l). destruct (lr_sources _ _ _ _ _ _ _ HR dom q (Hsub _ _ ltac:(left))) as (Hi & Hch & Hn & Hg & Hd & Hcells).
  destruct (Z.eqb_spec (s_interval q) 0) as [|_]; [done|].
  assert (Hsub' : forall dom q, (dom, q) ∈ l -> (dom, q) ∈ default [] (u_sources u)) by (intros; apply Hsub; by right).
  destruct (step mod s_interval q =? 0)%Z eqn:Ek; [|apply (IH Hsub' st pop HH HT); intros dom' q' H'; apply Hacc; by right].
  pose proof (lr_known _ _ _ _ _ _ _ HR _ Hch) as Hknown.
  destruct (decide (r_cells dom = [])) as [Hnil|Hne].
  { rewrite source_nocells by assumption. apply (IH Hsub' st pop HH HT). intros dom' q' H'. apply Hacc. by right. }
  destruct (HH (s_species q)) as [Hr Hs].
  destruct (C27_fires exact (u_names u) (u_spherical u) (u_pdim u) (u_pi4 u) (u_rnd u) (u_fuel u) (u_dE u) (Some negE) None step time dom q st L HL) as (st1 & E1 & HR1).
  - by apply elem_of_list_In.
  - exact Hn.
  - exists (pop (s_species q)). split; [exact Hr|]. split; [exact Hs|]. split; [|rewrite HT; exact I].
    apply (Hacc dom q); [left| |exact Hne]. unfold feeds. cbn [snd]. by rewrite String.eqb_refl, Ek.
  - rewrite Hg, (lr_pdim _ _ _ _ _ _ _ HR). lia.
  - by rewrite Hd, (lr_pdim _ _ _ _ _ _ _ HR).
  - intros c Hc. rewrite Hg, (lr_pdim _ _ _ _ _ _ _ HR). by apply Hcells.
  - rewrite E1. cbn iota beta. destruct (fire_made exact u L HL _ _ _ _ _ _ _ _ Hr Hs E1) as (new & A1 & A2 & A3 & _).
    apply (IH Hsub' st1 (fun s => if String.eqb s (s_species q) then pop s ++ new else pop s)).
    + intros s. destruct (String.eqb_spec s (s_species q)) as [->|Hns]; [by split|]. rewrite A3 by exact Hns. apply HH.
    + by eapply source_untraced.
    + intros dom' q' H' Hf Hc'. destruct (String.eqb_spec (s_species q') (s_species q)) as [->|Hns].
      * destruct HR1 as (xs1 & _ & _ & HA & _). exact HA.
      * rewrite A3 by exact Hns. eapply (Hacc dom'); [by right|exact Hf|exact Hc'].
Qed.
Lemma made_line step sn p : FromSource exact u sn step p -> OnLine vs p.
Proof using HR.
  intros (dom & q & c & ip & uid & Hin & _ & Hc & HM). destruct (lr_sources _ _ _ _ _ _ _ HR dom q Hin) as (_ & _ & _ & Hg & Hd & Hcells).
  destruct (Hcells c Hc) as (H1 & (x0 & Hmid & Hx0) & _). destruct HM as [M1 _ _ _ _ _ M7 M8 M9 (k & M10)].
  rewrite (lr_pdim _ _ _ _ _ _ _ HR), Hg in M8.
  assert (Hx : exists x, px p = [x] /\ LineMeshProps.Holds vs (c_index c) x).
  { destruct ip as [|ip]; [|apply H1, M9; lia]. exists x0. split; [|exact Hx0]. rewrite M8, Hmid by reflexivity. reflexivity. }
  destruct Hx as (x & Hx & Hin'). pose proof (lr_rnd _ _ _ _ _ _ _ HR k) as Hk. destruct (u_rnd u k) as [|v [|]]; try discriminate Hk.
  destruct (s_drift q) as [|v2 [|]]; try discriminate Hd. exists x, (exact (v + v2)). split; [exact Hx|]. split; [exact M10|]. split; [|exact M7].
  rewrite M1. replace (int32 (c_index c)) with (c_index c); [exact Hin'|]. symmetry. apply RegionProps.int32_small.
  destruct Hin' as (y0 & y1 & Hp & _ & E2 & _). apply lookup_lt_Some in E2. pose proof (lr_int _ _ _ _ _ _ _ HR) as Hi. rewrite (lr_ncell _ _ _ _ _ _ _ HR) in Hi. lia.
Qed.

(** A species that never had a particle accepts particles after a loop over it. *)
Lemma looped_idle saps saps' sn : Looped saps saps' -> NeverPushed L (saps sn) -> Accepts (saps sn) ->
  NeverPushed L (saps' sn) /\ Accepts (saps' sn).
Proof using HL.
  clear HR. induction 1 as [saps|saps s B body x s' x' saps' E H IH]; intros HN HA; [by split|]. apply IH; unfold set_key; destruct (String.eqb_spec sn s) as [->|Hne]; try assumption.
  - destruct (never_pushed_rel L HL _ HN) as (av & Ha & Hi & Hd). assert (HC : Counted L (saps s) []).
    { split; [|split; [|done]].
      - clear - HN. induction HN as [|s0 o s1 r HN IH Hno E0]; [constructor|]. by eapply r_op.
      - rewrite <- Hi. by apply (rel_stores L HL). }
    destruct (counted_loop L HL (saps s) [] HC) as (s2 & bs & H1 & H2 & _). rewrite H2 in E. destruct (fold_blocks body x bs); [|discriminate].
    injection E as <- <-. by apply H1.
  - destruct (never_pushed_rel L HL _ HN) as (av & Ha & Hi & Hd). pose proof (loopstart_ok L HL (saps s) av Ha) as Hst. destruct av as [items dead cu nin nout].
    cbn [py_step a_step a_items a_dead] in *. subst items dead. unfold for_out in E.
    destruct (init_out_loop (saps s)) as [[s1 [n bl]]|] eqn:Ei; [|discriminate]. destruct Hst as (s2 & got & E1 & Hok & HR1). injection E1 as <- <-.
    cbn in Hok. destruct bl as [v|]; [done|]. injection E as <- <-. intros ys.
    destruct (push_all_good L HL ys _ _ HR1 eq_refl) as (s3 & rs & _ & E3 & _); [|eauto]. cbn [a_cursor a_items length]. unfold last_segment.
    change (Z.of_nat 0) with 0%Z. rewrite (div_minus L HL). reflexivity.
Qed.

Lemma emitted_none sn step dom q : emitted u sn step = 0%nat -> (dom, q) ∈ default [] (u_sources u) -> feeds sn step (dom, q) = true ->
  (1 <= s_percell q)%Z -> r_cells dom = [].
Proof using.
  unfold emitted. generalize (default [] (u_sources u)). intros l. induction l as [|dq l IH]; intros He Hin Hf Hn; [inversion Hin|].
  cbn [List.filter] in He. apply elem_of_cons in Hin as [<-|Hin].
  - rewrite Hf in He. cbn [sum_list_with fst snd] in He. destruct (r_cells dom); [reflexivity|]. cbn [length] in He.
    destruct (Z.to_nat (s_percell q)) eqn:E; [lia|]. cbn in He. lia.
  - apply IH; try assumption. destruct (feeds sn step dq); [|exact He]. cbn [sum_list_with] in He. lia.
Qed.

(** The values of a history do not fail because of the precision in which they are stored. *)
Lemma values_any {W} st32 (number : W -> string -> res (W * R)) names fs : forall x x' hv,
  record_values exact exact names number fs x = Ok (x', hv) -> exists hv', record_values exact st32 names number fs x = Ok (x', hv').
Proof using.
  assert (H1 : forall f sps x acc cols x' acc' cols', record_species exact exact number f sps x acc cols = Ok (x', acc', cols') ->
    forall cols2, exists cols2', record_species exact st32 number f sps x acc cols2 = Ok (x', acc', cols2')).
  { intros f. induction sps as [|sp sps IH]; intros x acc cols x' acc' cols' E cols2; cbn [record_species] in *; [injection E as <- <- <-; by eexists|].
    destruct (f x sp) as [[x1 v]|]; [|discriminate]. destruct (number x1 sp) as [[x2 n]|]; [|discriminate]. by eapply IH. }
  induction fs as [|f fs IH]; intros x x' hv E; cbn [record_values] in *; [injection E as <- <-; by eexists|].
  destruct (record_species exact exact number f names x 0 []) as [[[x1 tot] cols]|] eqn:E1; [|discriminate].
  destruct (H1 _ _ _ _ _ _ _ _ E1 []) as [c2 ->]. destruct (record_values _ _ _ _ _ x1) as [[x2 ws]|] eqn:E2; [|discriminate]. injection E as <- <-.
  destruct (IH _ _ _ E2) as [ws' ->]. by eexists.
Qed.
(** A history row, if there is room. *)
Lemma row_ok st32 step time st h pop : StoresAll L (ss_saps st) pop -> (forall sn p, p ∈ pop sn -> OnLine vs p) ->
  (forall sn, pop sn = [] -> NeverPushed L (ss_saps st sn)) -> (0 <= h_counter h < Z.of_nat (length (h_rows h)))%Z ->
  exists st' h', record_run_history exact st32 u step time (st, Some h) = Ok (st', Some h') /\ h_counter h' = (h_counter h + 1)%Z /\
    length (h_rows h') = length (h_rows h).
Proof using HR HL.
  intros HH Hl Hn Hc. destruct (lr_hist _ _ _ _ _ _ _ HR) as (_ & Hnv & Hnames).
  destruct (record_values_ok (u_junk u) (u_nv u) (u_mass u) L (u_names u) HL pop (u_hist_names u) Hnames (ss_saps st)) as (saps1 & Ev & _).
  { intros sn Hsn. split; [split; [apply HH|split; [apply HH|apply Hn]]|]. intros p Hp. destruct (Hl sn p Hp) as (x & v & _ & Hu & _). by rewrite Hu, Hnv. }
  destruct (values_any st32 _ _ _ _ _ _ Ev) as [vs' Ev'].
  assert (Hset : forall x, py_set (h_rows h) (h_counter h) x = Ok (<[Z.to_nat (h_counter h) := x]> (h_rows h))).
  { intros x. unfold py_set, py_pos. by replace ((0 <=? h_counter h) && (h_counter h <? Z.of_nat (length (h_rows h))))%Z with true by lia. }
  unfold record_run_history, record_history. cbn [snd fst]. rewrite Hset, Ev'. cbv beta iota. rewrite Hset. cbv beta iota.
  eexists _, _. split; [reflexivity|]. split; [reflexivity|]. cbn. by rewrite insert_length.
Qed.
(** A snapshot, if the file is open. *)
Lemma snapshot_ok k close step time st o pop : u_out_interval u = Some k -> StoresAll L (ss_saps st) pop -> u_L u = L ->
  (Z.of_nat (population (u_names u) pop) < 2 ^ 53)%Z -> OutOk o -> o_open o = true ->
  exists st' o', write_snapshot exact u close step time (st, o) = Ok (st', o') /\ OutOk o' /\ (close = false -> o_open o' = true).
Proof using HR HL.
  intros Hk HH HuL Hpop HO Hop. pose proof (lr_out _ _ _ _ _ _ _ HR) as Hout. rewrite Hk in Hout. destruct Hout as (_ & Hnd & Hw).
  unfold write_snapshot. set (o1 := OutSt (ss_saps st) (o_blen o) (o_buf o) (o_counter o) (o_last o) (o_file o) (o_open o)).
  destruct (Z.eqb_spec step (o_last o)) as [He|Hne].
  - unfold write_particles. replace (step =? o_last o1)%Z with true by (cbn; lia). eexists _, _. split; [reflexivity|]. by split.
  - destruct (C24_dump_contents exact (u_L u) (u_names u) (u_sindex u) (u_column u) pop (u_atts u) step time close o1) as (o2 & E2 & _ & _ & _ & _ & Ho & _ & HO2); try done.
    { by rewrite HuL. } { intros sn _. rewrite HuL. apply HH. }
    rewrite E2. eexists _, _. split; [reflexivity|]. split; [exact HO2|]. by intros ->.
Qed.

(** The particles are moved and new ones are added. *)
Lemma moved_and_fed w pop : StoresAll L (ss_saps (rs_src w)) pop -> (forall sn p, p ∈ pop sn -> OnLine vs p) ->
  (forall sn, pop sn = [] -> NeverPushed L (ss_saps (rs_src w) sn) /\ Accepts (ss_saps (rs_src w) sn)) ->
  ss_traj (rs_src w) = None -> (forall p, length (rs_negE w p) = 1%nat) ->
  (forall sn, sn ∈ u_charged u -> Feedable L u a b w pop sn) ->
  let step := (rs_count w + 1)%Z in let time := exact (rs_time w + u_dt u) in
  exists saps1 c1 st3 pop3,
    advance_species exact u step time (rs_negE w) (u_charged u) (ss_saps (rs_src w)) (TCtx (rs_scr w) None) = Ok (saps1, c1) /\ usr c1 = None /\
    add_from_sources exact u step time (rs_negE w) (SrcSt saps1 (ss_uid (rs_src w)) (ss_rng (rs_src w)) None) = Ok st3 /\ ss_traj st3 = None /\
    StoresAll L (ss_saps st3) pop3 /\ (forall sn p, p ∈ pop3 sn -> OnLine vs p) /\
    (forall sn, pop3 sn = [] -> NeverPushed L (ss_saps st3 sn) /\ Accepts (ss_saps st3 sn)) /\
    (forall sn, length (pop3 sn) <= length (pop sn) + emitted u sn step)%nat /\
    forall sn, if bool_decide (sn ∈ u_charged u)
      then exists moved new, pop3 sn = moved ++ new /\
        Forall2 (Landed u step (rs_negE w) sn) (List.filter (stays u a b step (rs_negE w) sn) (pop sn)) moved /\
        length new = emitted u sn step /\ Forall (FromSource exact u sn step) new
      else pop3 sn = pop sn.
Proof using HR HL.
  intros F1 F2 F3 F4 F6 Hfeed. unfold Feedable in Hfeed. cbv zeta in Hfeed. set (step := (rs_count w + 1)%Z) in *. set (time := exact (rs_time w + u_dt u)). cbv zeta.
  destruct (advance_line step time (rs_negE w) (u_charged u) (lr_charged _ _ _ _ _ _ _ HR) ltac:(done) F6 (ss_saps (rs_src w)) (TCtx (rs_scr w) None) pop F1 F2 eq_refl)
    as (saps1 & c1 & pop1 & E1 & Hc1 & P1 & P2).
  assert (HH1 : StoresAll L saps1 pop1).
  { intros sn. destruct (decide (sn ∈ u_charged u)) as [Hin|Hin]; [split; apply (P1 sn Hin)|]. destruct (P2 sn Hin) as [-> ->]. apply F1. }
  assert (HL1 : forall sn p, p ∈ pop1 sn -> OnLine vs p).
  { intros sn p. destruct (decide (sn ∈ u_charged u)) as [Hin|Hin]; [apply (P1 sn Hin)|]. destruct (P2 sn Hin) as [_ ->]. apply F2. }
  assert (HF1 : forall sn, pop1 sn = [] -> saps1 sn = ss_saps (rs_src w) sn /\ pop sn = []).
  { intros sn Hnil. destruct (decide (sn ∈ u_charged u)) as [Hin|Hin]; [|destruct (P2 sn Hin) as [-> <-]; by split].
    destruct (P1 sn Hin) as [_ _ HF _ He _ _]. destruct (Hfeed sn Hin) as [Hp|[Hk _]]; [split; [by apply He|exact Hp]|].
    rewrite Hnil in HF. apply Forall2_nil_inv_r in HF. exfalso. rewrite HF in Hk. cbn in Hk. lia. }
  set (st1 := SrcSt saps1 (ss_uid (rs_src w)) (ss_rng (rs_src w)) None).
  assert (HS : exists st3 new, add_from_sources exact u step time (rs_negE w) st1 = Ok st3 /\ ss_traj st3 = None /\
    StoresAll L (ss_saps st3) (fun sn => pop1 sn ++ new sn) /\ (forall sn, length (new sn) = emitted u sn step) /\
    (forall sn, Forall (FromSource exact u sn step) (new sn)) /\ (forall sn, new sn = [] -> ss_saps st3 sn = saps1 sn)).
  { unfold add_from_sources. destruct (u_sources u) as [l|] eqn:Es.
    - destruct (sources_line step time (rs_negE w) l) with (st := st1) (pop := pop1) as (st3 & E3 & HT3); [by rewrite Es|exact HH1|reflexivity| |].
      + intros dom q Hin Hf Hne. cbn [ss_saps st1]. assert (Hin' : (dom, q) ∈ default [] (u_sources u)) by (rewrite Es; exact Hin).
        destruct (lr_sources _ _ _ _ _ _ _ HR dom q Hin') as (_ & Hch & Hn & _).
        destruct (P1 _ Hch) as [_ _ HF _ He Hacc _]. destruct (Hfeed _ Hch) as [Hp|[Hk [H0|[H0|H0]]]].
        * rewrite (He Hp). by apply F3.
        * exfalso. apply Hne. by eapply emitted_none.
        * apply Hacc. left. by rewrite <- (Forall2_length _ _ _ HF).
        * apply Hacc. by right.
      + rewrite E3. destruct (sources_hold exact u L HL _ _ _ l st1 st3 pop1 HH1 E3) as (new & B1 & B2 & B3 & B4 & _).
        exists st3, new. split; [reflexivity|]. split; [exact HT3|]. split; [exact B1|]. unfold emitted, FromSource. rewrite Es. split; [exact B2|]. split; [exact B3|exact B4].
    - exists st1, (fun _ => []). split; [reflexivity|]. split; [reflexivity|]. unfold emitted. rewrite Es.
      split; [intros sn; rewrite app_nil_r; apply HH1|]. split; [reflexivity|]. split; [intros sn; constructor|done]. }
  destruct HS as (st3 & new & E3 & HT3 & HH3 & Hlen & Hnew & Hsame). set (pop3 := fun sn => pop1 sn ++ new sn) in *.
  assert (HL3 : forall sn p, p ∈ pop3 sn -> OnLine vs p).
  { intros sn p Hp. apply elem_of_app in Hp as [Hp|Hp]; [by eapply HL1|]. eapply made_line. specialize (Hnew sn). rewrite list.Forall_forall in Hnew. by apply Hnew. }
  assert (HF3 : forall sn, pop3 sn = [] -> NeverPushed L (ss_saps st3 sn) /\ Accepts (ss_saps st3 sn)).
  { intros sn Hnil. apply app_eq_nil in Hnil as [Hn1 Hn2]. rewrite (Hsame sn Hn2). destruct (HF1 sn Hn1) as [-> Hp]. by apply F3. }
  assert (Hlast : forall sn, if bool_decide (sn ∈ u_charged u)
      then exists moved new, pop3 sn = moved ++ new /\
        Forall2 (Landed u step (rs_negE w) sn) (List.filter (stays u a b step (rs_negE w) sn) (pop sn)) moved /\
        length new = emitted u sn step /\ Forall (FromSource exact u sn step) new
      else pop3 sn = pop sn).
  { intros sn. case_bool_decide as Hin.
    + exists (pop1 sn), (new sn). split; [reflexivity|]. split; [apply (P1 sn Hin)|]. split; [apply Hlen|apply Hnew].
    + unfold pop3. destruct (P2 sn Hin) as [_ ->]. assert (new sn = []) as ->; [|apply app_nil_r].
      specialize (Hlen sn). destruct (new sn) as [|p l] eqn:En; [reflexivity|]. exfalso. specialize (Hnew sn). rewrite En in Hnew. rewrite list.Forall_cons in Hnew. destruct Hnew as [Hp _].
      destruct Hp as (dom & q & c & ip & uid & Hd & Hf & _). destruct (lr_sources _ _ _ _ _ _ _ HR dom q Hd) as (_ & Hch & _).
      unfold feeds in Hf. cbn [snd] in Hf. apply andb_prop in Hf as [Hf _]. apply String.eqb_eq in Hf. congruence. }
  exists saps1, c1, st3, pop3. split; [exact E1|]. split; [exact Hc1|]. split; [exact E3|]. split; [exact HT3|]. split; [exact HH3|]. split; [exact HL3|]. split; [exact HF3|].
  split; [|exact Hlast]. intros sn. specialize (Hlast sn). case_bool_decide as Hin.
  - destruct Hlast as (mv & nw & -> & HF & Hn & _). rewrite app_length, Hn, <- (Forall2_length _ _ _ HF).
    assert (H : (length (List.filter (stays u a b step (rs_negE w) sn) (pop sn)) <= length (pop sn))%nat).
    { generalize (pop sn). intros ps. induction ps as [|p ps IH]; [reflexivity|]. cbn [List.filter]. destruct (stays _ _ _ _ _ _ p); cbn [length]; lia. }
    lia.
  - rewrite Hlast. lia.
Qed.
(** Densities. *)
Lemma densities_ok st pop : StoresAll L (ss_saps st) pop -> (forall sn p, p ∈ pop sn -> OnLine vs p) -> (forall sn, pop sn = [] -> NeverPushed L (ss_saps st sn)) ->
  exists saps rho dofs cells, density_update exact (u_ncell u) (u_gdim u) (u_vol u) (u_junk u) (u_fD u) (u_fC u) (u_charge u) (u_names u) (u_ndof u) (ss_saps st) =
    Ok (saps, rho, dofs, cells) /\ length rho = u_ndof u.
Proof using HR HL.
  intros HH3 HL3 HF3. destruct (C33_assembled_charge L (u_ncell u) (u_gdim u) (u_ndof u) (u_vol u) vl (u_junk u) (u_fD u) (u_fC u) d (u_charge u) (u_names u) (ss_saps st) pop
    HL (lr_D _ _ _ _ _ _ _ HR) (lr_C _ _ _ _ _ _ _ HR) (lr_vol _ _ _ _ _ _ _ HR) (lr_names _ _ _ _ _ _ _ HR)) as (saps5 & rho & dofs & cells & E5 & _ & Hrho & _).
  { intros sn Hsn. split; [split; [apply HH3|split; [apply HH3|apply HF3]]|]. intros p Hp.
    destruct (HL3 sn p Hp) as (x & v & _ & _ & (y0 & y1 & Hp0 & _ & E2 & _) & _). apply lookup_lt_Some in E2. rewrite (lr_ncell _ _ _ _ _ _ _ HR). lia. }
  by exists saps5, rho, dofs, cells.
Qed.

(** A step succeeds, and leads to a state of the same kind, if no charged species dies out in it, none is fed whose last
    particle leaves while the segment length divides the number of those that stay, and there is room for the output. *)
Theorem C40_progress st32 w pop : u_L u = L -> Fit u L vs w pop -> Served L u a b w pop ->
  exists w' pop', time_step exact st32 u w = Ok w' /\ Fit u L vs w' pop' /\
    (forall sn, if bool_decide (sn ∈ u_charged u)
      then exists moved new, pop' sn = moved ++ new /\
        Forall2 (Landed u (rs_count w') (rs_negE w) sn) (List.filter (stays u a b (rs_count w') (rs_negE w) sn) (pop sn)) moved /\
        length new = emitted u sn (rs_count w') /\ Forall (FromSource exact u sn (rs_count w')) new
      else pop' sn = pop sn) /\
    match rs_hist w, rs_hist w' with
    | None, None => True
    | Some h, Some h' => length (h_rows h') = length (h_rows h) /\ h_counter h' = (h_counter h + if (rs_count w' mod u_hist_skip u =? 0)%Z then 1 else 0)%Z
    | _, _ => False
    end.
Proof using HR HL.
  intros HuL [F1 F2 F3 F4 Fo Fh F6] (Hfeed & Hpop & Hroom). cbv zeta in Hpop, Hroom.
  destruct (moved_and_fed w pop F1 F2 F3 F4 F6 Hfeed) as (saps1 & c1 & st3 & pop3 & E1 & Hc1 & E3 & HT3 & HH3 & HL3 & HF3 & Hle & Hlast).
  set (step := (rs_count w + 1)%Z) in *. set (time := exact (rs_time w + u_dt u)) in *.
  set (write := match u_out_interval u with None => Ok (st3, rs_out w) | Some k => every k step (write_snapshot exact u false step time) (st3, rs_out w) end).
  assert (HW : exists st4 o4, write = Ok (st4, o4) /\ (exists saps, Looped (ss_saps st3) saps /\ st4 = with_saps st3 saps) /\
    (u_out_interval u = None \/ OutOk o4 /\ o_open o4 = true)).
  { subst write. pose proof (lr_out _ _ _ _ _ _ _ HR) as Hout. destruct (u_out_interval u) as [k|] eqn:Ek.
    - destruct Fo as [Fo|[HO Hop]]; [discriminate|]. destruct Hout as (Hk0 & _). unfold every. replace (k =? 0)%Z with false by lia. destruct (Z.eqb_spec (step mod k) 0) as [Hm|Hm].
      + destruct (snapshot_ok k false step time st3 (rs_out w) pop3 Ek HH3 HuL) as (st4 & o4 & E4 & HO4 & Hop4); [|exact HO|exact Hop|].
        { specialize (Hpop Hm). eapply Z.le_lt_trans; [|exact Hpop]. apply inj_le. unfold population. clear - Hle. induction (u_names u) as [|sn l IH]; [reflexivity|].
          cbn [map list_sum foldr sum_list_with]. specialize (Hle sn). unfold list_sum in IH. lia. }
        exists st4, o4. split; [exact E4|]. split; [by eapply write_looped|]. right. split; [exact HO4|by apply Hop4].
      + exists st3, (rs_out w). split; [reflexivity|]. split; [exists (ss_saps st3); split; [constructor|by destruct st3]|]. right. by split.
    - exists st3, (rs_out w). split; [reflexivity|]. split; [exists (ss_saps st3); split; [constructor|by destruct st3]|]. by left. }
  destruct HW as (st4 & o4 & E4 & (saps4 & Hlp4 & Est4) & Ho4).
  assert (HH4 : StoresAll L (ss_saps st4) pop3) by (rewrite Est4; by eapply (looped_holds L HL)).
  assert (HF4 : forall sn, pop3 sn = [] -> NeverPushed L (ss_saps st4 sn) /\ Accepts (ss_saps st4 sn)).
  { intros sn Hnil. destruct (HF3 sn Hnil) as [H1 H2]. rewrite Est4. by eapply looped_idle. }
  destruct (densities_ok st4 pop3 HH4 HL3) as (saps5 & rho & dofs & cells & E5 & Hrho); [intros sn Hnil; by apply HF4|].
  pose proof (density_looped exact u _ _ _ _ _ _ _ _ _ E5) as Hlp5. set (st5 := with_saps st4 saps5).
  assert (HH5 : StoresAll L (ss_saps st5) pop3) by (by eapply (looped_holds L HL)).
  assert (HF5 : forall sn, pop3 sn = [] -> NeverPushed L (ss_saps st5 sn) /\ Accepts (ss_saps st5 sn)).
  { intros sn Hnil. destruct (HF4 sn Hnil) as [H1 H2]. by eapply looped_idle. }
  destruct (lr_solve _ _ _ _ _ _ _ HR rho Hrho) as (g & Eg & Hg).
  set (note := match rs_hist w with None => Ok (st5, None) | Some _ => every (u_hist_skip u) step (record_run_history exact st32 u step time) (st5, rs_hist w) end).
  assert (HN : exists st6 h6, note = Ok (st6, h6) /\ (exists saps, Looped (ss_saps st5) saps /\ st6 = with_saps st5 saps) /\
    match rs_hist w, h6 with
    | None, None => True
    | Some h, Some h' => length (h_rows h') = length (h_rows h) /\ h_counter h' = (h_counter h + if (step mod u_hist_skip u =? 0)%Z then 1 else 0)%Z
    | _, _ => False
    end).
  { subst note. destruct (rs_hist w) as [h|].
    - destruct (lr_hist _ _ _ _ _ _ _ HR) as (Hk0 & _). unfold every. replace (u_hist_skip u =? 0)%Z with false by lia. destruct (Z.eqb_spec (step mod u_hist_skip u) 0) as [Hm|Hm].
      + destruct (row_ok st32 step time st5 h pop3 HH5 HL3) as (st6 & h6 & E6 & Hc6 & Hl6); [intros sn Hnil; by apply HF5|specialize (Hroom Hm); lia|].
        exists st6, (Some h6). split; [exact E6|]. split; [by eapply history_phase_looped|]. by split.
      + exists st5, (Some h). split; [reflexivity|]. split; [exists (ss_saps st5); split; [constructor|by destruct st5]|]. split; [reflexivity|lia].
    - exists st5, None. split; [reflexivity|]. split; [exists (ss_saps st5); split; [constructor|by destruct st5]|done]. }
  destruct HN as (st6 & h6 & E6 & (saps6 & Hlp6 & Est6) & Hh6).
  exists (RunSt step time (scr c1) st6 o4 rho dofs cells g h6), pop3. split; [|split; [|split]].
  - unfold time_step. fold step time. rewrite F4, E1. cbv beta iota zeta. rewrite Hc1. cbn [ss_traj]. rewrite E3. cbv beta iota zeta. fold write. rewrite E4. cbv beta iota zeta.
    rewrite E5. cbv beta iota zeta. rewrite Eg. cbv beta iota zeta. fold st5. fold note. rewrite E6. reflexivity.
  - split; cbn [rs_src rs_hist rs_negE rs_out].
    + rewrite Est6. by eapply (looped_holds L HL).
    + exact HL3.
    + intros sn Hnil. destruct (HF5 sn Hnil) as [H1 H2]. rewrite Est6. by eapply looped_idle.
    + rewrite Est6. unfold st5. rewrite Est4. exact HT3.
    + exact Ho4.
    + destruct (rs_hist w), h6; try done. destruct Hh6 as [_ ->]. destruct (_ =? _)%Z; lia.
    + exact Hg.
  - exact Hlast.
  - exact Hh6.
Qed.

(** Otherwise it fails. *)
Theorem C40_blocked_refuted st32 w pop sn xs z : Fit u L vs w pop -> sn ∈ u_charged u -> pop sn = xs ++ [z] ->
  stays u a b (rs_count w + 1) (rs_negE w) sn z = false ->
  (Z.of_nat (length (List.filter (stays u a b (rs_count w + 1) (rs_negE w) sn) (pop sn))) mod L = 0)%Z ->
  (0 < emitted u sn (rs_count w + 1))%nat -> exists e, time_step exact st32 u w = Raise e.
Proof using HR HL.
  intros [F1 F2 F3 F4 _ _ F6] Hsn Hpop Hst Hk Hem. set (step := (rs_count w + 1)%Z) in *. set (time := exact (rs_time w + u_dt u)).
  destruct (advance_line step time (rs_negE w) (u_charged u) (lr_charged _ _ _ _ _ _ _ HR) ltac:(done) F6 (ss_saps (rs_src w)) (TCtx (rs_scr w) None) pop F1 F2 eq_refl)
    as (saps1 & c1 & pop1 & E1 & Hc1 & P1 & P2).
  destruct (P1 sn Hsn) as [_ _ HF _ _ _ Href]. rewrite (Forall2_length _ _ _ HF) in Hk. specialize (Href xs z Hpop Hst Hk).
  unfold time_step. fold step time. rewrite F4, E1. cbv beta iota zeta. rewrite Hc1. cbn [ss_traj]. cbv beta iota.
  unfold add_from_sources. unfold emitted in Hem. destruct (u_sources u) as [l|]; [|cbn in Hem; lia].
  destruct (refuses_sources exact u L HL step time (rs_negE w) sn l (SrcSt saps1 (ss_uid (rs_src w)) (ss_rng (rs_src w)) None) Href Hem) as [e ->]; [|by exists e].
  intros s. exists (pop1 s). cbn [ss_saps]. destruct (decide (s ∈ u_charged u)) as [Hin|Hin]; [split; apply (P1 s Hin)|]. destruct (P2 s Hin) as [-> ->]. apply F1.
Qed.

(** A run of any length succeeds as long as the states that it meets are served. *)
Theorem C40_run_total st32 n : u_L u = L -> forall w pop, Fit u L vs w pop ->
  (forall m w1 pop1, (m < n)%nat -> time_loop exact st32 u m w = Ok w1 -> Fit u L vs w1 pop1 -> Served L u a b w1 pop1) ->
  exists w' pop', time_loop exact st32 u n w = Ok w' /\ Fit u L vs w' pop'.
Proof using HR HL.
  intros HuL. induction n as [|n IH]; intros w pop HF Hfeed; [by exists w, pop|].
  destruct (C40_progress st32 w pop HuL HF) as (w1 & pop1 & E1 & HF1 & _).
  { apply (Hfeed 0%nat w pop); [lia|reflexivity|exact HF]. }
  cbn [time_loop]. rewrite E1. apply (IH w1 pop1 HF1). intros m w2 pop2 Hm E2. apply (Hfeed (S m) w2 pop2); [lia|].
  cbn [time_loop]. by rewrite E1.
Qed.
End Line.

(** ** Example *)

(** Two cells [0,1] and [1,2] whose ends absorb; a source puts one particle into the second cell at every other step; no
    field.  The particle [ea] moves by 1 per step from 1/2 and leaves in the second step; [eb] rests at 1/2. *)
Definition eg_vs : list R := [0; 1; 2].
Definition eg_mk (f : Z) : Z := if ((f =? 0) || (f =? 2))%Z then 1%Z else 0%Z.
Definition eg_bcs (v : Z) : option (bcfun (K:=option traj)) := if (v =? 1)%Z then Some absorb_bc else None.
Definition eg_contains (y : vec) : bool := match y with [x] => negb (Rltb x 1) && negb (Rltb 2 x) | _ => false end.
Definition eg_region : region := Region 1 [SrcCell 1 4 [3/2] (1/2) eg_contains].
Definition ea : particle := Particle [1/2] [1/2] [1] 1 2 0 1 0.
Definition eb : particle := Particle [1/2] [1/2] [0] 1 0 0 2 0.
Definition eg_params : params := Params "e" 1 [0] 2 1.
Definition eg_setup (m : mesh) : setup :=
  Setup ["e"] ["e"] [] (fun _ => -1) (fun _ => -1) (fun _ => 1) 1 1 10 m (fun _ => eg_bcs) 1 (fun _ => None) (fun _ => None) (fun _ => Some true) (fun _ => Some true)
    false 1 1 (fun _ => [0]) 1 (Some [(eg_region, eg_params)]) 1 2 None [] (fun _ => 0%Z) (fun _ => None) ea 2 1 eg_vol 3 eg_D eg_C
    (fun _ => Ok (fun _ => [0])) 1 [].
Definition eg_run_state (L : Z) (count : Z) (ps : list particle) : runst :=
  RunSt count (IZR count) [0] (SrcSt (fun sn => if String.eqb sn "e" then snd (run py_step (sap_init L) (map Push ps)) else sap_init L) 3 0 None)
    (OutSt (fun _ => sap_init L) 0 [] 0 (-1) [] false) [] (fun _ => []) (fun _ => []) (fun _ => [0]) None.
Definition eg_pop (ps : list particle) (sn : string) : list particle := if String.eqb sn "e" then ps else [].

Lemma eg_increasing : Increasing eg_vs.
Proof. intros [|[|[|i]]] x y Hx Hy; cbn in Hx, Hy; try discriminate; injection Hx as <-; injection Hy as <-; lra. Qed.
Definition EgRun (m : mesh) : Prop :=
  LineRun (eg_setup m) eg_vs eg_mk 0 2 (fun c => (1 - c)%nat) (fun c => if (c =? 0)%nat then 2 else 4).
Lemma eg_LineRun : exists m, EgRun m.
Proof.
  destruct (interval_mesh_ok eg_vs eg_mk eg_increasing) as (m & Em & _). exists m.
  assert (HH : forall x, 1 <= x <= 2 -> LineMeshProps.Holds eg_vs 1 x).
  { intros x Hx. exists 1, 2. split; [lia|]. split; [reflexivity|]. split; [reflexivity|exact Hx]. }
  split; try reflexivity; cbn [eg_setup u_mesh u_ncell u_names u_charged u_maxc u_bcs u_Eext u_solved u_ext u_fD u_fC u_ndof u_vol u_solve u_pdim u_rnd u_sources u_dE u_fuel default].
  - exact eg_increasing.
  - exact Em.
  - intros f Hf. unfold eg_mk. replace (f =? 0)%Z with false by lia. replace (f =? 2)%Z with false by lia. reflexivity.
  - by split.
  - intros sn _. by split.
  - intros sn v bc c p mf f n q c'. unfold eg_bcs. destruct (v =? 1)%Z; [|discriminate]. intros [= <-]. unfold absorb_bc. intros [= <- <-]. split; [|reflexivity].
    unfold same_identity. split; [reflexivity|]. split; [reflexivity|]. exact (absorb_traj p).
  - lia.
  - lia.
  - apply NoDup_singleton.
  - apply NoDup_singleton.
  - intros sn Hsn. exact Hsn.
  - intros sn k _. split; [discriminate|done].
  - exact eg_DofSpace.
  - exact eg_CellSpace.
  - intros [|[|c]] Hc; [reflexivity|reflexivity|lia].
  - intros rho _. eexists. split; [reflexivity|]. done.
  - split; [discriminate|]. split; [reflexivity|]. intros name Hn. inversion Hn.
  - intros dom q Hq. apply elem_of_list_singleton in Hq. injection Hq as -> ->. cbn. split; [lia|]. split; [left|]. split; [lia|]. split; [reflexivity|]. split; [reflexivity|].
    intros c Hc. apply elem_of_list_singleton in Hc as ->. cbn. split; [|split].
    + intros [|x [|]]; try discriminate. cbn. intros H. apply andb_prop in H as [H1 H2]. apply negb_true_iff in H1, H2. apply Rltb_false in H1, H2.
      exists x. split; [reflexivity|]. apply HH. lra.
    + exists (3/2). split; [reflexivity|]. apply HH. lra.
    + intros k. exists 0%nat. split; [lia|]. unfold tried. cbn. unfold exact.
      rewrite (proj2 (Rltb_false _ _)) by lra. rewrite (proj2 (Rltb_false _ _)) by lra. reflexivity.
Qed.

Lemma eg_fit m (L : Z) count ps : (L = 1 \/ L = 2)%Z -> ps = [ea; eb] \/ ps = [eb; set_pcell (set_px ea [3/2]) 1] ->
  Fit (eg_setup m) L eg_vs (eg_run_state L count ps) (eg_pop ps).
Proof.
  intros HL Hps.
  assert (HS : Reachable L (snd (run py_step (sap_init L) (map Push ps))) /\ Stores (snd (run py_step (sap_init L) (map Push ps))) ps).
  { split.
    - destruct HL as [->| ->], Hps as [->| ->].
      + apply (run_reach 1 (map Push [ea; eb]) (sap_init 1) [OPos 0 0; OPos 0 1]); [constructor|]. cbv -[IZR Rdiv]. reflexivity.
      + apply (run_reach 1 (map Push [eb; set_pcell (set_px ea [3/2]) 1]) (sap_init 1) [OPos 0 0; OPos 0 1]); [constructor|]. cbv -[IZR Rdiv]. reflexivity.
      + apply (run_reach 2 (map Push [ea; eb]) (sap_init 2) [OPos 0 0; OPos 1 1]); [constructor|]. cbv -[IZR Rdiv]. reflexivity.
      + apply (run_reach 2 (map Push [eb; set_pcell (set_px ea [3/2]) 1]) (sap_init 2) [OPos 0 0; OPos 1 1]); [constructor|]. cbv -[IZR Rdiv]. reflexivity.
    - destruct HL as [->| ->], Hps as [->| ->]; (split; [cbv -[IZR Rdiv]; reflexivity|]);
        intros [|[|k]] x Hk; cbn in Hk; try discriminate Hk; injection Hk as <-; cbv -[IZR Rdiv]; reflexivity. }
  assert (HL1 : (1 <= L)%Z) by lia.
  split; cbn [eg_run_state rs_src ss_saps ss_traj rs_hist rs_negE]; unfold eg_pop.
  - intros sn. destruct (String.eqb sn "e"); [exact HS|]. split; [constructor|]. split; [reflexivity|]. intros k x Hk. discriminate Hk.
  - intros sn p Hp. destruct (String.eqb sn "e"); [|inversion Hp]. destruct Hps as [->| ->]; apply elem_of_cons in Hp as [->|Hp%elem_of_list_singleton].
    + exists (1/2), 1. split; [reflexivity|]. split; [reflexivity|]. split; [|reflexivity]. exists 0, 1. split; [cbn; lia|]. split; [reflexivity|]. split; [reflexivity|lra].
    + subst p. exists (1/2), 0. split; [reflexivity|]. split; [reflexivity|]. split; [|reflexivity]. exists 0, 1. split; [cbn; lia|]. split; [reflexivity|]. split; [reflexivity|lra].
    + exists (1/2), 0. split; [reflexivity|]. split; [reflexivity|]. split; [|reflexivity]. exists 0, 1. split; [cbn; lia|]. split; [reflexivity|]. split; [reflexivity|lra].
    + subst p. exists (3/2), 1. split; [reflexivity|]. split; [reflexivity|]. split; [|reflexivity]. exists 1, 2. split; [cbn; lia|]. split; [reflexivity|]. split; [reflexivity|lra].
  - intros sn Hnil. destruct (String.eqb sn "e").
    + destruct Hps as [->| ->]; discriminate Hnil.
    + split; [apply np_new|by apply C47_new_accepts].
  - reflexivity.
  - by left.
  - exact I.
  - reflexivity.
Qed.
Lemma eg_landing m step sn p x v : px p = [x] -> pu p = [v] ->
  new_velocity (eg_setup m) step (fun _ => [0]) sn p = v /\ landing (eg_setup m) step (fun _ => [0]) sn p = x + v.
Proof.
  intros Hx Hv. assert (H : new_velocity (eg_setup m) step (fun _ => [0]) sn p = v).
  { unfold new_velocity, solved_part, external_part. rewrite Hv. cbn. lra. }
  split; [exact H|]. unfold landing. rewrite H, Hx. cbn. lra.
Qed.
Lemma eg_stays m step sn p x v : px p = [x] -> pu p = [v] ->
  (0 <= x + v <= 2 -> stays (eg_setup m) 0 2 step (fun _ => [0]) sn p = true) /\
  (2 < x + v -> stays (eg_setup m) 0 2 step (fun _ => [0]) sn p = false).
Proof.
  intros Hx Hv. destruct (eg_landing m step sn p x v Hx Hv) as [_ H]. unfold stays. rewrite H. split; intros Hb.
  - by rewrite !(proj2 (Rltb_false _ _)) by lra.
  - rewrite (proj2 (Rltb_true _ _) Hb). apply andb_false_r.
Qed.
Lemma eg_field m w' : u_solve (eg_setup m) (rs_rho w') = Ok (rs_negE w') -> rs_negE w' = fun _ => [0].
Proof. intros [= <-]. reflexivity. Qed.

Lemma eg_two_steps st32 m : EgRun m -> exists w1 w2 q1 q2 r1 r2 pop1,
  Fit (eg_setup m) 2 eg_vs w1 pop1 /\ pop1 "e" = [q1; q2] /\ pw q1 = 1 /\ pw q2 = 1 /\
  time_loop exact st32 (eg_setup m) 1 (eg_run_state 2 0 [ea; eb]) = Ok w1 /\ Stores (ss_saps (rs_src w1) "e") [q1; q2] /\
  px q1 = [3/2] /\ puid q1 = 1%Z /\ px q2 = [1/2] /\ puid q2 = 2%Z /\
  time_loop exact st32 (eg_setup m) 2 (eg_run_state 2 0 [ea; eb]) = Ok w2 /\ Stores (ss_saps (rs_src w2) "e") [r1; r2] /\
  px r1 = [1/2] /\ puid r1 = 2%Z /\ pcell r2 = 1%Z /\ pw r2 = 4 /\ rs_count w2 = 2%Z /\ rs_time w2 = 2.
Proof.
  intros HR. set (w0 := eg_run_state 2 0 [ea; eb]).
  pose proof (eg_fit m 2 0 [ea; eb] ltac:(lia) ltac:(by left)) as HF0. fold w0 in HF0.
  destruct (C40_progress _ 2 ltac:(lia) _ _ _ _ _ _ HR st32 w0 _ eq_refl HF0) as (w1 & pop1 & E1 & HF1 & Hp1 & Hh1).
  { split; [|by split]. intros sn Hsn. apply elem_of_list_singleton in Hsn as ->. right. cbn [eg_pop String.eqb Ascii.eqb Bool.eqb].
    change (eg_pop [ea; eb] "e") with [ea; eb]. change (rs_negE w0) with (fun _ : particle => [0]). cbn [List.filter].
    rewrite (proj1 (eg_stays m _ "e" ea (1/2) 1 eq_refl eq_refl)) by lra. rewrite (proj1 (eg_stays m _ "e" eb (1/2) 0 eq_refl eq_refl)) by lra.
    split; [cbn; lia|]. left. reflexivity. }
  pose proof (step_parts _ _ _ _ _ E1) as (_ & _ & _ & _ & _ & _ & _ & _ & _ & _ & _ & _ & _ & Es1 & _ & _ & Hc1 & _).
  apply (eg_field m) in Es1. change (rs_count w0 + 1)%Z with 1%Z in Hc1. specialize (Hp1 "e"). rewrite bool_decide_eq_true_2 in Hp1 by left.
  change (eg_pop [ea; eb] "e") with [ea; eb] in Hp1. change (rs_negE w0) with (fun _ : particle => [0]) in Hp1. cbn [List.filter] in Hp1.
  rewrite (proj1 (eg_stays m _ "e" ea (1/2) 1 eq_refl eq_refl)) in Hp1 by lra. rewrite (proj1 (eg_stays m _ "e" eb (1/2) 0 eq_refl eq_refl)) in Hp1 by lra.
  destruct Hp1 as (mv & nw & Ep1 & HLd & Hn & _). rewrite Hc1 in Hn. change (emitted (eg_setup m) "e" 1) with 0%nat in Hn.
  destruct nw; [|discriminate Hn]. clear Hn. rewrite app_nil_r in Ep1. subst mv.
  destruct (pop1 "e") as [|q1 [|q2 [|]]] eqn:Eq; [by inversion HLd|by inversion HLd as [|? ? ? ? ? H]; inversion H| |
    by inversion HLd as [|? ? ? ? ? H]; inversion H as [|? ? ? ? ? H']; inversion H'].
  inversion_clear HLd as [|? ? ? ? [A1 A2 A3 A4] HLd2]. inversion_clear HLd2 as [|? ? ? ? [B1 B2 B3 B4] _].
  destruct (eg_landing m (rs_count w1) "e" ea (1/2) 1 eq_refl eq_refl) as [Va La]. destruct (eg_landing m (rs_count w1) "e" eb (1/2) 0 eq_refl eq_refl) as [Vb Lb].
  rewrite La in A1. rewrite Lb in B1. rewrite Va in A2. rewrite Vb in B2.
  destruct (C40_progress _ 2 ltac:(lia) _ _ _ _ _ _ HR st32 w1 pop1 eq_refl HF1) as (w2 & pop2 & E2 & HF2 & Hp2 & _).
  { split; [|split; [exact I|by destruct (rs_hist w1)]]. intros sn Hsn. apply elem_of_list_singleton in Hsn as ->. right. rewrite Eq, Es1. cbn [List.filter].
    rewrite (proj2 (eg_stays m _ "e" q1 _ _ A1 A2)) by lra. rewrite (proj1 (eg_stays m _ "e" q2 _ _ B1 B2)) by lra.
    split; [cbn; lia|]. right. left. cbn. lia. }
  pose proof (step_parts _ _ _ _ _ E2) as (_ & _ & _ & _ & _ & _ & _ & _ & _ & _ & _ & _ & _ & _ & _ & _ & Hc2 & _).
  rewrite Hc1 in Hc2. change (1 + 1)%Z with 2%Z in Hc2. specialize (Hp2 "e"). rewrite bool_decide_eq_true_2 in Hp2 by left. rewrite Eq, Es1 in Hp2. cbn [List.filter] in Hp2.
  rewrite (proj2 (eg_stays m _ "e" q1 _ _ A1 A2)) in Hp2 by lra. rewrite (proj1 (eg_stays m _ "e" q2 _ _ B1 B2)) in Hp2 by lra.
  destruct Hp2 as (mv & nw & Ep2 & HLd & Hn & Hnew). rewrite Hc2 in Hn, Hnew. change (emitted (eg_setup m) "e" 2) with 1%nat in Hn.
  destruct nw as [|r2 [|]]; try discriminate Hn. destruct mv as [|r1 [|]]; [by inversion HLd| |by inversion HLd as [|? ? ? ? ? H]; inversion H].
  inversion_clear HLd as [|? ? ? ? [D1 D2 D3 D4] _]. destruct (eg_landing m (rs_count w2) "e" q2 _ _ B1 B2) as [_ Lq]. rewrite Lq in D1.
  rewrite list.Forall_cons in Hnew. destruct Hnew as [(dom & q & c & ip & uid & Hd & _ & Hc & HM) _].
  apply elem_of_list_singleton in Hd. injection Hd as -> ->. apply elem_of_list_singleton in Hc as ->.
  assert (E12 : time_loop exact st32 (eg_setup m) 2 w0 = Ok w2) by (cbn [time_loop]; rewrite E1, E2; reflexivity).
  destruct (C40_clock_exact _ _ _ _ _ E12) as [K1 K2].
  exists w1, w2, q1, q2, r1, r2, pop1. split; [exact HF1|]. split; [exact Eq|]. split; [exact A3|]. split; [exact B3|]. split; [cbn [time_loop]; rewrite E1; reflexivity|].
  split; [rewrite <- Eq; apply (ft_stored _ _ _ _ _ HF1)|]. split; [rewrite A1; f_equal; lra|]. split; [exact A4|]. split; [rewrite B1; f_equal; lra|]. split; [exact B4|].
  split; [exact E12|]. split; [change [r1; r2] with ([r1] ++ [r2]); rewrite <- Ep2; apply (ft_stored _ _ _ _ _ HF2)|].
  split; [rewrite D1; f_equal; lra|]. split; [rewrite D4; exact B4|]. split; [apply HM|]. split; [rewrite (m_weight _ _ _ _ _ _ _ _ _ _ HM); unfold source_weight; cbn; unfold exact; lra|].
  split; [exact Hc2|]. rewrite K2. cbn. lra.
Qed.

Lemma eg_cells c x : LineMeshProps.Holds eg_vs c x -> c = 0%Z /\ 0 <= x <= 1 \/ c = 1%Z /\ 1 <= x <= 2.
Proof.
  intros (lo & hi & Hc & Hlo & Hhi & Hb). apply lookup_lt_Some in Hhi as Hl. cbn in Hl.
  assert (c = 0 \/ c = 1)%Z as [->| ->] by lia; [left|right]; cbn in Hlo, Hhi; injection Hlo as <-; injection Hhi as <-; (split; [reflexivity|lra]).
Qed.

(** With segments of two particles the run goes on for two steps: [ea] has moved to 3/2 after the first, and is gone after the
    second, when a new particle has come.  With segments of one particle the second step fails if [ea] is stored last. *)
Example C40_example st32 : exists m,
  (exists w1 w2 q1 q2 r1 r2,
     time_loop exact st32 (eg_setup m) 1 (eg_run_state 2 0 [ea; eb]) = Ok w1 /\ Stores (ss_saps (rs_src w1) "e") [q1; q2] /\
     px q1 = [3/2] /\ puid q1 = 1%Z /\ px q2 = [1/2] /\ puid q2 = 2%Z /\
     time_loop exact st32 (eg_setup m) 2 (eg_run_state 2 0 [ea; eb]) = Ok w2 /\ Stores (ss_saps (rs_src w2) "e") [r1; r2] /\
     px r1 = [1/2] /\ puid r1 = 2%Z /\ pcell r2 = 1%Z /\ pw r2 = 4 /\ rs_count w2 = 2%Z /\ rs_time w2 = 2) /\
  (exists e, time_step exact st32 (eg_setup m) (eg_run_state 1 1 [eb; set_pcell (set_px ea [3/2]) 1]) = Raise e).
Proof.
  destruct eg_LineRun as [m HR]. exists m. split.
  - destruct (eg_two_steps st32 m HR) as (w1 & w2 & q1 & q2 & r1 & r2 & pop1 & _ & _ & _ & _ & H). by exists w1, w2, q1, q2, r1, r2.
  - apply (C40_blocked_refuted _ 1 ltac:(lia) _ _ _ _ _ _ HR st32 _ _ "e" [eb] (set_pcell (set_px ea [3/2]) 1) (eg_fit m 1 1 _ ltac:(lia) ltac:(by right))).
    + left.
    + reflexivity.
    + apply (proj2 (eg_stays m _ "e" (set_pcell (set_px ea [3/2]) 1) (3/2) 1 eq_refl eq_refl)). lra.
    + apply Z.mod_1_r.
    + change (rs_count _ + 1)%Z with 2%Z. change (emitted (eg_setup m) "e" 2) with 1%nat. lia.
Qed.

(** The books of this run: one particle was lost.  After the first step the charge density and the densities of the cells (of
    volumes 2 and 4, stored in reverse order) are those of particles of weight 1 and charge -1 at 3/2 and 1/2. *)
Example C40_books_example st32 : exists m w1 w2,
  time_loop exact st32 (eg_setup m) 1 (eg_run_state 2 0 [ea; eb]) = Ok w1 /\ time_loop exact st32 (eg_setup m) 2 (eg_run_state 2 0 [ea; eb]) = Ok w2 /\
  (at_ (rs_rho w1) 0 = -1/2 /\ at_ (rs_rho w1) 1 = -1 /\ at_ (rs_rho w1) 2 = -1/2 /\ at_ (rs_cells w1 "e") 1 = 1/2 /\ at_ (rs_cells w1 "e") 0 = 1/4) /\
  exists ws pop fate new, Ledger exact st32 (eg_setup m) 2 2 (eg_run_state 2 0 [ea; eb]) w2 (eg_pop [ea; eb]) ws pop fate new /\
    INR (length (lost (pop 0%nat "e") (fate 0%nat "e"))) + INR (length (lost (pop 1%nat "e") (fate 1%nat "e"))) = 1.
Proof.
  destruct eg_LineRun as [m HR]. destruct (eg_two_steps st32 m HR) as (w1 & w2 & q1 & q2 & r1 & r2 & pop1 & HF1 & Eq & W1 & W2 & E1 & _ & X1 & _ & X2 & _ & E2 & S2 & _).
  exists m, w1, w2. split; [exact E1|]. split; [exact E2|].
  pose proof (eg_fit m 2 0 [ea; eb] ltac:(lia) ltac:(by left)) as HF0. split.
  - assert (C1 : pcell q1 = 1%Z).
    { destruct (ft_line _ _ _ _ _ HF1 "e" q1) as (x & v & Hx & _ & Hh & _); [rewrite Eq; left|].
      rewrite X1 in Hx. injection Hx as <-. apply eg_cells in Hh as [[_ H]|[H _]]; [lra|exact H]. }
    assert (C2 : pcell q2 = 0%Z).
    { destruct (ft_line _ _ _ _ _ HF1 "e" q2) as (x & v & Hx & _ & Hh & _); [rewrite Eq; right; left|].
      rewrite X2 in Hx. injection Hx as <-. apply eg_cells in Hh as [[H _]|[_ H]]; [exact H|lra]. }
    cbn [time_loop] in E1. destruct (time_step exact st32 (eg_setup m) (eg_run_state 2 0 [ea; eb])) as [w|] eqn:Ew; [|discriminate E1]. injection E1 as ->.
    destruct (C40_charge_current st32 (eg_setup m) 2 (fun c => if (c =? 0)%nat then 2 else 4) (fun c => (1 - c)%nat) _ w1 (eg_pop [ea; eb]) pop1
      ltac:(lia) (lr_charged _ _ _ _ _ _ _ HR) (lr_civil _ _ _ _ _ _ _ HR) (lr_names _ _ _ _ _ _ _ HR) eg_DofSpace eg_CellSpace (lr_vol _ _ _ _ _ _ _ HR)
      (ft_stored _ _ _ _ _ HF0) (ft_stored _ _ _ _ _ HF1)) as (K1 & _ & K2 & _); [|exact Ew|].
    { intros sn Hsn. apply elem_of_list_singleton in Hsn as ->. rewrite Eq. split; [|discriminate]. intros p Hp.
      apply elem_of_cons in Hp as [->|Hp%elem_of_list_singleton]; [rewrite C1|subst p; rewrite C2]; cbn; lia. }
    assert (Hrho : forall i, at_ (rs_rho w1) i = - (spread eg_D 1 i q1 + spread eg_D 1 i q2)).
    { intros i. rewrite K1. cbn [eg_setup u_names u_charge u_fD u_gdim map]. rewrite Eq. unfold Rsum. cbn [map foldr]. rewrite W1, W2. lra. }
    rewrite !Hrho. unfold spread. rewrite C1, C2, X1, X2. unfold Rsum. cbn.
    pose proof (K2 "e" 0%nat ltac:(left) ltac:(cbn; lia)) as D0. pose proof (K2 "e" 1%nat ltac:(left) ltac:(cbn; lia)) as D1.
    cbn [Nat.sub Nat.eqb] in D0, D1. rewrite D0, D1, Eq. change (Z.of_nat 0) with 0%Z. change (Z.of_nat 1) with 1%Z. unfold cell_weight.
    rewrite filter_cons_False by (rewrite C1; discriminate). rewrite filter_cons_True by exact C2. rewrite filter_nil.
    rewrite filter_cons_True by exact C1. rewrite filter_cons_False by (rewrite C2; discriminate). rewrite filter_nil.
    unfold total_weight, Rsum. cbn. rewrite W1, W2. change (Z.to_nat 1) with 1%nat. change (Z.to_nat 0) with 0%nat. cbn [Nat.eqb]. repeat split; lra.
  - destruct (C40_ledger exact st32 (eg_setup m) 2 ltac:(lia) 2 _ w2 _ (lr_charged _ _ _ _ _ _ _ HR) (lr_civil _ _ _ _ _ _ _ HR) (ft_stored _ _ _ _ _ HF0) E2)
      as (ws & pop & fate & new & HB).
    exists ws, pop, fate, new. split; [exact HB|]. pose proof (C40_number exact st32 (eg_setup m) 2 2 _ w2 _ ws pop fate new "e" HB) as HN.
    destruct S2 as [N2 _]. rewrite N2 in HN. destruct (ft_stored _ _ _ _ _ HF0 "e") as [_ [N0 _]]. rewrite N0 in HN.
    change (seq 0 2) with [0%nat; 1%nat] in HN. unfold Rsum in HN. cbn [map foldr length] in HN.
    change (emitted (eg_setup m) "e" (rs_count (eg_run_state 2 0 [ea; eb]) + Z.of_nat 0 + 1)) with 0%nat in HN.
    change (emitted (eg_setup m) "e" (rs_count (eg_run_state 2 0 [ea; eb]) + Z.of_nat 1 + 1)) with 1%nat in HN. cbn in HN. lra.
Qed.

(** From empty storage the source puts a particle at rest into the second cell at every other step, and nothing is lost: the
    run goes on for any number [n] of steps; it then has n/2 particles, with different IDs (as long as these fit an int32). *)
Definition eg_start : runst :=
  RunSt 0 0 [0] (SrcSt (fun _ => sap_init 2) 1 0 None) (OutSt (fun _ => sap_init 2) 0 [] 0 (-1) [] false) [] (fun _ => []) (fun _ => []) (fun _ => [0]) None.
Lemma eg_rest st32 m n : EgRun m -> forall w pop, Fit (eg_setup m) 2 eg_vs w pop -> rs_hist w = None -> rs_negE w = (fun _ => [0]) ->
  (forall p, p ∈ pop "e" -> pu p = [0]) -> (0 <= rs_count w)%Z -> Z.of_nat (length (pop "e")) = (rs_count w / 2)%Z ->
  exists w' pop', time_loop exact st32 (eg_setup m) n w = Ok w' /\ Fit (eg_setup m) 2 eg_vs w' pop' /\ Z.of_nat (length (pop' "e")) = ((rs_count w + Z.of_nat n) / 2)%Z.
Proof.
  intros HR. induction n as [|n IH]; intros w pop HF HN HE Hv Hc Hl.
  - exists w, pop. split; [reflexivity|]. split; [exact HF|]. by rewrite Z.add_0_r.
  - assert (Hst : forall p, p ∈ pop "e" -> stays (eg_setup m) 0 2 (rs_count w + 1) (rs_negE w) "e" p = true).
    { intros p Hp. rewrite HE. destruct (ft_line _ _ _ _ _ HF "e" p Hp) as (x & v & Hx & _ & Hh & _).
      apply (proj1 (eg_stays m _ "e" p x 0 Hx (Hv p Hp))). apply eg_cells in Hh. lra. }
    assert (Hfil : List.filter (stays (eg_setup m) 0 2 (rs_count w + 1) (rs_negE w) "e") (pop "e") = pop "e").
    { revert Hst. generalize (pop "e"). induction l as [|p l IHl]; intros H; [reflexivity|]. cbn [List.filter]. rewrite (H p) by left. f_equal. apply IHl. intros q Hq. apply H. by right. }
    destruct (C40_progress _ 2 ltac:(lia) _ _ _ _ _ _ HR st32 w pop eq_refl HF) as (w1 & pop1 & E1 & HF1 & Hp1 & Hh1).
    { split; [|split; [exact I|by rewrite HN]]. intros sn Hsn. apply elem_of_list_singleton in Hsn as ->. unfold Feedable. cbv zeta. rewrite Hfil.
      destruct (list.last (pop "e")) as [z|] eqn:Hz; [|left; by apply last_None]. apply last_Some in Hz as [ys Hn]. right. rewrite Hn. split; [rewrite app_length; cbn; lia|]. right. right.
      exists ys, z. split; [reflexivity|]. apply Hst. rewrite Hn. apply elem_of_app. right. left. }
    pose proof (step_parts _ _ _ _ _ E1) as (_ & _ & _ & _ & _ & _ & _ & _ & _ & _ & _ & _ & _ & Es1 & _ & _ & Hc1 & _). apply (eg_field m) in Es1.
    specialize (Hp1 "e"). rewrite bool_decide_eq_true_2 in Hp1 by left. rewrite Hc1, Hfil in Hp1. destruct Hp1 as (mv & nw & Ep1 & HLd & Hn & Hnew).
    destruct (IH w1 pop1 HF1 ltac:(rewrite HN in Hh1; by destruct (rs_hist w1)) Es1) as (w' & pop' & E' & HF' & HL').
    + intros p Hp. rewrite Ep1 in Hp. apply elem_of_app in Hp as [Hp|Hp].
      * apply elem_of_list_lookup in Hp as [i Hi]. destruct (Forall2_lookup_r _ _ _ _ _ HLd Hi) as (p0 & Hp0 & [_ Hu _ _]). apply elem_of_list_lookup_2 in Hp0. rewrite Hu, HE.
        destruct (ft_line _ _ _ _ _ HF "e" p0 Hp0) as (x & v & Hx & _). f_equal. apply (eg_landing m _ "e" p0 x 0 Hx (Hv p0 Hp0)).
      * rewrite list.Forall_forall in Hnew. destruct (Hnew p Hp) as (dom & q & c & ip & uid & Hd & _ & _ & HM).
        apply elem_of_list_singleton in Hd. injection Hd as -> ->. destruct (m_velocity _ _ _ _ _ _ _ _ _ _ HM) as [k ->].
        cbn. apply (f_equal (fun x => [x])). unfold exact. lra.
    + lia.
    + rewrite Ep1, app_length, Hn, <- (Forall2_length _ _ _ HLd), Nat2Z.inj_add, Hl, Hc1.
      unfold emitted. cbn [eg_setup u_sources default List.filter]. unfold feeds. cbn [snd eg_params s_species s_interval String.eqb Ascii.eqb Bool.eqb andb].
      destruct ((rs_count w + 1) mod 2 =? 0)%Z eqn:Em; cbn -[Z.div Z.modulo]; rewrite Em; cbn -[Z.div Z.modulo]; change (Pos.to_nat 1) with 1%nat; Z.to_euclidean_division_equations; lia.
    + exists w', pop'. split; [cbn [time_loop]; rewrite E1; exact E'|]. split; [exact HF'|]. rewrite HL', Hc1. f_equal. lia.
Qed.
Example C40_ids_example st32 n : (Z.of_nat n < 2 ^ 32)%Z -> exists m w,
  time_loop exact st32 (eg_setup m) n eg_start = Ok w /\ get_number_of_items (ss_saps (rs_src w) "e") = (Z.of_nat n / 2)%Z /\
  forall i j p q, (0 <= i < Z.of_nat n / 2)%Z -> get_item (ss_saps (rs_src w) "e") i = Ok (Some p) ->
    (0 <= j < Z.of_nat n / 2)%Z -> get_item (ss_saps (rs_src w) "e") j = Ok (Some q) -> i <> j -> puid p <> puid q.
Proof.
  intros Hn. destruct eg_LineRun as [m HR]. exists m.
  destruct (eg_rest st32 m n HR eg_start (fun _ => [])) as (w & pop & E & HF & Hl).
  - split; cbn [eg_start rs_src ss_saps ss_traj rs_hist rs_negE]; [| |split|reflexivity|by left|exact I|reflexivity].
    + intros sn. split; [constructor|]. split; [reflexivity|]. intros k x Hk. discriminate Hk.
    + intros sn p Hp. inversion Hp.
    + apply np_new.
    + by apply C47_new_accepts.
  - reflexivity.
  - reflexivity.
  - intros p Hp. inversion Hp.
  - cbn. lia.
  - reflexivity.
  - exists w. split; [exact E|]. destruct (ft_stored _ _ _ _ _ HF "e") as [_ [HN _]]. rewrite Hl in HN. change (rs_count eg_start + Z.of_nat n)%Z with (Z.of_nat n) in HN.
    split; [exact HN|]. intros i j p q Hi Hp Hj Hq Hne Hid. rewrite <- HN in Hi, Hj. apply Hne.
    apply (C40_unique_ids exact st32 (eg_setup m) 2 ltac:(lia) 1 n eg_start w "e" "e" i j p q
      (lr_charged _ _ _ _ _ _ _ HR) (lr_civil _ _ _ _ _ _ _ HR) ltac:(apply run_new) E); try assumption.
    change (ss_uid (rs_src eg_start) - 1)%Z with 0%Z. change (rs_count eg_start) with 0%Z.
    assert (Hsum : forall l, (sum_list_with (fun k => emitted_all (eg_setup m) (0 + Z.of_nat k + 1)) l <= length l)%nat).
    { assert (H1 : forall k, (emitted_all (eg_setup m) k <= 1)%nat).
      { intros k. unfold emitted_all. cbn -[Z.modulo]. destruct (k mod 2 =? 0)%Z; cbn; lia. }
      induction l as [|k l IHl]; [reflexivity|]. cbn [sum_list_with length]. specialize (H1 (0 + Z.of_nat k + 1)%Z). lia. }
    specialize (Hsum (seq 0 n)). rewrite seq_length in Hsum. lia.
Qed.

Print Assumptions C40_progress.
Print Assumptions C40_blocked_refuted.
Print Assumptions C40_run_total.
