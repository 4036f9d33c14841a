(** Runs in a domain of any dimension whose boundary absorbs: facts for C57. *)
From Coq Require Import String.
From stdpp Require Import strings numbers list list_numbers.
From Verif Require Import SapModel MoverModel SapProofs SapSpec SapRefine StorageProps.
From Verif Require Import Vec VecProofs Rounding BcModel TrackModel TrackGeomProofs TrajModel TrajProofs TrajProps DiagModel DiagProofs DumpProps SumProps HistoryProps.
From Verif Require RegionProps.
From Verif Require Import AcceptProps DensityModel DensityProps SourceModel SourceProps UidProps RunModel RunProps FieldProps RunTotalProps MainProps MainTotalProps.
Local Open Scope R_scope.

(** A particle in the domain: [D] coordinates and velocity components, in its cell, not deleted. *)
Definition Placed (D : nat) (At : Z -> vec -> Prop) (p : particle) : Prop :=
  length (px p) = D /\ length (pu p) = D /\ At (pcell p) (px p) /\ is_deleted p = false.

(** The parts of the setting that do not depend on the shape of the mesh, with [D] dimensions and cells that contain the points that [At] says: names,
    fields, function spaces, output, histories and sources, as in [LineRun]. *)
Record Setting (u : setup) (D : nat) (At : Z -> vec -> Prop) (d : nat -> nat) (vl : nat -> R) : Prop := {
  st_civil : forall sn, Civil (u_bcs u sn);
  st_int : (Z.of_nat (u_ncell u) <= 2 ^ 31)%Z;
  st_names : NoDup (u_names u);
  st_charged : NoDup (u_charged u);
  st_known : forall sn, sn ∈ u_charged u -> sn ∈ u_names u;
  st_dE : u_dE u = D;
  st_Eext : forall k, fields_of D (u_Eext u k);
  st_apply : forall sn k, sn ∈ u_charged u -> u_solved u sn <> Some false /\ (u_Eext u k <> None -> u_ext u sn <> Some false);
  st_dofs : DofSpace (u_fD u) (u_ncell u) (u_ndof u);
  st_cellspace : CellSpace (u_fC u) (u_ncell u) d;
  st_vol : forall c : nat, (c < u_ncell u)%nat -> u_vol u (Z.of_nat c) = Some (vl c);
  st_solve : forall rho, length rho = u_ndof u -> exists g, u_solve u rho = Ok g /\ forall p, length (g p) = D;
  st_pdim : u_pdim u = D;
  st_rnd : forall k, length (u_rnd u k) = D;
  st_out : match u_out_interval u with
           | None => True
           | Some k => k <> 0%Z /\ NoDup (u_atts u) /\ forall pA, pA ∈ u_atts u -> writable (u_column u) pA
           end;
  st_hist : u_hist_skip u <> 0%Z /\ u_nv u = D /\ forall name, name ∈ u_hist_names u -> (name = "count" \/ name = "KE")%string;
  st_sources : forall dom q, (dom, q) ∈ default [] (u_sources u) ->
    s_interval q <> 0%Z /\ s_species q ∈ u_charged u /\ (1 <= s_percell q)%Z /\ r_gdim dom = D /\ length (s_drift q) = D /\
    forall c, c ∈ r_cells dom ->
      (forall y, c_in c y = true -> length y = D /\ At (c_index c) y) /\
      (length (c_mid c) = D /\ At (c_index c) (c_mid c)) /\
      (forall k, exists j, (j < u_fuel u)%nat /\ c_in c (tried exact D (u_rnd u) D c (k + j)) = true)
}.
(** A run in a domain [inb] in which moves do not fail. *)
Record DomRun (u : setup) (D : nat) (At : Z -> vec -> Prop) (inb : vec -> bool) (d : nat -> nat) (vl : nat -> R) : Prop := {
  dr_cell : forall c x, At c x -> (0 <= c < Z.of_nat (u_ncell u))%Z;
  dr_track : forall sn i time p c, sn ∈ u_charged u -> length (px p) = D -> length (px0 p) = D -> At (pcell p) (px0 p) ->
    exists q c', track exact (u_bcs u sn) (fun c _ _ _ => Ok c) Charged (u_mesh u) (u_maxc u) i time (u_dt u) p c = Ok (q, c') /\
      px q = px p /\ pu q = pu p /\
      if inb (px p) then pbits q = pbits p /\ At (pcell q) (px p) else pbits q = Z.lor (pbits p) DELETE_FLAG;
  dr_set : Setting u D At d vl
}.

(** A state of the run: as [Fit]. *)
Record DFit (u : setup) (L : Z) (D : nat) (At : Z -> vec -> Prop) (w : runst) (pop : string -> list particle) : Prop := {
  df_stored : StoresAll L (ss_saps (rs_src w)) pop;
  df_placed : forall sn p, p ∈ pop sn -> Placed D At p;
  df_fresh : forall sn, pop sn = [] -> NeverPushed L (ss_saps (rs_src w) sn) /\ Accepts (ss_saps (rs_src w) sn);
  df_traj : ss_traj (rs_src w) = None;
  df_out : u_out_interval u = None \/ OutOk (rs_out w) /\ o_open (rs_out w) = true;
  df_hist : match rs_hist w with None => True | Some h => (0 <= h_counter h)%Z end;
  df_field : forall p, length (rs_negE w p) = D
}.

(** Where a particle lands in the step, and whether it is still in the domain there. *)
Definition vnew (u : setup) (D : nat) (step : Z) (negE : particle -> vec) (sn : string) (p : particle) : vec :=
  map (fun i => comp (pu p) i + u_qom u sn * u_dt u * (solved_part (Some negE) (u_solved u sn) p i + external_part (u_Eext u step) (u_ext u sn) p i)) (seq 0 D).
Definition vland (u : setup) (D : nat) (step : Z) (negE : particle -> vec) (sn : string) (p : particle) : vec :=
  map (fun i => comp (px p) i + comp (vnew u D step negE sn p) i * u_dt u) (seq 0 D).
Definition remains (u : setup) (D : nat) (inb : vec -> bool) (step : Z) (negE : particle -> vec) (sn : string) (p : particle) : bool :=
  inb (vland u D step negE sn p).
(** What the particle [p] that remains has become. *)
Record VLanded (u : setup) (D : nat) (step : Z) (negE : particle -> vec) (sn : string) (p q : particle) : Prop := {
  vl_x : px q = vland u D step negE sn p;
  vl_u : pu q = vnew u D step negE sn p;
  vl_w : pw q = pw p;
  vl_id : puid q = puid p
}.
(** The species [sn] survives the step and can be fed if need be. *)
Definition DFeedable (L : Z) (u : setup) (D : nat) (inb : vec -> bool) (w : runst) (pop : string -> list particle) (sn : string) : Prop :=
  let step := (rs_count w + 1)%Z in
  let k := length (List.filter (remains u D inb step (rs_negE w) sn) (pop sn)) in
  pop sn = [] \/ (0 < k)%nat /\
    (emitted u sn step = 0%nat \/ (Z.of_nat k mod L <> 0)%Z \/ exists xs z, pop sn = xs ++ [z] /\ remains u D inb step (rs_negE w) sn z = true).
(** What the next step needs, as [Served]. *)
Definition DServed (L : Z) (u : setup) (D : nat) (inb : vec -> bool) (w : runst) (pop : string -> list particle) : Prop :=
  let step := (rs_count w + 1)%Z in
  (forall sn, sn ∈ u_charged u -> DFeedable L u D inb w pop sn) /\
  match u_out_interval u with
  | None => True
  | Some k => (step mod k = 0)%Z -> (Z.of_nat (sum_list_with (fun sn => length (pop sn) + emitted u sn step)%nat (u_names u)) < 2 ^ 53)%Z
  end /\
  match rs_hist w with
  | None => True
  | Some h => (step mod u_hist_skip u = 0)%Z -> (h_counter h < Z.of_nat (length (h_rows h)))%Z
  end.

Lemma vec_comps (D : nat) (a : vec) : length a = D -> a = map (fun i => comp a i) (seq 0 D).
Proof.
  revert D. induction a as [|x a IH]; intros D <-; [reflexivity|]. cbn [length seq map]. f_equal. rewrite (IH _ eq_refl) at 1.
  rewrite <- seq_shift, map_map. reflexivity.
Qed.
Lemma comp_map_seq (f : nat -> R) D i : (i < D)%nat -> comp (map f (seq 0 D)) i = f i.
Proof.
  intros Hi. rewrite (nth_indep _ 0 (f 0%nat)) by (rewrite map_length, seq_length; exact Hi). rewrite map_nth, seq_nth by exact Hi. reflexivity.
Qed.
Lemma map_seq_ext (f g : nat -> R) D : (forall i, (i < D)%nat -> f i = g i) -> map f (seq 0 D) = map g (seq 0 D).
Proof. intros H. apply map_ext_in. intros i Hi. apply in_seq in Hi. apply H. lia. Qed.
(** Where the mover puts a particle. *)
Lemma moved_to (u : setup) (D : nat) (step : Z) negE sn p e : length (px p) = D -> length (pu p) = D -> length e = D ->
  (forall i, comp e i = solved_part (Some negE) (u_solved u sn) p i + external_part (u_Eext u step) (u_ext u sn) p i) ->
  let q := free_move exact (u_dt u) (accelerate exact (exact (u_qom u sn * u_dt u)) (Some e) p) in
  px q = vland u D step negE sn p /\ pu q = vnew u D step negE sn p.
Proof.
  intros Hx Hu He Hc q.
  assert (Q2 : pu q = vnew u D step negE sn p).
  { subst q. cbn [free_move accelerate px set_px set_px0 set_pu pu]. rewrite (vec_comps D (vadd _ _ _)) by (rewrite vadd_length; rewrite ?vscale_length; lia).
    unfold vnew. apply map_seq_ext. intros i Hi. rewrite comp_vadd by (rewrite vscale_length; lia). rewrite comp_vscale, Hc. reflexivity. }
  split; [|exact Q2]. change (px q) with (vadd exact (px p) (map (fun u0 => exact (u0 * u_dt u)) (pu q))). rewrite Q2.
  assert (Hl : length (vnew u D step negE sn p) = D) by (unfold vnew; rewrite map_length, seq_length; reflexivity).
  rewrite (vec_comps D (vadd _ _ _)) by (rewrite vadd_length; rewrite ?map_length; lia). unfold vland. apply map_seq_ext. intros i Hi.
  rewrite comp_vadd by (rewrite map_length; lia). rewrite comp_map_mul. reflexivity.
Qed.

Section Dom.
Context (u : setup) (L : Z) (HL : (1 <= L)%Z) (D : nat) (At : Z -> vec -> Prop) (inb : vec -> bool) (d : nat -> nat) (vl : nat -> R).
Context (HR : DomRun u D At inb d vl).

Lemma select_dom step negE sn p : sn ∈ u_charged u -> exists e,
  select_E exact (u_dE u) (Some negE) (u_Eext u step) (u_solved u sn) (u_ext u sn) p = Ok (Some e).
Proof using HR.
  intros Hsn. destruct (st_apply _ _ _ _ _ (dr_set _ _ _ _ _ _ HR) sn step Hsn) as [H1 H2]. unfold select_E.
  destruct (u_solved u sn) as [[]|]; [|done|]; (destruct (u_Eext u step) as [h|]; [|by eexists]); specialize (H2 ltac:(done));
    destruct (u_ext u sn) as [[]|]; try done; by eexists.
Qed.
Lemma record_dom sn step e p : sn ∈ u_charged u -> forall c i q t, usr c = None ->
  rec_crossing_charged sn step (u_dE u) (Some e) (u_Eext u step) (u_ext u sn) p c i q t = Ok c.
Proof using HR.
  intros Hsn [sc us] i q t Hc. cbn in Hc. subst us. destruct (st_apply _ _ _ _ _ (dr_set _ _ _ _ _ _ HR) sn step Hsn) as [_ H2]. unfold rec_crossing_charged.
  destruct (u_Eext u step) as [h|]; [|reflexivity]. specialize (H2 ltac:(done)). by destruct (u_ext u sn) as [[]|].
Qed.
Lemma mover_dom step time negE sn : sn ∈ u_charged u ->
  Keeps (fun c : tctx (K:=option traj) => usr c = None) (mover_at exact u step time negE sn).
Proof using HR.
  intros Hsn. split; [|split].
  - intros c i p q c1 Hc E. unfold mover_at in E. cbn [adv charged_hooks] in E. destruct (select_dom step negE sn p Hsn) as [e Ee]. rewrite Ee in E.
    unfold advance_charged in E. destruct (track_untraced exact _ (st_civil _ _ _ _ _ (dr_set _ _ _ _ _ _ HR) sn) _ _ (record_dom sn step e p Hsn) (record_dom sn step e p Hsn)
      Charged (u_mesh u) (u_maxc u) i time (u_dt u) (free_move exact (u_dt u) (accelerate exact (exact (u_qom u sn * u_dt u)) (Some e) p)) c Hc) as [_ H]. by eapply H.
  - intros [sc us] ch i j q c1 Hc. cbn in Hc. subst us. intros [= <-]. reflexivity.
  - intros [sc us] i p q c1 Hc. cbn in Hc. subst us. intros [= <-]. reflexivity.
Qed.

Lemma adv_dom step time negE sn c i p : sn ∈ u_charged u -> (forall p, length (negE p) = D) -> Placed D At p -> usr c = None ->
  exists q c', adv (mover_at exact u step time negE sn) c i p = Ok (q, c') /\ usr c' = None /\
    VLanded u D step negE sn p q /\ is_deleted q = negb (remains u D inb step negE sn p) /\ (remains u D inb step negE sn p = true -> Placed D At q).
Proof using HR.
  intros Hsn Hneg (Hx & Hu & Hin & Hdel) Hc. destruct (select_dom step negE sn p Hsn) as [e Ee].
  assert (He : length e = D /\ forall i, comp e i = solved_part (Some negE) (u_solved u sn) p i + external_part (u_Eext u step) (u_ext u sn) p i).
  { pose proof Ee as Ee'. rewrite (st_dE _ _ _ _ _ (dr_set _ _ _ _ _ _ HR)) in Ee'. apply select_parts in Ee' as [Hl Hcomp]; [|exact Hneg|apply (st_Eext _ _ _ _ _ (dr_set _ _ _ _ _ _ HR))]. by split. }
  destruct He as [Hel Hec]. destruct (moved_to u D step negE sn p e Hx Hu Hel Hec) as [P1 P2].
  set (p2 := free_move exact (u_dt u) (accelerate exact (exact (u_qom u sn * u_dt u)) (Some e) p)) in *.
  assert (P4 : px0 p2 = px p /\ pcell p2 = pcell p /\ pbits p2 = pbits p /\ same_identity p p2) by done. destruct P4 as (P3 & P4 & P5 & P6).
  destruct (dr_track _ _ _ _ _ _ HR sn i time p2 c Hsn) as (q & c' & Et & S1 & S2 & HT).
  { rewrite P1. unfold vland. by rewrite map_length, seq_length. } { by rewrite P3. } { by rewrite P3, P4. }
  destruct (track_untraced exact _ (st_civil _ _ _ _ _ (dr_set _ _ _ _ _ _ HR) sn) _ (fun c _ _ _ => Ok c) (record_dom sn step e p Hsn) (fun c i p t H => eq_refl)
      Charged (u_mesh u) (u_maxc u) i time (u_dt u) p2 c Hc) as [Eu Hc'].
  assert (Hid : same_identity p2 q).
  { refine (proj1 (track_identity exact (u_bcs u sn) (fun c _ _ _ => Ok c) Charged (u_mesh u) (u_maxc u) i time (u_dt u) (fun _ => True) p2 c q c' (st_civil _ _ _ _ _ (dr_set _ _ _ _ _ _ HR) sn) _ I Et)).
    intros; exact I. }
  assert (HV : VLanded u D step negE sn p q).
  { destruct Hid as (I1 & I2 & _). split; [by rewrite S1|by rewrite S2|by rewrite I1|by rewrite I2]. }
  exists q, c'. unfold mover_at. cbn [adv charged_hooks]. rewrite Ee. unfold advance_charged. fold p2. rewrite Eu. split; [exact Et|].
  split; [eapply Hc'; rewrite Eu; exact Et|]. split; [exact HV|]. unfold remains. rewrite <- P1. destruct (inb (px p2)) eqn:Eb; cbn [negb].
  - destruct HT as [D1 D2]. assert (Hd : is_deleted q = false) by (unfold is_deleted; rewrite D1, P5; exact Hdel). split; [exact Hd|]. intros _.
    split; [rewrite S1, P1; unfold vland; by rewrite map_length, seq_length|]. split; [rewrite S2, P2; unfold vnew; by rewrite map_length, seq_length|].
    split; [rewrite S1; exact D2|exact Hd].
  - split; [|discriminate]. unfold is_deleted. rewrite HT. exact (absorb_deletes p2).
Qed.

(** ** One species *)
Definition Fate (step : Z) (negE : particle -> vec) (sn : string) (p : particle) (r : option particle) : Prop :=
  match r with
  | Some q => remains u D inb step negE sn p = true /\ VLanded u D step negE sn p q /\ Placed D At q
  | None => remains u D inb step negE sn p = false
  end.
Lemma pass_dom step time negE sn xs : sn ∈ u_charged u -> (forall p, length (negE p) = D) -> (forall p, p ∈ xs -> Placed D At p) ->
  forall i kept ch c, usr c = None ->
  exists ys c', seq_pass (mover_at exact u step time negE sn) i kept ch c xs = Ok (ys, c') /\ usr c' = None.
Proof using HR.
  intros Hsn Hneg. induction xs as [|p xs IH]; intros Hxs i kept ch c Hc; cbn [seq_pass]; [by exists kept, c|].
  destruct (adv_dom step time negE sn c i p Hsn Hneg (Hxs p ltac:(left)) Hc) as (q & c1 & -> & Hc1 & _ & _ & _).
  assert (Hr : forall i kept ch c, usr c = None ->
    exists ys c', seq_pass (mover_at exact u step time negE sn) i kept ch c xs = Ok (ys, c') /\ usr c' = None).
  { apply IH. intros p' Hp'. apply Hxs. by right. }
  destruct c1 as [sc us]. cbn in Hc1. subst us. cbn beta iota.
  destruct (deleted _ q); [cbn [on_drop mover_at charged_hooks]; unfold drop_particle|cbn [on_keep mover_at charged_hooks]; unfold keep_particle];
    cbn [usr]; by apply Hr.
Qed.
Lemma fate_dom step time negE sn p r : sn ∈ u_charged u -> (forall p, length (negE p) = D) -> Placed D At p ->
  (exists c i q c1, usr c = None /\ adv (mover_at exact u step time negE sn) c i p = Ok (q, c1) /\
     r = if deleted (mover_at exact u step time negE sn) q then None else Some q) -> Fate step negE sn p r.
Proof using HR.
  intros Hsn Hneg Hp (c & i & q & c1 & Hc & E & ->).
  destruct (adv_dom step time negE sn c i p Hsn Hneg Hp Hc) as (q' & c1' & E' & _ & HLd & Hd & Hst). rewrite E in E'. injection E' as <- <-.
  change (deleted (mover_at exact u step time negE sn) q) with (is_deleted q). rewrite Hd.
  destruct (remains u D inb step negE sn p) eqn:Es; cbn [negb]; unfold Fate; [|exact Es]. split; [exact Es|]. split; [exact HLd|]. by apply Hst.
Qed.
Lemma fates_dom step negE sn xs fate : Forall2 (Fate step negE sn) xs fate ->
  Forall2 (VLanded u D step negE sn) (List.filter (remains u D inb step negE sn) xs) (survivors fate) /\
  forall q, q ∈ survivors fate -> Placed D At q.
Proof using.
  induction 1 as [|p r xs fate Hr HF [IH1 IH2]]; [split; [constructor|intros q Hq; inversion Hq]|]. cbn [List.filter]. destruct r as [q|].
  - destruct Hr as (-> & H1 & H2). change (survivors (Some q :: fate)) with (q :: survivors fate). split; [by constructor|].
    intros q' Hq'. apply elem_of_cons in Hq' as [->|Hq']; [exact H2|by apply IH2].
  - cbn in Hr. rewrite Hr. change (survivors (None :: fate)) with (survivors fate). by split.
Qed.

(** What a mover pass leaves of a species. *)
Record DPassed (step : Z) (negE : particle -> vec) (sn : string) (s : sap particle) (xs : list particle) (s' : sap particle) (ys : list particle) : Prop := {
  dp_reach : Reachable L s';
  dp_stores : Stores s' ys;
  dp_landed : Forall2 (VLanded u D step negE sn) (List.filter (remains u D inb step negE sn) xs) ys;
  dp_placed : forall q, q ∈ ys -> Placed D At q;
  dp_empty : xs = [] -> s' = s;
  dp_accepts : (Z.of_nat (length ys) mod L <> 0)%Z \/ (exists xs0 z, xs = xs0 ++ [z] /\ remains u D inb step negE sn z = true) -> Accepts s';
  dp_refuses : forall xs0 z, xs = xs0 ++ [z] -> remains u D inb step negE sn z = false -> (Z.of_nat (length ys) mod L = 0)%Z -> Refuses s'
}.
Lemma species_dom step time negE sn s xs c : sn ∈ u_charged u -> (forall p, length (negE p) = D) ->
  Reachable L s -> Stores s xs -> (forall p, p ∈ xs -> Placed D At p) -> usr c = None ->
  exists s' c' ys, guarded_mover (py_ops particle) (mover_at exact u step time negE sn) s c = Ok (s', c') /\ usr c' = None /\
    DPassed step negE sn s xs s' ys.
Proof using HR HL.
  intros Hsn Hneg Hr Hs Hxs Hc. pose proof (C04_pass_is_sequential L s xs (mover_at exact u step time negE sn) c HL Hr Hs) as H.
  destruct (pass_dom step time negE sn xs Hsn Hneg Hxs 0%Z [] false c Hc) as (ys & c' & Ep & Hc'). rewrite Ep in H.
  destruct H as (s' & Em & Hs' & Hr'). exists s', c', ys. split; [exact Em|]. split; [exact Hc'|].
  destruct (seq_pass_fate_inv (fun c => usr c = None) _ _ (mover_dom step time negE sn Hsn) _ _ _ _ _ _ Hc Ep) as (fate & Ey & _ & HF).
  cbn [app] in Ey. assert (HF' : Forall2 (Fate step negE sn) xs fate).
  { apply Forall2_same_length_lookup. split; [by eapply Forall2_length|]. intros k p r Hp Hf. eapply fate_dom; [exact Hsn|exact Hneg| |].
    - apply Hxs. by eapply elem_of_list_lookup_2.
    - apply (Forall2_lookup_lr _ _ _ _ _ _ HF Hp Hf). }
  destruct (fates_dom step negE sn xs fate HF') as [G1 G2]. rewrite <- Ey in G1, G2. 
  assert (Hlast : forall xs0 z, xs = xs0 ++ [z] -> if (Z.of_nat (length ys) mod L =? 0)%Z && negb (remains u D inb step negE sn z) then Refuses s' else Accepts s').
  { intros xs0 z ->.
    destruct (C47_mover_accepts L (fun c => usr c = None) _ s xs0 z c s' c' HL (mover_dom step time negE sn Hsn) Hc Hr Hs Em) as (ft & r & HFt & HSt & Hif).
    assert (Hsv : survivors (ft ++ [r]) = ys) by (exact (stores_inj _ _ _ HSt Hs')).
    assert (Hlen : length xs0 = length ft) by (apply Forall2_length in HFt; rewrite !app_length in HFt; cbn in HFt; lia).
    apply (Forall2_app_inv _ _ _ _ _ Hlen) in HFt as [_ HFz]. inversion_clear HFz as [|? ? ? ? Hz _].
    apply fate_dom in Hz; [|exact Hsn|exact Hneg|apply Hxs; apply elem_of_app; right; left]. rewrite Hsv in Hif.
    destruct r as [q|]; [destruct Hz as [-> _]|cbn in Hz; rewrite Hz]; exact Hif. }
  split; [exact Hr'|exact Hs'|exact G1|exact G2| | |].
  - intros ->. destruct Hs as [Hn _]. unfold guarded_mover in Em. rewrite Hn in Em. cbn in Em. by injection Em as <- _.
  - intros Hacc. assert (Hl : xs = [] \/ exists xs0 z, xs = xs0 ++ [z]).
    { destruct (decide (xs = [])) as [->|Hne]; [by left|right]. destruct (exists_last Hne) as (xs0 & z & ->). by exists xs0, z. }
    destruct Hl as [->|(xs0 & z & ->)].
    { exfalso. destruct Hacc as [Hacc|(xs0 & z & Ex & _)]; [|by destruct xs0]. apply Forall2_nil_inv_l in G1. rewrite G1 in Hacc. apply Hacc. reflexivity. }
    specialize (Hlast xs0 z eq_refl). destruct (Z.eqb_spec (Z.of_nat (length ys) mod L) 0) as [H0|H0]; cbn [andb] in Hlast; [|exact Hlast].
    destruct Hacc as [Hacc|(xs1 & z1 & Ex & Hst)]; [done|]. apply app_inj_tail in Ex as [<- <-]. by rewrite Hst in Hlast.
  - intros xs0 z Ex Hst H0. specialize (Hlast xs0 z Ex). rewrite H0, Hst in Hlast. exact Hlast.
Qed.

(** ** All charged species *)
Lemma advance_dom step time negE sns : NoDup sns -> (forall sn, sn ∈ sns -> sn ∈ u_charged u) -> (forall p, length (negE p) = D) ->
  forall saps c pop, StoresAll L saps pop -> (forall sn p, p ∈ pop sn -> Placed D At p) -> usr c = None ->
  exists saps' c' pop', advance_species exact u step time negE sns saps c = Ok (saps', c') /\ usr c' = None /\
    (forall sn, sn ∈ sns -> DPassed step negE sn (saps sn) (pop sn) (saps' sn) (pop' sn)) /\
    (forall sn, sn ∉ sns -> saps' sn = saps sn /\ pop' sn = pop sn).
Proof using HR HL.
  intros Hnd Hsub Hneg. induction sns as [|sn sns IH]; intros saps c pop HH Hline Hc; cbn [advance_species].
  - exists saps, c, pop. split; [reflexivity|]. split; [exact Hc|]. split; [intros sn Hsn; inversion Hsn|done].
  - inversion_clear Hnd as [|? ? Hni Hnd']. destruct (HH sn) as [Hr Hs].
    destruct (species_dom step time negE sn (saps sn) (pop sn) c (Hsub sn ltac:(left)) Hneg Hr Hs (Hline sn) Hc) as (s1 & c1 & ys & Em & Hc1 & HP).
    change (charged_hooks exact sn step time (u_dt u) (u_qom u sn) (u_maxc u) (u_mesh u) (u_bcs u sn) (u_dE u) (Some negE)
      (u_Eext u step) (u_solved u sn) (u_ext u sn) false) with (mover_at exact u step time negE sn). rewrite Em. cbn iota beta.
    destruct (IH Hnd' (fun s Hs => Hsub s (elem_of_list_further _ _ _ Hs)) (set_key saps sn s1) c1 (fun s => if String.eqb s sn then ys else pop s)) as (saps' & c' & pop' & E & Hc' & G1 & G2).
    + intros s. unfold set_key. destruct (String.eqb_spec s sn) as [->|Hne]; [split; apply HP|apply HH].
    + intros s p. destruct (String.eqb_spec s sn) as [->|Hne]; [apply HP|apply Hline].
    + exact Hc1.
    + exists saps', c', pop'. split; [exact E|]. split; [exact Hc'|]. destruct (G2 sn Hni) as [K1 K2]. rewrite set_key_same in K1. rewrite String.eqb_refl in K2. split.
      * intros s Hs'. destruct (String.eqb_spec s sn) as [->|Hne]; [by rewrite K1, K2|]. apply elem_of_cons in Hs' as [?|Hs']; [done|].
        specialize (G1 s Hs'). rewrite set_key_other in G1 by exact Hne. by replace (String.eqb s sn) with false in G1 by (symmetry; by apply String.eqb_neq).
      * intros s Hs'. apply not_elem_of_cons in Hs' as [Hne Hs']. destruct (G2 s Hs') as [K3 K4]. rewrite set_key_other in K3 by exact Hne.
        replace (String.eqb s sn) with false in K4 by (symmetry; by apply String.eqb_neq). by split.
Qed.

(** ** Sources *)
Lemma sources_dom step time negE l : (forall dom q, (dom, q) ∈ l -> (dom, q) ∈ default [] (u_sources u)) ->
  forall st pop, StoresAll L (ss_saps st) pop -> ss_traj st = None ->
  (forall dom q, (dom, q) ∈ l -> feeds (s_species q) step (dom, q) = true -> r_cells dom <> [] -> Accepts (ss_saps st (s_species q))) ->
  exists st', add_more_particles (source_list exact u negE l) step time st = Ok st' /\ ss_traj st' = None.
Proof using HR HL.
  induction l as [|[dom q] l IH]; intros Hsub st pop HH HT Hacc; cbn [source_list map add_more_particles fst snd]; [by exists st|].
  fold (source_list exact u negE l). destruct (st_sources _ _ _ _ _ (dr_set _ _ _ _ _ _ HR) dom q (Hsub _ _ ltac:(left))) as (Hi & Hch & Hn & Hg & Hd & Hcells).
  destruct (Z.eqb_spec (s_interval q) 0) as [|_]; [done|].
  assert (Hsub' : forall dom q, (dom, q) ∈ l -> (dom, q) ∈ default [] (u_sources u)) by (intros; apply Hsub; by right).
  destruct (step mod s_interval q =? 0)%Z eqn:Ek; [|apply (IH Hsub' st pop HH HT); intros dom' q' H'; apply Hacc; by right].
  pose proof (st_known _ _ _ _ _ (dr_set _ _ _ _ _ _ HR) _ Hch) as Hknown.
  destruct (decide (r_cells dom = [])) as [Hnil|Hne].
  { rewrite source_nocells by assumption. apply (IH Hsub' st pop HH HT). intros dom' q' H'. apply Hacc. by right. }
  destruct (HH (s_species q)) as [Hr Hs].
  destruct (C27_fires exact (u_names u) (u_spherical u) (u_pdim u) (u_pi4 u) (u_rnd u) (u_fuel u) (u_dE u) (Some negE) None step time dom q st L HL) as (st1 & E1 & HR1).
  - by apply elem_of_list_In.
  - exact Hn.
  - exists (pop (s_species q)). split; [exact Hr|]. split; [exact Hs|]. split; [|rewrite HT; exact I].
    apply (Hacc dom q); [left| |exact Hne]. unfold feeds. cbn [snd]. by rewrite String.eqb_refl, Ek.
  - rewrite Hg, (st_pdim _ _ _ _ _ (dr_set _ _ _ _ _ _ HR)). lia.
  - by rewrite Hd, (st_pdim _ _ _ _ _ (dr_set _ _ _ _ _ _ HR)).
  - intros c Hc. rewrite Hg, (st_pdim _ _ _ _ _ (dr_set _ _ _ _ _ _ HR)). by apply Hcells.
  - rewrite E1. cbn iota beta. destruct (fire_made exact u L HL _ _ _ _ _ _ _ _ Hr Hs E1) as (new & A1 & A2 & A3 & _).
    apply (IH Hsub' st1 (fun s => if String.eqb s (s_species q) then pop s ++ new else pop s)).
    + intros s. destruct (String.eqb_spec s (s_species q)) as [->|Hns]; [by split|]. rewrite A3 by exact Hns. apply HH.
    + by eapply source_untraced.
    + intros dom' q' H' Hf Hc'. destruct (String.eqb_spec (s_species q') (s_species q)) as [->|Hns].
      * destruct HR1 as (xs1 & _ & _ & HA & _). exact HA.
      * rewrite A3 by exact Hns. eapply (Hacc dom'); [by right|exact Hf|exact Hc'].
Qed.
Lemma made_dom step sn p : FromSource exact u sn step p -> Placed D At p.
Proof using HR.
  intros (dom & q & c & ip & uid & Hin & _ & Hc & HM). destruct (st_sources _ _ _ _ _ (dr_set _ _ _ _ _ _ HR) dom q Hin) as (_ & _ & _ & Hg & Hd & Hcells).
  destruct (Hcells c Hc) as (H1 & (Hml & Hma) & _). destruct HM as [M1 _ _ _ _ _ M7 M8 M9 (k & M10)].
  rewrite (st_pdim _ _ _ _ _ (dr_set _ _ _ _ _ _ HR)), Hg in M8.
  assert (Hx : length (px p) = D /\ At (c_index c) (px p)).
  { destruct ip as [|ip]; [|apply H1, M9; lia]. rewrite M8 by reflexivity. rewrite Nat.sub_diag. cbn [replicate]. rewrite app_nil_r, take_ge by lia. by split. }
  destruct Hx as [Hl Hx]. split; [exact Hl|]. split; [rewrite M10, vadd_length; rewrite ?(st_rnd _ _ _ _ _ (dr_set _ _ _ _ _ _ HR) k); congruence|]. split; [|exact M7].
  rewrite M1. replace (int32 (c_index c)) with (c_index c); [exact Hx|]. symmetry. apply RegionProps.int32_small.
  pose proof (dr_cell _ _ _ _ _ _ HR _ _ Hx). pose proof (st_int _ _ _ _ _ (dr_set _ _ _ _ _ _ HR)). lia.
Qed.

(** A history row, if there is room. *)
Lemma row_dom st32 step time st h pop : StoresAll L (ss_saps st) pop -> (forall sn p, p ∈ pop sn -> Placed D At p) ->
  (forall sn, pop sn = [] -> NeverPushed L (ss_saps st sn)) -> (0 <= h_counter h < Z.of_nat (length (h_rows h)))%Z ->
  exists st' h', record_run_history exact st32 u step time (st, Some h) = Ok (st', Some h') /\ h_counter h' = (h_counter h + 1)%Z /\
    length (h_rows h') = length (h_rows h).
Proof using HR HL.
  intros HH Hl Hn Hc. destruct (st_hist _ _ _ _ _ (dr_set _ _ _ _ _ _ HR)) as (_ & Hnv & Hnames).
  destruct (record_values_ok (u_junk u) (u_nv u) (u_mass u) L (u_names u) HL pop (u_hist_names u) Hnames (ss_saps st)) as (saps1 & Ev & _).
  { intros sn Hsn. split; [split; [apply HH|split; [apply HH|apply Hn]]|]. intros p Hp. destruct (Hl sn p Hp) as (_ & Hu & _). by rewrite Hu, Hnv. }
  destruct (values_any st32 _ _ _ _ _ _ Ev) as [vs' Ev'].
  assert (Hset : forall x, py_set (h_rows h) (h_counter h) x = Ok (<[Z.to_nat (h_counter h) := x]> (h_rows h))).
  { intros x. unfold py_set, py_pos. by replace ((0 <=? h_counter h) && (h_counter h <? Z.of_nat (length (h_rows h))))%Z with true by lia. }
  unfold record_run_history, record_history. cbn [snd fst]. rewrite Hset, Ev'. cbv beta iota. rewrite Hset. cbv beta iota.
  eexists _, _. split; [reflexivity|]. split; [reflexivity|]. cbn. by rewrite insert_length.
Qed.
(** A snapshot, if the file is open. *)
Lemma snapshot_dom k close step time st o pop : u_out_interval u = Some k -> StoresAll L (ss_saps st) pop -> u_L u = L ->
  (Z.of_nat (population (u_names u) pop) < 2 ^ 53)%Z -> OutOk o -> o_open o = true ->
  exists st' o', write_snapshot exact u close step time (st, o) = Ok (st', o') /\ OutOk o' /\ (close = false -> o_open o' = true).
Proof using HR HL.
  intros Hk HH HuL Hpop HO Hop. pose proof (st_out _ _ _ _ _ (dr_set _ _ _ _ _ _ HR)) as Hout. rewrite Hk in Hout. destruct Hout as (_ & Hnd & Hw).
  unfold write_snapshot. set (o1 := OutSt (ss_saps st) (o_blen o) (o_buf o) (o_counter o) (o_last o) (o_file o) (o_open o)).
  destruct (Z.eqb_spec step (o_last o)) as [He|Hne].
  - unfold write_particles. replace (step =? o_last o1)%Z with true by (cbn; lia). eexists _, _. split; [reflexivity|]. by split.
  - destruct (C24_dump_contents exact (u_L u) (u_names u) (u_sindex u) (u_column u) pop (u_atts u) step time close o1) as (o2 & E2 & _ & _ & _ & _ & Ho & _ & HO2); try done.
    { by rewrite HuL. } { intros sn _. rewrite HuL. apply HH. }
    rewrite E2. eexists _, _. split; [reflexivity|]. split; [exact HO2|]. by intros ->.
Qed.

(** The particles are moved and new ones are added. *)
Lemma moved_dom w pop : StoresAll L (ss_saps (rs_src w)) pop -> (forall sn p, p ∈ pop sn -> Placed D At p) ->
  (forall sn, pop sn = [] -> NeverPushed L (ss_saps (rs_src w) sn) /\ Accepts (ss_saps (rs_src w) sn)) ->
  ss_traj (rs_src w) = None -> (forall p, length (rs_negE w p) = D) ->
  (forall sn, sn ∈ u_charged u -> DFeedable L u D inb w pop sn) ->
  let step := (rs_count w + 1)%Z in let time := exact (rs_time w + u_dt u) in
  exists saps1 c1 st3 pop3,
    advance_species exact u step time (rs_negE w) (u_charged u) (ss_saps (rs_src w)) (TCtx (rs_scr w) None) = Ok (saps1, c1) /\ usr c1 = None /\
    add_from_sources exact u step time (rs_negE w) (SrcSt saps1 (ss_uid (rs_src w)) (ss_rng (rs_src w)) None) = Ok st3 /\ ss_traj st3 = None /\
    StoresAll L (ss_saps st3) pop3 /\ (forall sn p, p ∈ pop3 sn -> Placed D At p) /\
    (forall sn, pop3 sn = [] -> NeverPushed L (ss_saps st3 sn) /\ Accepts (ss_saps st3 sn)) /\
    (forall sn, length (pop3 sn) <= length (pop sn) + emitted u sn step)%nat /\
    forall sn, if bool_decide (sn ∈ u_charged u)
      then exists moved new, pop3 sn = moved ++ new /\
        Forall2 (VLanded u D step (rs_negE w) sn) (List.filter (remains u D inb step (rs_negE w) sn) (pop sn)) moved /\
        length new = emitted u sn step /\ Forall (FromSource exact u sn step) new
      else pop3 sn = pop sn.
Proof using HR HL.
  intros F1 F2 F3 F4 F6 Hfeed. unfold DFeedable in Hfeed. cbv zeta in Hfeed. set (step := (rs_count w + 1)%Z) in *. set (time := exact (rs_time w + u_dt u)). cbv zeta.
  destruct (advance_dom step time (rs_negE w) (u_charged u) (st_charged _ _ _ _ _ (dr_set _ _ _ _ _ _ HR)) ltac:(done) F6 (ss_saps (rs_src w)) (TCtx (rs_scr w) None) pop F1 F2 eq_refl)
    as (saps1 & c1 & pop1 & E1 & Hc1 & P1 & P2).
  assert (HH1 : StoresAll L saps1 pop1).
  { intros sn. destruct (decide (sn ∈ u_charged u)) as [Hin|Hin]; [split; apply (P1 sn Hin)|]. destruct (P2 sn Hin) as [-> ->]. apply F1. }
  assert (HL1 : forall sn p, p ∈ pop1 sn -> Placed D At p).
  { intros sn p. destruct (decide (sn ∈ u_charged u)) as [Hin|Hin]; [apply (P1 sn Hin)|]. destruct (P2 sn Hin) as [_ ->]. apply F2. }
  assert (HF1 : forall sn, pop1 sn = [] -> saps1 sn = ss_saps (rs_src w) sn /\ pop sn = []).
  { intros sn Hnil. destruct (decide (sn ∈ u_charged u)) as [Hin|Hin]; [|destruct (P2 sn Hin) as [-> <-]; by split].
    destruct (P1 sn Hin) as [_ _ HF _ He _ _]. destruct (Hfeed sn Hin) as [Hp|[Hk _]]; [split; [by apply He|exact Hp]|].
    rewrite Hnil in HF. apply Forall2_nil_inv_r in HF. exfalso. rewrite HF in Hk. cbn in Hk. lia. }
  set (st1 := SrcSt saps1 (ss_uid (rs_src w)) (ss_rng (rs_src w)) None).
  assert (HS : exists st3 new, add_from_sources exact u step time (rs_negE w) st1 = Ok st3 /\ ss_traj st3 = None /\
    StoresAll L (ss_saps st3) (fun sn => pop1 sn ++ new sn) /\ (forall sn, length (new sn) = emitted u sn step) /\
    (forall sn, Forall (FromSource exact u sn step) (new sn)) /\ (forall sn, new sn = [] -> ss_saps st3 sn = saps1 sn)).
  { unfold add_from_sources. destruct (u_sources u) as [l|] eqn:Es.
    - destruct (sources_dom step time (rs_negE w) l) with (st := st1) (pop := pop1) as (st3 & E3 & HT3); [by rewrite Es|exact HH1|reflexivity| |].
      + intros dom q Hin Hf Hne. cbn [ss_saps st1]. assert (Hin' : (dom, q) ∈ default [] (u_sources u)) by (rewrite Es; exact Hin).
        destruct (st_sources _ _ _ _ _ (dr_set _ _ _ _ _ _ HR) dom q Hin') as (_ & Hch & Hn & _).
        destruct (P1 _ Hch) as [_ _ HF _ He Hacc _]. destruct (Hfeed _ Hch) as [Hp|[Hk [H0|[H0|H0]]]].
        * rewrite (He Hp). by apply F3.
        * exfalso. apply Hne. by eapply emitted_none.
        * apply Hacc. left. by rewrite <- (Forall2_length _ _ _ HF).
        * apply Hacc. by right.
      + rewrite E3. destruct (sources_hold exact u L HL _ _ _ l st1 st3 pop1 HH1 E3) as (new & B1 & B2 & B3 & B4 & _).
        exists st3, new. split; [reflexivity|]. split; [exact HT3|]. split; [exact B1|]. unfold emitted, FromSource. rewrite Es. split; [exact B2|]. split; [exact B3|exact B4].
    - exists st1, (fun _ => []). split; [reflexivity|]. split; [reflexivity|]. unfold emitted. rewrite Es.
      split; [intros sn; rewrite app_nil_r; apply HH1|]. split; [reflexivity|]. split; [intros sn; constructor|done]. }
  destruct HS as (st3 & new & E3 & HT3 & HH3 & Hlen & Hnew & Hsame). set (pop3 := fun sn => pop1 sn ++ new sn) in *.
  assert (HL3 : forall sn p, p ∈ pop3 sn -> Placed D At p).
  { intros sn p Hp. apply elem_of_app in Hp as [Hp|Hp]; [by eapply HL1|]. eapply made_dom. specialize (Hnew sn). rewrite list.Forall_forall in Hnew. by apply Hnew. }
  assert (HF3 : forall sn, pop3 sn = [] -> NeverPushed L (ss_saps st3 sn) /\ Accepts (ss_saps st3 sn)).
  { intros sn Hnil. apply app_eq_nil in Hnil as [Hn1 Hn2]. rewrite (Hsame sn Hn2). destruct (HF1 sn Hn1) as [-> Hp]. by apply F3. }
  assert (Hlast : forall sn, if bool_decide (sn ∈ u_charged u)
      then exists moved new, pop3 sn = moved ++ new /\
        Forall2 (VLanded u D step (rs_negE w) sn) (List.filter (remains u D inb step (rs_negE w) sn) (pop sn)) moved /\
        length new = emitted u sn step /\ Forall (FromSource exact u sn step) new
      else pop3 sn = pop sn).
  { intros sn. case_bool_decide as Hin.
    + exists (pop1 sn), (new sn). split; [reflexivity|]. split; [apply (P1 sn Hin)|]. split; [apply Hlen|apply Hnew].
    + unfold pop3. destruct (P2 sn Hin) as [_ ->]. assert (new sn = []) as ->; [|apply app_nil_r].
      specialize (Hlen sn). destruct (new sn) as [|p l] eqn:En; [reflexivity|]. exfalso. specialize (Hnew sn). rewrite En in Hnew. rewrite list.Forall_cons in Hnew. destruct Hnew as [Hp _].
      destruct Hp as (dom & q & c & ip & uid & Hd & Hf & _). destruct (st_sources _ _ _ _ _ (dr_set _ _ _ _ _ _ HR) dom q Hd) as (_ & Hch & _).
      unfold feeds in Hf. cbn [snd] in Hf. apply andb_prop in Hf as [Hf _]. apply String.eqb_eq in Hf. congruence. }
  exists saps1, c1, st3, pop3. split; [exact E1|]. split; [exact Hc1|]. split; [exact E3|]. split; [exact HT3|]. split; [exact HH3|]. split; [exact HL3|]. split; [exact HF3|].
  split; [|exact Hlast]. intros sn. specialize (Hlast sn). case_bool_decide as Hin.
  - destruct Hlast as (mv & nw & -> & HF & Hn & _). rewrite app_length, Hn, <- (Forall2_length _ _ _ HF).
    assert (H : (length (List.filter (remains u D inb step (rs_negE w) sn) (pop sn)) <= length (pop sn))%nat).
    { generalize (pop sn). intros ps. induction ps as [|p ps IH]; [reflexivity|]. cbn [List.filter]. destruct (remains _ _ _ _ _ _ p); cbn [length]; lia. }
    lia.
  - rewrite Hlast. lia.
Qed.
(** Densities. *)
Lemma densities_dom st pop : StoresAll L (ss_saps st) pop -> (forall sn p, p ∈ pop sn -> Placed D At p) -> (forall sn, pop sn = [] -> NeverPushed L (ss_saps st sn)) ->
  exists saps rho dofs cells, density_update exact (u_ncell u) (u_gdim u) (u_vol u) (u_junk u) (u_fD u) (u_fC u) (u_charge u) (u_names u) (u_ndof u) (ss_saps st) =
    Ok (saps, rho, dofs, cells) /\ length rho = u_ndof u.
Proof using HR HL.
  intros HH3 HL3 HF3. destruct (C33_assembled_charge L (u_ncell u) (u_gdim u) (u_ndof u) (u_vol u) vl (u_junk u) (u_fD u) (u_fC u) d (u_charge u) (u_names u) (ss_saps st) pop
    HL (st_dofs _ _ _ _ _ (dr_set _ _ _ _ _ _ HR)) (st_cellspace _ _ _ _ _ (dr_set _ _ _ _ _ _ HR)) (st_vol _ _ _ _ _ (dr_set _ _ _ _ _ _ HR)) (st_names _ _ _ _ _ (dr_set _ _ _ _ _ _ HR))) as (saps5 & rho & dofs & cells & E5 & _ & Hrho & _).
  { intros sn Hsn. split; [split; [apply HH3|split; [apply HH3|apply HF3]]|]. intros p Hp.
    destruct (HL3 sn p Hp) as (_ & _ & Ha & _). exact (dr_cell _ _ _ _ _ _ HR _ _ Ha). }
  by exists saps5, rho, dofs, cells.
Qed.

(** A step succeeds, and leads to a state of the same kind, if no charged species dies out in it, none is fed whose last
    particle leaves while the segment length divides the number of those that stay, and there is room for the output. *)
Lemma dom_progress st32 w pop : u_L u = L -> DFit u L D At w pop -> DServed L u D inb w pop ->
  exists w' pop', time_step exact st32 u w = Ok w' /\ DFit u L D At w' pop' /\
    (forall sn, if bool_decide (sn ∈ u_charged u)
      then exists moved new, pop' sn = moved ++ new /\
        Forall2 (VLanded u D (rs_count w') (rs_negE w) sn) (List.filter (remains u D inb (rs_count w') (rs_negE w) sn) (pop sn)) moved /\
        length new = emitted u sn (rs_count w') /\ Forall (FromSource exact u sn (rs_count w')) new
      else pop' sn = pop sn) /\
    match rs_hist w, rs_hist w' with
    | None, None => True
    | Some h, Some h' => length (h_rows h') = length (h_rows h) /\ h_counter h' = (h_counter h + if (rs_count w' mod u_hist_skip u =? 0)%Z then 1 else 0)%Z
    | _, _ => False
    end.
Proof using HR HL.
  intros HuL [F1 F2 F3 F4 Fo Fh F6] (Hfeed & Hpop & Hroom). cbv zeta in Hpop, Hroom.
  destruct (moved_dom w pop F1 F2 F3 F4 F6 Hfeed) as (saps1 & c1 & st3 & pop3 & E1 & Hc1 & E3 & HT3 & HH3 & HL3 & HF3 & Hle & Hlast).
  set (step := (rs_count w + 1)%Z) in *. set (time := exact (rs_time w + u_dt u)) in *.
  set (write := match u_out_interval u with None => Ok (st3, rs_out w) | Some k => every k step (write_snapshot exact u false step time) (st3, rs_out w) end).
  assert (HW : exists st4 o4, write = Ok (st4, o4) /\ (exists saps, Looped (ss_saps st3) saps /\ st4 = with_saps st3 saps) /\
    (u_out_interval u = None \/ OutOk o4 /\ o_open o4 = true)).
  { subst write. pose proof (st_out _ _ _ _ _ (dr_set _ _ _ _ _ _ HR)) as Hout. destruct (u_out_interval u) as [k|] eqn:Ek.
    - destruct Fo as [Fo|[HO Hop]]; [discriminate|]. destruct Hout as (Hk0 & _). unfold every. replace (k =? 0)%Z with false by lia. destruct (Z.eqb_spec (step mod k) 0) as [Hm|Hm].
      + destruct (snapshot_dom k false step time st3 (rs_out w) pop3 Ek HH3 HuL) as (st4 & o4 & E4 & HO4 & Hop4); [|exact HO|exact Hop|].
        { specialize (Hpop Hm). eapply Z.le_lt_trans; [|exact Hpop]. apply inj_le. unfold population. clear - Hle. induction (u_names u) as [|sn l IH]; [reflexivity|].
          cbn [map list_sum foldr sum_list_with]. specialize (Hle sn). unfold list_sum in IH. lia. }
        exists st4, o4. split; [exact E4|]. split; [by eapply write_looped|]. right. split; [exact HO4|by apply Hop4].
      + exists st3, (rs_out w). split; [reflexivity|]. split; [exists (ss_saps st3); split; [constructor|by destruct st3]|]. right. by split.
    - exists st3, (rs_out w). split; [reflexivity|]. split; [exists (ss_saps st3); split; [constructor|by destruct st3]|]. by left. }
  destruct HW as (st4 & o4 & E4 & (saps4 & Hlp4 & Est4) & Ho4).
  assert (HH4 : StoresAll L (ss_saps st4) pop3) by (rewrite Est4; by eapply (looped_holds L HL)).
  assert (HF4 : forall sn, pop3 sn = [] -> NeverPushed L (ss_saps st4 sn) /\ Accepts (ss_saps st4 sn)).
  { intros sn Hnil. destruct (HF3 sn Hnil) as [H1 H2]. rewrite Est4. by eapply looped_idle. }
  destruct (densities_dom st4 pop3 HH4 HL3) as (saps5 & rho & dofs & cells & E5 & Hrho); [intros sn Hnil; by apply HF4|].
  pose proof (density_looped exact u _ _ _ _ _ _ _ _ _ E5) as Hlp5. set (st5 := with_saps st4 saps5).
  assert (HH5 : StoresAll L (ss_saps st5) pop3) by (by eapply (looped_holds L HL)).
  assert (HF5 : forall sn, pop3 sn = [] -> NeverPushed L (ss_saps st5 sn) /\ Accepts (ss_saps st5 sn)).
  { intros sn Hnil. destruct (HF4 sn Hnil) as [H1 H2]. by eapply looped_idle. }
  destruct (st_solve _ _ _ _ _ (dr_set _ _ _ _ _ _ HR) rho Hrho) as (g & Eg & Hg).
  set (note := match rs_hist w with None => Ok (st5, None) | Some _ => every (u_hist_skip u) step (record_run_history exact st32 u step time) (st5, rs_hist w) end).
  assert (HN : exists st6 h6, note = Ok (st6, h6) /\ (exists saps, Looped (ss_saps st5) saps /\ st6 = with_saps st5 saps) /\
    match rs_hist w, h6 with
    | None, None => True
    | Some h, Some h' => length (h_rows h') = length (h_rows h) /\ h_counter h' = (h_counter h + if (step mod u_hist_skip u =? 0)%Z then 1 else 0)%Z
    | _, _ => False
    end).
  { subst note. destruct (rs_hist w) as [h|].
    - destruct (st_hist _ _ _ _ _ (dr_set _ _ _ _ _ _ HR)) as (Hk0 & _). unfold every. replace (u_hist_skip u =? 0)%Z with false by lia. destruct (Z.eqb_spec (step mod u_hist_skip u) 0) as [Hm|Hm].
      + destruct (row_dom st32 step time st5 h pop3 HH5 HL3) as (st6 & h6 & E6 & Hc6 & Hl6); [intros sn Hnil; by apply HF5|specialize (Hroom Hm); lia|].
        exists st6, (Some h6). split; [exact E6|]. split; [by eapply history_phase_looped|]. by split.
      + exists st5, (Some h). split; [reflexivity|]. split; [exists (ss_saps st5); split; [constructor|by destruct st5]|]. split; [reflexivity|lia].
    - exists st5, None. split; [reflexivity|]. split; [exists (ss_saps st5); split; [constructor|by destruct st5]|done]. }
  destruct HN as (st6 & h6 & E6 & (saps6 & Hlp6 & Est6) & Hh6).
  exists (RunSt step time (scr c1) st6 o4 rho dofs cells g h6), pop3. split; [|split; [|split]].
  - unfold time_step. fold step time. rewrite F4, E1. cbv beta iota zeta. rewrite Hc1. cbn [ss_traj]. rewrite E3. cbv beta iota zeta. fold write. rewrite E4. cbv beta iota zeta.
    rewrite E5. cbv beta iota zeta. rewrite Eg. cbv beta iota zeta. fold st5. fold note. rewrite E6. reflexivity.
  - split; cbn [rs_src rs_hist rs_negE rs_out].
    + rewrite Est6. by eapply (looped_holds L HL).
    + exact HL3.
    + intros sn Hnil. destruct (HF5 sn Hnil) as [H1 H2]. rewrite Est6. by eapply looped_idle.
    + rewrite Est6. unfold st5. rewrite Est4. exact HT3.
    + exact Ho4.
    + destruct (rs_hist w), h6; try done. destruct Hh6 as [_ ->]. destruct (_ =? _)%Z; lia.
    + exact Hg.
  - exact Hlast.
  - exact Hh6.
Qed.

(** Otherwise it fails. *)
Lemma dom_blocked st32 w pop sn xs z : DFit u L D At w pop -> sn ∈ u_charged u -> pop sn = xs ++ [z] ->
  remains u D inb (rs_count w + 1) (rs_negE w) sn z = false ->
  (Z.of_nat (length (List.filter (remains u D inb (rs_count w + 1) (rs_negE w) sn) (pop sn))) mod L = 0)%Z ->
  (0 < emitted u sn (rs_count w + 1))%nat -> exists e, time_step exact st32 u w = Raise e.
Proof using HR HL.
  intros [F1 F2 F3 F4 _ _ F6] Hsn Hpop Hst Hk Hem. set (step := (rs_count w + 1)%Z) in *. set (time := exact (rs_time w + u_dt u)).
  destruct (advance_dom step time (rs_negE w) (u_charged u) (st_charged _ _ _ _ _ (dr_set _ _ _ _ _ _ HR)) ltac:(done) F6 (ss_saps (rs_src w)) (TCtx (rs_scr w) None) pop F1 F2 eq_refl)
    as (saps1 & c1 & pop1 & E1 & Hc1 & P1 & P2).
  destruct (P1 sn Hsn) as [_ _ HF _ _ _ Href]. rewrite (Forall2_length _ _ _ HF) in Hk. specialize (Href xs z Hpop Hst Hk).
  unfold time_step. fold step time. rewrite F4, E1. cbv beta iota zeta. rewrite Hc1. cbn [ss_traj]. cbv beta iota.
  unfold add_from_sources. unfold emitted in Hem. destruct (u_sources u) as [l|]; [|cbn in Hem; lia].
  destruct (refuses_sources exact u L HL step time (rs_negE w) sn l (SrcSt saps1 (ss_uid (rs_src w)) (ss_rng (rs_src w)) None) Href Hem) as [e ->]; [|by exists e].
  intros s. exists (pop1 s). cbn [ss_saps]. destruct (decide (s ∈ u_charged u)) as [Hin|Hin]; [split; apply (P1 s Hin)|]. destruct (P2 s Hin) as [-> ->]. apply F1.
Qed.

(** A run of any length succeeds as long as the states that it meets are served. *)
Lemma dom_run_total st32 n : u_L u = L -> forall w pop, DFit u L D At w pop ->
  (forall m w1 pop1, (m < n)%nat -> time_loop exact st32 u m w = Ok w1 -> DFit u L D At w1 pop1 -> DServed L u D inb w1 pop1) ->
  exists w' pop', time_loop exact st32 u n w = Ok w' /\ DFit u L D At w' pop'.
Proof using HR HL.
  intros HuL. induction n as [|n IH]; intros w pop HF Hfeed; [by exists w, pop|].
  destruct (dom_progress st32 w pop HuL HF) as (w1 & pop1 & E1 & HF1 & _).
  { apply (Hfeed 0%nat w pop); [lia|reflexivity|exact HF]. }
  cbn [time_loop]. rewrite E1. apply (IH w1 pop1 HF1). intros m w2 pop2 Hm E2. apply (Hfeed (S m) w2 pop2); [lia|].
  cbn [time_loop]. by rewrite E1.
Qed.
End Dom.

Section Total.
Context (u : setup) (HL : (1 <= u_L u)%Z) (D : nat) (At : Z -> vec -> Prop) (inb : vec -> bool) (d : nat -> nat) (vl : nat -> R).
Context (HR : DomRun u D At inb d vl).

(** The initial state of the program: empty storage, no trajectories, nothing written, and a new history with [np] rows if any. *)
Record DStart (np : option Z) (w : runst) : Prop := {
  ds_count : rs_count w = 0%Z;
  ds_empty : forall sn, ss_saps (rs_src w) sn = sap_init (u_L u);
  ds_traj : ss_traj (rs_src w) = None;
  ds_out : rs_out w = out_init (u_L u) (u_names u) (ss_saps (rs_src w));
  ds_hist : rs_hist w = hist_new <$> np;
  ds_field : forall p, length (rs_negE w p) = D
}.
Lemma looped_dom saps saps' (pop : string -> list particle) : Looped saps saps' ->
  (forall sn, Counted (u_L u) (saps sn) (pop sn) /\ (pop sn = [] -> Accepts (saps sn))) ->
  forall sn, Counted (u_L u) (saps' sn) (pop sn) /\ (pop sn = [] -> Accepts (saps' sn)).
Proof using HL HR.
  intros Hl H sn. destruct (H sn) as [HC HA]. split; [by eapply (looped_counted _ HL)|]. intros Hnil.
  destruct (looped_idle _ HL _ _ sn Hl) as [_ HA']; [by apply HC|by apply HA|exact HA'].
Qed.

Lemma dom_start st32 file ini np w : DStart np w -> u_out_interval u = None /\ file = false \/ u_out_interval u <> None /\ file = true ->
  (forall e, e ∈ default [] ini -> exists sn ps, e = Listed sn ps /\ sn ∈ u_names u /\ Forall (Placed D At) ps) ->
  (Z.of_nat (population (u_names u) (initial_of ini)) < 2 ^ 53)%Z -> (forall n, np = Some n -> (1 <= n)%Z) ->
  exists w1, initialization exact st32 u file ini w = Ok w1 /\ DFit u (u_L u) D At w1 (initial_of ini) /\ rs_count w1 = 0%Z /\
    match np, rs_hist w1 with
    | None, None => True
    | Some n, Some h => h_counter h = 1%Z /\ length (h_rows h) = Z.to_nat n
    | _, _ => False
    end.
Proof using HL HR.
  intros [S1 S2 S3 S4 S5 S6] Hfile Hini Hpop Hnp.
  assert (Hline : forall sn p, p ∈ initial_of ini sn -> Placed D At p).
  { intros sn p Hp. unfold initial_of in Hp. apply elem_of_list_In, in_concat in Hp as (ps & Hps & Hp). apply in_map_iff in Hps as (e & He & Hin).
    apply elem_of_list_In in Hin. destruct (Hini e Hin) as (s & qs & -> & _ & Hq). destruct (String.eqb s sn); [|by subst ps]. subst ps.
    rewrite list.Forall_forall in Hq. apply Hq. by apply elem_of_list_In. }
  set (w1 := RunSt (rs_count w) (rs_time w) (rs_scr w) (rs_src w) (if file then open_file (rs_out w) else rs_out w) (rs_rho w) (rs_dofs w) (rs_cells w) (rs_negE w) (rs_hist w)).
  assert (HO1 : file = true -> OutOk (rs_out w1) /\ o_open (rs_out w1) = true).
  { intros ->. cbn [w1 rs_out]. rewrite S4. split; [|reflexivity]. split; cbn; [rewrite replicate_length; nia|]. by intros g ?%elem_of_nil. }
  assert (HI : exists w2, (match ini with None => Ok w1 | Some l => initial_particles exact u file l w1 end) = Ok w2 /\
    ss_traj (rs_src w2) = None /\ (forall sn, Counted (u_L u) (ss_saps (rs_src w2) sn) (initial_of ini sn) /\ (initial_of ini sn = [] -> Accepts (ss_saps (rs_src w2) sn))) /\
    (file = true -> OutOk (rs_out w2) /\ o_open (rs_out w2) = true) /\ (forall p, length (rs_negE w2 p) = D) /\ rs_count w2 = 0%Z /\ rs_hist w2 = rs_hist w).
  { destruct ini as [l|].
    - destruct (initial_ok u HL l) with (st := rs_src w) (pop := fun _ : string => @nil particle) as (st1 & E1 & HT1 & HC1); [|exact S3| |].
      { intros e He. destruct (Hini e He) as (sn & ps & Heq & Hsn & _). by exists sn, ps. }
      { intros s. rewrite S2. split; [by apply fresh_counted|by apply C47_new_accepts]. }
      cbv beta in HC1. cbn [app] in HC1.
      assert (HH1 : StoresAll (u_L u) (ss_saps st1) (initial_of (Some l))) by (intros sn; destruct (HC1 sn) as ((A1 & A2 & _) & _); by split).
      set (write := if file then write_snapshot exact u false (rs_count w1) (rs_time w1) (st1, rs_out w1) else Ok (st1, rs_out w1)).
      assert (HW : exists st2 o2, write = Ok (st2, o2) /\ (exists saps, Looped (ss_saps st1) saps /\ st2 = with_saps st1 saps) /\ (file = true -> OutOk o2 /\ o_open o2 = true)).
      { subst write. destruct Hfile as [[Hn ->]|[Hn ->]].
        - exists st1, (rs_out w1). split; [reflexivity|]. split; [exists (ss_saps st1); split; [constructor|by destruct st1]|discriminate].
        - destruct (u_out_interval u) as [k|] eqn:Ek; [|done]. destruct (HO1 eq_refl) as [HO Hop].
          destruct (snapshot_dom u _ HL _ _ _ _ _ HR k false (rs_count w1) (rs_time w1) st1 (rs_out w1) _ Ek HH1 eq_refl Hpop HO Hop) as (st2 & o2 & E2 & HO2 & Hop2).
          exists st2, o2. split; [exact E2|]. split; [by eapply write_looped|]. intros _. split; [exact HO2|by apply Hop2]. }
      destruct HW as (st2 & o2 & E2 & (saps2 & Hl2 & Est2) & HO2).
      assert (HC2 : forall sn, Counted (u_L u) (ss_saps st2 sn) (initial_of (Some l) sn) /\ (initial_of (Some l) sn = [] -> Accepts (ss_saps st2 sn))).
      { rewrite Est2. apply (looped_dom _ _ _ Hl2). intros sn. destruct (HC1 sn) as [A1 A2]. by split. }
      assert (HH2 : StoresAll (u_L u) (ss_saps st2) (initial_of (Some l))) by (intros sn; destruct (HC2 sn) as ((A1 & A2 & _) & _); by split).
      destruct (densities_dom u _ HL _ _ _ _ _ HR st2 _ HH2 Hline) as (saps3 & rho & dofs & cells & E3 & Hrho).
      { intros sn Hnil. by apply HC2. }
      destruct (st_solve _ _ _ _ _ (dr_set _ _ _ _ _ _ HR) rho Hrho) as (g & Eg & Hg).
      exists (RunSt (rs_count w1) (rs_time w1) (rs_scr w1) (with_saps st2 saps3) o2 rho dofs cells g (rs_hist w1)). split.
      + unfold initial_particles. change (rs_src w1) with (rs_src w). rewrite E1. cbv beta iota zeta. fold write. rewrite E2. cbv beta iota zeta.
        unfold record_trajectories. replace (ss_traj st2) with (@None traj) by (rewrite Est2; by symmetry). cbv beta iota. rewrite E3. cbv beta iota. rewrite Eg. reflexivity.
      + split; [cbn; rewrite Est2; exact HT1|]. split; [|split; [exact HO2|split; [exact Hg|split; [exact S1|reflexivity]]]].
        cbn [rs_src with_saps ss_saps]. eapply looped_dom; [by eapply density_looped|exact HC2].
    - exists w1. split; [reflexivity|]. split; [exact S3|]. split; [|split; [exact HO1|split; [exact S6|split; [exact S1|reflexivity]]]].
      intros sn. cbn [w1 rs_src]. rewrite S2. split; [by apply fresh_counted|]. intros _. by apply C47_new_accepts. }
  destruct HI as (w2 & E2 & HT2 & HC2 & HO2 & HE2 & Hc2 & Hh2).
  assert (HH2 : StoresAll (u_L u) (ss_saps (rs_src w2)) (initial_of ini)) by (intros sn; destruct (HC2 sn) as ((A1 & A2 & _) & _); by split).
  assert (HN : exists st3 h3, record_run_history exact st32 u (rs_count w2) (rs_time w2) (rs_src w2, rs_hist w2) = Ok (st3, h3) /\
    match np, h3 with None, None => True | Some n, Some h => h_counter h = 1%Z /\ length (h_rows h) = Z.to_nat n | _, _ => False end).
  { rewrite Hh2, S5. destruct np as [n|]; cbn [fmap option_fmap option_map].
    - destruct (row_dom u _ HL _ _ _ _ _ HR st32 (rs_count w2) (rs_time w2) (rs_src w2) (hist_new n) _ HH2 Hline) as (st3 & h3 & E3 & Hc3 & Hl3).
      + intros sn Hnil. by apply HC2.
      + cbn. rewrite replicate_length. specialize (Hnp n eq_refl). lia.
      + exists st3, (Some h3). split; [exact E3|]. cbn in Hc3, Hl3. rewrite replicate_length in Hl3. by split.
    - exists (rs_src w2), None. done. }
  destruct HN as (st3 & h3 & E3 & Hh3). destruct (history_phase_looped _ _ _ _ _ _ _ _ _ E3) as (saps3 & Hl3 & Est3).
  exists (RunSt (rs_count w2) (rs_time w2) (rs_scr w2) st3 (rs_out w2) (rs_rho w2) (rs_dofs w2) (rs_cells w2) (rs_negE w2) h3).
  split; [unfold initialization; fold w1; rewrite E2; cbv beta iota; rewrite E3; reflexivity|]. split; [|split; [exact Hc2|exact Hh3]].
  pose proof (looped_dom _ _ _ Hl3 HC2) as HC3. split; cbn [rs_src rs_out rs_hist rs_negE].
  - intros sn. rewrite Est3. destruct (HC3 sn) as ((A1 & A2 & _) & _). by split.
  - exact Hline.
  - intros sn Hnil. rewrite Est3. destruct (HC3 sn) as ((_ & _ & A3) & A4). split; [by apply A3|by apply A4].
  - rewrite Est3. exact HT2.
  - destruct Hfile as [[Hn _]|[_ Hf]]; [by left|right; by apply HO2].
  - destruct np, h3; try done. destruct Hh3 as [-> _]. lia.
  - exact HE2.
Qed.

(** The program succeeds if its initial particles are on the line, no charged species dies out on the way or is refused its new
    particles (see [Feedable]), there are never 2^53 particles, and the history has a row for every sample. *)
Lemma dom_completes st32 file ini n np w : DStart np w -> u_out_interval u = None /\ file = false \/ u_out_interval u <> None /\ file = true ->
  (forall e, e ∈ default [] ini -> exists sn ps, e = Listed sn ps /\ sn ∈ u_names u /\ Forall (Placed D At) ps) ->
  (0 < u_hist_skip u)%Z -> (forall m, np = Some m -> (Z.of_nat n / u_hist_skip u < m)%Z) ->
  (forall m w1 w2 pop, (m <= n)%nat -> initialization exact st32 u file ini w = Ok w1 -> time_loop exact st32 u m w1 = Ok w2 -> DFit u (u_L u) D At w2 pop ->
     (Z.of_nat (sum_list_with (fun sn => length (pop sn) + emitted u sn (rs_count w2 + 1))%nat (u_names u)) < 2 ^ 53)%Z /\
     ((m < n)%nat -> forall sn, sn ∈ u_charged u -> DFeedable (u_L u) u D inb w2 pop sn)) ->
  (Z.of_nat (population (u_names u) (initial_of ini)) < 2 ^ 53)%Z ->
  exists w', main_run exact st32 u file ini n w = Ok w'.
Proof using HL HR.
  intros HS Hfile Hini Hsk Hnp Hmeet Hpop.
  destruct (dom_start st32 file ini np w HS Hfile Hini Hpop) as (w1 & E1 & HF1 & Hc1 & Hh1).
  { intros m Hm. specialize (Hnp m Hm). pose proof (Z.div_pos (Z.of_nat n) (u_hist_skip u) ltac:(lia) Hsk). lia. }
  assert (HI : forall k, (k <= n)%nat -> exists w2 pop, time_loop exact st32 u k w1 = Ok w2 /\ DFit u (u_L u) D At w2 pop /\ rs_count w2 = Z.of_nat k /\
    match np, rs_hist w2 with
    | None, None => True
    | Some m, Some h => h_counter h = (1 + Z.of_nat k / u_hist_skip u)%Z /\ length (h_rows h) = Z.to_nat m
    | _, _ => False
    end).
  { induction k as [|k IH]; intros Hk.
    - exists w1, (initial_of ini). split; [reflexivity|]. split; [exact HF1|]. split; [exact Hc1|]. destruct np, (rs_hist w1); try done.
    - destruct (IH ltac:(lia)) as (w2 & pop & E2 & HF2 & Hc2 & Hh2). destruct (Hmeet k w1 w2 pop ltac:(lia) E1 E2 HF2) as [Hp2 Hf2].
      destruct (dom_progress u _ HL _ _ _ _ _ HR st32 w2 pop eq_refl HF2) as (w3 & pop3 & E3 & HF3 & _ & Hh3).
      { split; [by apply Hf2|]. split; [by destruct (u_out_interval u)|]. destruct (rs_hist w2) as [h|]; [|exact I]. destruct np as [m|]; [|done].
        destruct Hh2 as [Hcn ->]. rewrite Hcn, Hc2. intros Hm. specialize (Hnp m eq_refl).
        assert (Hd : (1 + Z.of_nat k / u_hist_skip u <= Z.of_nat n / u_hist_skip u)%Z).
        { transitivity ((Z.of_nat k + 1) / u_hist_skip u)%Z; [|apply Z.div_le_mono; lia]. Z.to_euclidean_division_equations; nia. }
        lia. }
      pose proof (step_parts _ _ _ _ _ E3) as (_ & _ & _ & _ & _ & _ & _ & _ & _ & _ & _ & _ & _ & _ & _ & _ & Hc3 & _).
      assert (Hc3' : rs_count w3 = Z.of_nat (S k)) by lia.
      exists w3, pop3. split; [|split; [exact HF3|split; [exact Hc3'|]]].
      + clear - E2 E3. revert w1 E2. induction k as [|k IH]; intros w1 E2; cbn [time_loop] in *.
        * injection E2 as ->. by rewrite E3.
        * destruct (time_step exact st32 u w1) as [x|]; [|discriminate]. by apply IH.
      + destruct np as [m|], (rs_hist w2) as [h|]; try done; destruct (rs_hist w3) as [h'|]; try done. destruct Hh3 as [-> ->], Hh2 as [-> ->]. split; [|reflexivity].
        rewrite Hc3'. destruct (Z.eqb_spec (Z.of_nat (S k) mod u_hist_skip u) 0); Z.to_euclidean_division_equations; nia. }
  destruct (HI n (le_n n)) as (w2 & pop & E2 & HF2 & Hc2 & _). destruct (Hmeet n w1 w2 pop (le_n n) E1 E2 HF2) as [Hp2 _].
  unfold main_run. rewrite E1. cbv beta iota. rewrite E2. cbv beta iota. unfold finish.
  assert (HW : exists st3 o3, (if file then write_snapshot exact u true (rs_count w2) (rs_time w2) (rs_src w2, rs_out w2) else Ok (rs_src w2, rs_out w2)) = Ok (st3, o3) /\ ss_traj st3 = None).
  { destruct Hfile as [[Hn ->]|[Hn ->]]; [by exists (rs_src w2), (rs_out w2); split; [|apply HF2]|].
    destruct (df_out _ _ _ _ _ _ HF2) as [Hno|[HO Hop]]; [done|]. destruct (u_out_interval u) as [k|] eqn:Ek; [|done].
    destruct (snapshot_dom u _ HL _ _ _ _ _ HR k true (rs_count w2) (rs_time w2) (rs_src w2) (rs_out w2) pop Ek (df_stored _ _ _ _ _ _ HF2) eq_refl) as (st3 & o3 & E3 & _); [|exact HO|exact Hop|].
    { eapply never_population; [|exact Hp2]. intros sn. cbv beta. lia. }
    exists st3, o3. split; [exact E3|]. destruct (write_looped _ _ _ _ _ _ _ _ _ E3) as (saps & _ & ->). apply HF2. }
  destruct HW as (st3 & o3 & -> & HT3). cbv beta iota. unfold record_trajectories. rewrite HT3. by eexists.
Qed.
End Total.
