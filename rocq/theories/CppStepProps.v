(** C63: whole loops with the C++ movers. *)
From stdpp Require Import strings list_numbers.
From Verif Require Import SapModel MoverModel SapProofs MoverProofs SapSpec SapRefine StorageProps SapCpp SapCppProofs Vec VecProofs TrackModel TrajModel TrajProofs TrajProps.
From Verif Require Import CppTrackModel CppTrackProps MeshFieldModel MeshFieldProps DensityModel DensityProps.
From Verif Require Import BatchProofs BatchProps CppPassProps CppFieldModel CppFieldProps OldMoverModel.
From Verif Require Import AccelProps Conforming.
From Verif Require Import CppStepModel.
From Verif Require Import SumProps InsideModel InsideProps FieldProps.
From Coq Require Import ZifyBool ZifyNat Lra.
Ltac Zify.zify_post_hook ::= Z.div_mod_to_equations.
Local Open Scope R_scope.

(** ** What is meant *)

(** The boundary functions keep the number of coordinates and velocities of a record. *)
Definition keeps_shape {K} (cbcs : Z -> option (cbcfun (K:=K))) : Prop := forall v b k p mf dx f n q k',
  cbcs v = Some b -> b k p mf dx f n = Ok (q, k') ->
  length (px q) = length (px p) /\ length (px0 q) = length (px0 p) /\ length (pu q) = length (pu p).
Lemma keeps_shape_KeepsShape {K} (cbcs : Z -> option (cbcfun (K:=K))) : keeps_shape cbcs -> KeepsShape cbcs.
Proof. intros H v b k p mf dx f n q k' H1 H2. destruct (H v b k p mf dx f n q k' H1 H2) as (A & B & _). by split. Qed.

(** The records of the crossings are the same with both movers: there is one component, or there are no trajectories. *)
Definition records_alike (mv : cmover) (cbcs : string -> Z -> option (cbcfun (K:=option traj))) (sns : list string) (E1 Eext1 : vec)
    (between : Z -> R -> option (vspace * list R) -> list (list (res (option particle))) -> option traj -> res (option traj * option (vspace * list R)))
    (T : option traj) : Prop :=
  (m_dim mv = 1%nat /\ length E1 = 1%nat /\ length Eext1 = 1%nat) \/
  (T = None /\ (forall sn v b p mf dx f nn q k', sn ∈ sns -> cbcs sn v = Some b -> b None p mf dx f nn = Ok (q, k') -> k' = None) /\
   forall step time negE cs T2 negE2, between step time negE cs None = Ok (T2, negE2) -> T2 = None).

(** The field is constant on each cell, and every particle of the species is where DOLFIN finds it in the cell that its record names. *)
Definition located (mv : cmover) (ncells : Z) (gd : nat) (sns : list string) (saps : string -> sap particle) (negE : option (vspace * list R)) : Prop :=
  exists V a, negE = Some (V, a) /\ per_cell V (m_dim mv) (length a) /\
    forall sn xs p, sn ∈ sns -> Stores (saps sn) xs -> p ∈ xs -> in_own_cell V gd p /\ (0 <= pcell p < ncells)%Z.

(** ** The shape of the particles is kept *)

Lemma vadd_length fl a b : length (vadd fl a b) = Nat.min (length a) (length b).
Proof. unfold vadd. apply zip_with_length. Qed.

Section Shape.
Context (fl : R -> R) (n : nat) (bcs : Z -> option (bcfun (K:=option traj))) (r : tctx (K:=option traj) -> Z -> particle -> R -> res (tctx (K:=option traj))).
Context (Hb : forall v b c p mf f nn q c', bcs v = Some b -> b c p mf f nn = Ok (q, c') ->
  length (px q) = length (px p) /\ length (pu q) = length (pu p)).
Lemma marker_shape m fi mf f nn t p c q c' : on_marker bcs r m fi mf f nn t p c = Ok (q, c') -> length (px q) = length (px p) /\ length (pu q) = length (pu p).
Proof using Hb.
  unfold on_marker. destruct (marker m mf =? 0)%Z; [by intros [= <- _]|].
  destruct (if is_traj p then r c fi p t else Ok c) as [c1|]; [|discriminate].
  destruct (bcs (marker m mf)) as [b|] eqn:Eb; [|discriminate]. intros E. exact (Hb _ _ _ _ _ _ _ _ _ Eb E).
Qed.
Lemma loop_shape fuel : forall k m maxc fi ci ml cnt tS dtR p c q cn c', track_loop fl bcs r fuel k m maxc fi ci ml cnt tS dtR p c = Ok (q, cn, c') ->
  length (px q) = length (px p) /\ length (pu q) = length (pu p).
Proof using Hb.
  induction fuel as [|fuel IH]; intros k m maxc fi ci ml cnt tS dtR p c q cn c' E; cbn [track_loop] in E; [discriminate|].
  destruct (cells m ci) as [cr|]; [|discriminate]. destruct (inside m ci _); [by injection E as <- _ _|]. cbv zeta in E.
  destruct (maxc <? cnt + 1)%Z; [discriminate|]. destruct (find_facet _ _ _ _ _) as [[[cf f] nn]|]; [|discriminate].
  destruct (cf =? NO_FACET)%Z; [discriminate|]. destruct (py_get (fids cr) cf) as [mf|]; [|discriminate].
  destruct (mf =? ml)%Z; [discriminate|]. destruct (on_marker _ _ _ _ _ _ _ _ _ _) as [[p2 c2]|] eqn:Em; [|discriminate].
  apply marker_shape in Em as [H1 H2]. cbn in H1, H2. destruct (py_get (nbrs cr) cf) as [cn'|]; [|discriminate].
  destruct (cn' =? NO_CELL)%Z.
  - destruct (is_deleted p2); [injection E as <- _ _; cbn; by split|]. apply IH in E as [-> ->]. by split.
  - apply IH in E as [-> ->]. cbn. by split.
Qed.
Lemma advance_shape m maxc fi time dt qmdt E p c q c' : length (px p) = n -> length (pu p) = n -> (forall e, E = Some e -> length e = n) ->
  advance_charged fl bcs r false m maxc fi time dt qmdt E p c = Ok (q, c') -> length (px q) = n /\ length (pu q) = n.
Proof using Hb.
  intros Hx Hu HE. unfold advance_charged. cbv zeta. unfold track.
  destruct (track_loop _ _ _ _ _ _ _ _ _ _ _ _ _ _ _) as [[[q1 cn] c1]|] eqn:El; [|discriminate]. intros [= <- _].
  apply loop_shape in El as [H1 H2]. cbn. rewrite H1, H2.
  assert (Ha : length (pu (accelerate fl qmdt E p)) = n).
  { destruct E as [e|]; [|exact Hu]. cbn. rewrite vadd_length. unfold vscale. rewrite map_length, (HE e eq_refl), Hu. lia. }
  unfold free_move. cbn [pu px set_px set_px0]. rewrite vadd_length, map_length, Ha.
  split; [|reflexivity]. destruct E; cbn; rewrite Hx; lia.
Qed.
End Shape.

Lemma py_shape (cbcs : Z -> option (cbcfun (K:=option traj))) : keeps_shape cbcs -> forall v b c p mf f nn q c', py_bcs cbcs v = Some b -> b c p mf f nn = Ok (q, c') ->
  length (px q) = length (px p) /\ length (pu q) = length (pu p).
Proof.
  intros H v b c p mf f nn q c' Hb. unfold py_bcs in Hb. destruct (cbcs v) as [b'|] eqn:E; [|discriminate Hb]. injection Hb as <-.
  unfold py_bc. destruct (b' _ _ _ _ _ _) as [[q1 k1]|] eqn:E1; [|discriminate]. intros [= <- _].
  destruct (H _ _ _ _ _ _ _ _ _ _ E E1) as (H1 & _ & H3). by split.
Qed.

(** ** One pass *)

Lemma same_pass mv ncells gd negE Eext solved ext pext z sn step time dt qom maxc m cm cbcs E1 Eext1 L k s1 s2 xs c1 sc f1 f2 :
  (2 <= L < 4294967296)%Z -> Reachable L s1 -> Stores s1 xs -> CReach L k s2 -> (Z.of_nat k + 2 < 4294967296)%Z -> CStores s2 xs ->
  SameMesh m cm -> mv ∈ [ChargedX; ChargedXY; ChargedR] -> (gdim m <= m_dim mv)%nat -> keeps_shape cbcs -> Sized sc ->
  same_records mv cbcs E1 Eext1 (usr c1) -> (forall p, p ∈ xs -> shaped mv p) ->
  (forall V a, negE = Some (V, a) -> per_cell V (m_dim mv) (length a) /\ forall p, p ∈ xs -> in_own_cell V gd p /\ (0 <= pcell p < ncells)%Z) ->
  arrays_of L f1 -> carrays_of mv L f2 -> ~ reads_null negE Eext solved ext ->
  match cpp_charged_bmover exact mv ncells negE Eext solved ext sn step time dt qom maxc cm cbcs E1 Eext1 s2 (sc, usr c1) f2 with
  | Ok (s2', (sc', T'), f2') => exists s1' c1' f1' ys,
      charged_guarded_bmover exact z (m_dim mv) gd negE None solved pext sn step time dt qom maxc m (py_bcs cbcs) false s1 c1 f1 = Ok (s1', c1', f1') /\
      Stores s1' ys /\ CStores s2' ys /\ usr c1' = T' /\ Sized sc' /\ carrays_of mv L f2' /\
      Reachable L s1' /\ CReach L (S k) s2' /\ same_records mv cbcs E1 Eext1 T' /\ (forall p, p ∈ ys -> shaped mv p) /\ arrays_of L f1'
  | Raise _ => exists e, charged_guarded_bmover exact z (m_dim mv) gd negE None solved pext sn step time dt qom maxc m (py_bcs cbcs) false s1 c1 f1 = Raise e
  end.
Proof.
  intros HL HR1 Hs1 HR2 Hk2 Hs2 Hm Hmv Hg Hkk Hsc Hrec Hsh Hf Hf1 Hf2 Hnull.
  pose proof (keeps_shape_KeepsShape _ Hkk) as Hk.
  assert (Hin : forall p, p ∈ xs -> has_cells mv ncells negE solved p).
  { intros p Hp _ V a En. destruct (Hf V a En) as [HP Hin]. destruct (Hin p Hp) as [H1 H2]. destruct (HP _ _ H1) as (K1 & K2 & _). by split. }
  destruct (C60_fields mv ncells negE Eext solved ext sn step time dt qom maxc cm cbcs E1 Eext1 L k s2 xs (sc, usr c1) f2 HL HR2 Hk2 Hs2 Hf2 Hin Hnull) as (f2' & Hf2' & ->).
  set (g := value exact (m_dim mv) gd negE). set (h := fun (i : Z) (_ : particle) => random_value exact z (m_dim mv) gd None (sf_rng f1) xs (Z.to_nat i)).
  assert (Hval : forall p V a, p ∈ xs -> negE = Some (V, a) -> fe_eval exact V (m_dim mv) a (take gd (px p)) = Ok (cell_vals V a p)).
  { intros p V a Hp En. destruct (Hf V a En) as [HP Hi]. destruct (Hi p Hp) as [H1 _]. exact (eval_cell _ _ _ _ _ HP H1). }
  assert (Hgp : forall p V a, p ∈ xs -> negE = Some (V, a) -> g p = cell_vals V a p).
  { intros p V a Hp En. symmetry. apply value_unique. exists V, a. split; [exact En|]. by apply Hval. }
  assert (Hsel : forall p, p ∈ xs -> select_E exact (m_dim mv) (option_map (fun _ => g) negE) None solved pext p = Ok (cpp_field mv negE solved p)).
  { intros p Hp. unfold select_E, cpp_field. destruct negE as [[V a]|] eqn:En; [|done]. cbn [option_map]. rewrite (Hgp p V a Hp eq_refl).
    assert (Hopp : map (fun x => exact (x * -1)) (cell_vals V a p) = map Ropp (cell_vals V a p)) by (apply map_ext; intros x; unfold exact; lra).
    rewrite Hopp. by destruct solved as [[]|]. }
  assert (HEl : forall p e, p ∈ xs -> cpp_field mv negE solved p = Some e -> length e = m_dim mv).
  { intros p e Hp. unfold cpp_field. destruct negE as [[V a]|] eqn:En; [|intros [= <-]; apply replicate_length].
    destruct (Hf V a eq_refl) as [HP Hi]. destruct (Hi p Hp) as [H1 _]. destruct (HP _ _ H1) as (K1 & _).
    destruct solved as [[]|]; [|discriminate|]; intros [= <-]; rewrite map_length; unfold cell_vals; by rewrite map_length. }
  pose proof (seq_sim mv ncells negE solved pext sn step time dt qom maxc m cm cbcs E1 Eext1 Hm Hmv Hg Hk g (cpp_field mv negE solved) h xs Hsh Hsel HEl 0 [] false c1 sc (usr c1)
    eq_refl Hsc Hrec) as Hsim.
  pose proof (C04_cpp_pass_is_sequential L k s2 xs (cpp_hooks exact mv sn step time dt qom maxc cm cbcs E1 Eext1 (fun p => Ok (cpp_field mv negE solved p, replicate (m_dim mv) 0)))
    (sc, usr c1) HL HR2 Hk2 Hs2) as HC.
  pose proof (C04_pass_is_sequential L s1 xs (each_hooks exact (m_dim mv) negE None solved pext sn step time dt qom maxc m (py_bcs cbcs) false g h) c1 ltac:(lia) HR1 Hs1) as HP.
  pose proof (C59_fields exact z (m_dim mv) gd negE None solved pext sn step time dt qom maxc m (py_bcs cbcs) false L s1 xs c1 f1 ltac:(lia) HR1 Hs1 Hf1 ltac:(discriminate)) as H59.
  fold g in H59. fold h in H59.
  destruct (seq_pass (cpp_hooks _ _ _ _ _ _ _ _ _ _ _ _ _) 0 [] false (sc, usr c1) xs) as [[ys [sc' T']]|e].
  - destruct HC as (s2' & -> & Hst2 & HCR). destruct (seq_pass _ 0 [] false c1 xs) as [[ys1 c1']|] eqn:Esq; [|exfalso; exact Hsim].
    destruct Hsim as (-> & <- & Hsc' & Hrec'). destruct HP as (s1' & EP & Hst1 & HPR).
    destruct (proj2 (H59 s1' c1')) as (f1' & Ef1).
    { split; [|exact EP]. intros p Hp. split; [|intros [H _]; by exfalso; apply H]. intros [Hn _]. destruct negE as [[V a]|] eqn:En; [|by exfalso; apply Hn].
      exists (cell_vals V a p), V, a. split; [reflexivity|]. by apply Hval. }
    exists s1', c1', f1', ys. split; [exact Ef1|]. split; [exact Hst1|]. split; [exact Hst2|]. split; [reflexivity|]. split; [exact Hsc'|]. split; [exact Hf2'|].
    split; [exact HPR|]. split; [exact HCR|]. split; [exact Hrec'|]. split.
    + destruct (seq_pass_fate _ _ _ _ _ _ _ _ Esq) as (fate & -> & HF). cbn [app]. intros q Hq.
      unfold survivors in Hq. apply elem_of_list_omap in Hq as ([q'|] & Hq & Eq); [|discriminate Eq]. injection Eq as ->.
      apply elem_of_list_lookup in Hq as [i Hi]. destruct (Forall2_lookup_r _ _ _ _ _ HF Hi) as (p & Hp & c & i' & q1 & c2 & Ea & Er).
      assert (Hpx : p ∈ xs) by (by eapply elem_of_list_lookup_2). change (Some q = if is_deleted q1 then None else Some q1) in Er. destruct (is_deleted q1) eqn:Ed; [discriminate Er|]. injection Er as ->.
      unfold each_hooks, charged_hooks in Ea. cbn [adv option_map] in Ea. rewrite (Hsel p Hpx) in Ea. cbv beta iota in Ea.
      destruct (Hsh p Hpx) as [Hx Hu].
      exact (advance_shape _ _ _ _ (py_shape cbcs Hkk) _ _ _ _ _ _ _ _ _ _ _ Hx Hu (fun e => HEl p e Hpx) Ea).
    + exact (proj1 (C59_draws exact z (m_dim mv) gd negE None solved pext sn step time dt qom maxc m (py_bcs cbcs) false L s1 xs c1 f1 s1' c1' f1' ltac:(lia) HR1 Hs1 Hf1 ltac:(discriminate) Ef1)).
  - rewrite HC. destruct (seq_pass _ 0 [] false c1 xs) as [[ys1 c1']|e1]; [exfalso; exact Hsim|].
    destruct (charged_guarded_bmover _ _ _ _ _ _ _ _ _ _ _ _ _ _ _ _ _ s1 c1 f1) as [[[s1' c1'] f1']|e2]; [|by exists e2].
    exfalso. destruct (proj1 (H59 s1' c1') ltac:(by exists f1')) as [_ EP]. rewrite HP in EP. discriminate.
Qed.

(** ** All species *)

Lemma contents_py L s xs : Reachable L s -> Stores s xs -> contents get_number_of_items get_item s = map (fun x => Ok (Some x)) xs.
Proof.
  intros HR [H1 H2]. unfold contents. rewrite H1. apply list_eq. intros i. rewrite !list_lookup_fmap.
  destruct (xs !! i) as [x|] eqn:Ei.
  - rewrite lookup_seqZ_lt by (apply lookup_lt_Some in Ei; lia). cbn. by rewrite Z.add_0_l, (H2 _ _ Ei).
  - rewrite lookup_seqZ_ge by (apply lookup_ge_None in Ei; lia). done.
Qed.
Lemma contents_cpp s xs : CStores s xs -> contents c_get_number_of_items c_get_item s = map (fun x => Ok (Some x)) xs.
Proof.
  intros [H1 H2]. unfold contents. rewrite H1. apply list_eq. intros i. rewrite !list_lookup_fmap.
  destruct (xs !! i) as [x|] eqn:Ei.
  - rewrite lookup_seqZ_lt by (apply lookup_lt_Some in Ei; lia). cbn. by rewrite Z.add_0_l, (H2 _ _ Ei).
  - rewrite lookup_seqZ_ge by (apply lookup_ge_None in Ei; lia). done.
Qed.

Section All.
Context (mv : cmover) (ncells : Z) (gd : nat) (z : nat -> R) (maxc : Z) (dt : R) (solved ext : string -> option bool) (qom : string -> R).
Context (m : mesh) (cm : cmesh) (cbcs : string -> Z -> option (cbcfun (K:=option traj))) (E1 Eext1 : vec) (L : Z) (sns : list string).
Context (HL : (2 <= L < 4294967296)%Z) (Hm : SameMesh m cm) (Hmv : mv ∈ [ChargedX; ChargedXY; ChargedR]) (Hg : (gdim m <= m_dim mv)%nat).
Context (Hbc : forall sn, sn ∈ sns -> keeps_shape (cbcs sn)).

(** The two containers of a species hold the same particles. *)
Definition alike (k : nat) (s1 s2 : sap particle) (xs : list particle) : Prop :=
  Reachable L s1 /\ Stores s1 xs /\ (exists j, (j <= k)%nat /\ CReach L j s2) /\ CStores s2 xs /\ forall p, p ∈ xs -> shaped mv p.
Lemma alike_S k s1 s2 xs : alike k s1 s2 xs -> alike (S k) s1 s2 xs.
Proof using. intros (H1 & H2 & (j & Hj & H3) & H4 & H5). split; [exact H1|]. split; [exact H2|]. split; [exists j; split; [apply le_S, Hj|exact H3]|]. by split. Qed.
Definition recs (T : option traj) : Prop := forall sn, sn ∈ sns -> same_records mv (cbcs sn) E1 Eext1 T.
Lemma recs_next sn T T' : sn ∈ sns -> recs T -> same_records mv (cbcs sn) E1 Eext1 T' -> recs T'.
Proof using.
  intros Hsn HT HT' sn' Hsn'. destruct (HT sn' Hsn') as [H|[H1 H2]]; [by left|]. destruct HT' as [H|[H3 _]]; [by left|]. right. by split.
Qed.

Lemma all_species V a step time k : per_cell V (m_dim mv) (length a) -> (Z.of_nat k + 2 < 4294967296)%Z ->
  forall ns sP sC xs v T sc fP fC, NoDup ns -> (forall sn, sn ∈ ns -> sn ∈ sns) ->
  (forall sn, sn ∈ sns -> alike (S k) (sP sn) (sC sn) (xs sn)) -> (forall sn, sn ∈ ns -> alike k (sP sn) (sC sn) (xs sn)) ->
  (forall sn p, sn ∈ ns -> p ∈ xs sn -> in_own_cell V gd p /\ (0 <= pcell p < ncells)%Z) ->
  recs T -> Sized sc -> arrays_of L fP -> carrays_of mv L fC ->
  match cpp_advance_charged_particles exact maxc dt solved ext qom mv ncells cm cbcs E1 Eext1 (Some (V, a)) None step time ns sC (sc, T) fC with
  | Ok (sC', (sc', T'), fC') => exists sP' c' fP' ys,
      advance_charged_particles_in_E_field exact z (m_dim mv) gd (Some (V, a)) None step time dt maxc m false solved ext qom (fun sn => py_bcs (cbcs sn)) ns sP (TCtx v T) fP
        = Ok (sP', c', fP') /\ usr c' = T' /\ recs T' /\ Sized sc' /\ arrays_of L fP' /\ carrays_of mv L fC' /\
      forall sn, sn ∈ sns -> alike (S k) (sP' sn) (sC' sn) (ys sn)
  | Raise _ => exists e,
      advance_charged_particles_in_E_field exact z (m_dim mv) gd (Some (V, a)) None step time dt maxc m false solved ext qom (fun sn => py_bcs (cbcs sn)) ns sP (TCtx v T) fP
        = Raise e
  end.
Proof using HL Hm Hmv Hg Hbc.
  intros HP Hk. induction ns as [|sn ns IH]; intros sP sC xs v T sc fP fC Hnd Hsub Hall Hns Hin Hrec Hsc HfP HfC.
  - cbn. exists sP, (TCtx v T), fP, xs. split; [reflexivity|]. split; [reflexivity|]. split; [exact Hrec|]. split; [exact Hsc|]. split; [exact HfP|]. split; [exact HfC|exact Hall].
  - apply list.NoDup_cons in Hnd as [Hnot Hnd]. assert (Hsn : sn ∈ sns) by (apply Hsub; left).
    destruct (Hns sn ltac:(left)) as (A1 & A2 & (j & Hj & A3) & A4 & A5).
    unfold advance_charged_particles_in_E_field. cbn [cpp_advance_charged_particles over_species]. fold (advance_charged_particles_in_E_field exact z (m_dim mv) gd (Some (V, a)) None step time dt maxc m false solved ext qom (fun sn => py_bcs (cbcs sn))).
    destruct (c_get_number_of_items (sC sn) =? 0)%Z eqn:E0.
    + assert (Ex : xs sn = []) by (destruct A4 as [Hn _]; destruct (xs sn); [reflexivity|cbn in Hn; lia]).
      assert (Ep : charged_guarded_bmover exact z (m_dim mv) gd (Some (V, a)) None (solved sn) (ext sn) sn step time dt (qom sn) maxc m (py_bcs (cbcs sn)) false (sP sn) (TCtx v T) (fields_at_start fP)
        = Ok (sP sn, TCtx v T, fields_at_start fP)).
      { unfold charged_guarded_bmover. destruct A2 as [Hn _]. rewrite Hn, Ex. reflexivity. }
      rewrite Ep. apply (IH _ _ xs); try done.
      * intros s Hs. apply Hsub. by right.
      * intros s Hs. destruct (String.eqb s sn) eqn:Es; [|by apply Hall]. apply String.eqb_eq in Es as ->. by apply Hall.
      * intros s Hs. destruct (String.eqb s sn) eqn:Es; [apply String.eqb_eq in Es as ->; done|]. apply Hns. by right.
      * intros s p Hs Hp. apply (Hin s p); [by right|exact Hp].
    + pose proof (same_pass mv ncells gd (Some (V, a)) None (solved sn) (ext sn) (ext sn) z sn step time dt (qom sn) maxc m cm (cbcs sn) E1 Eext1 L j (sP sn) (sC sn) (xs sn)
        (TCtx v T) sc (fields_at_start fP) fC HL A1 A2 A3 ltac:(lia) A4 Hm Hmv Hg (Hbc sn Hsn) Hsc (Hrec sn Hsn) A5) as HS. cbn [usr] in HS.
      assert (H1 : forall V0 a0, Some (V, a) = Some (V0, a0) -> per_cell V0 (m_dim mv) (length a0) /\ forall p, p ∈ xs sn -> in_own_cell V0 gd p /\ (0 <= pcell p < ncells)%Z).
      { intros V0 a0 [= <- <-]. split; [exact HP|]. intros p Hp. apply (Hin sn); [left|exact Hp]. }
      specialize (HS H1 HfP HfC ltac:(intros (_ & _ & H & _); by apply H)).
      destruct (cpp_charged_bmover _ _ _ _ _ _ _ _ _ _ _ _ _ _ _ _ _ (sC sn) (sc, T) fC) as [[[s2 [sc2 T2]] f2]|e2].
      * destruct HS as (s1 & [v1 T1] & f1 & ys & EP & B1 & B2 & B3 & B4 & B5 & B6 & B7 & B8 & B9 & B10). cbn [usr] in B3. subst T1. rewrite EP.
        assert (Hnew : alike (S k) s1 s2 ys).
        { split; [exact B6|]. split; [exact B1|]. split; [exists (S j); split; [lia|exact B7]|]. by split. }
        specialize (IH (fun s => if String.eqb s sn then s1 else sP s) (fun s => if String.eqb s sn then s2 else sC s) (fun s => if String.eqb s sn then ys else xs s) v1 T2 sc2 f1 f2).
        apply IH; try done.
        -- intros s Hs. apply Hsub. by right.
        -- intros s Hs. destruct (String.eqb s sn); [exact Hnew|by apply Hall].
        -- intros s Hs. destruct (String.eqb s sn) eqn:Es; [apply String.eqb_eq in Es as ->; done|]. apply Hns. by right.
        -- intros s p Hs. destruct (String.eqb s sn) eqn:Es; [apply String.eqb_eq in Es as ->; done|]. apply Hin. by right.
        -- by apply (recs_next sn T).
      * destruct HS as (e & EP). rewrite EP. by exists e.
Qed.
End All.

(** C63: [n] steps with the C++ movers and with the Python movers, from containers with the same particles, with everything else that is
    done in a step given by [between].  If at the start of every step of the Python run the particles are in their cells, both runs
    succeed with the same particles in the same order, the same trajectories and the same field, or both fail. *)
Theorem C63_loop mv ncells gd z maxc dt solved ext qom m cm cbcs E1 Eext1 L sns between :
  (2 <= L < 4294967296)%Z -> SameMesh m cm -> mv ∈ [ChargedX; ChargedXY; ChargedR] -> (gdim m <= m_dim mv)%nat -> NoDup sns ->
  (forall sn, sn ∈ sns -> keeps_shape (cbcs sn)) ->
  forall n k step time sP sC xs v T sc fP fC negE, (Z.of_nat (k + n) + 1 < 4294967296)%Z ->
  (forall sn, sn ∈ sns -> Reachable L (sP sn) /\ Stores (sP sn) (xs sn) /\ (exists j, (j <= k)%nat /\ CReach L j (sC sn)) /\ CStores (sC sn) (xs sn) /\
     forall p, p ∈ xs sn -> shaped mv p) ->
  records_alike mv cbcs sns E1 Eext1 between T -> Sized sc -> arrays_of L fP -> carrays_of mv L fC ->
  (forall j sP' v' T' f' negE', (j < n)%nat ->
     py_time_loop exact maxc dt sns solved ext qom between z (m_dim mv) gd m (fun sn => py_bcs (cbcs sn)) j step time sP v T fP negE = Ok (sP', v', T', f', negE') ->
     located mv ncells gd sns sP' negE') ->
  match cpp_time_loop exact maxc dt sns solved ext qom between mv ncells cm cbcs E1 Eext1 n step time sC sc T fC negE with
  | Ok (sC', sc', T', fC', negE') => exists sP' v' fP' ys,
      py_time_loop exact maxc dt sns solved ext qom between z (m_dim mv) gd m (fun sn => py_bcs (cbcs sn)) n step time sP v T fP negE = Ok (sP', v', T', fP', negE') /\
      forall sn, sn ∈ sns -> Stores (sP' sn) (ys sn) /\ CStores (sC' sn) (ys sn)
  | Raise _ => exists e,
      py_time_loop exact maxc dt sns solved ext qom between z (m_dim mv) gd m (fun sn => py_bcs (cbcs sn)) n step time sP v T fP negE = Raise e
  end.
Proof.
  intros HL Hm Hmv Hg Hnd Hbc. induction n as [|n IH]; intros k step time sP sC xs v T sc fP fC negE Hk Hal Hrec Hsc HfP HfC Hloc.
  - cbn. exists sP, v, fP, xs. split; [reflexivity|]. intros sn Hsn. destruct (Hal sn Hsn) as (_ & H1 & _ & H2 & _). by split.
  - destruct (Hloc 0%nat sP v T fP negE ltac:(lia) eq_refl) as (V & a & -> & HP & Hin).
    assert (HR : recs mv cbcs E1 Eext1 sns T).
    { intros sn Hsn. destruct Hrec as [H|(H1 & H2 & _)]; [by left|]. right. split; [exact H1|]. intros vv b p mf dx f nn q k' Hb. by apply (H2 sn vv). }
    pose proof (all_species mv ncells gd z maxc dt solved ext qom m cm cbcs E1 Eext1 L sns HL Hm Hmv Hg Hbc V a (step + 1)%Z (exact (time + dt)) k HP ltac:(lia)
      sns sP sC xs v T sc fP fC Hnd ltac:(done) ltac:(intros sn Hsn; apply alike_S; by apply Hal) Hal) as HS.
    specialize (HS ltac:(intros sn p Hsn Hp; destruct (Hal sn Hsn) as (_ & H1 & _); exact (Hin sn (xs sn) p Hsn H1 Hp)) HR Hsc HfP HfC).
    cbn [cpp_time_loop]. destruct (cpp_advance_charged_particles _ _ _ _ _ _ _ _ _ _ _ _ _ _ _ _ sns sC (sc, T) fC) as [[[sC1 [sc1 T1]] fC1]|e1].
    + destruct HS as (sP1 & [v1 T1'] & fP1 & ys & EP & HT & HR1 & Hsc1 & HfP1 & HfC1 & Hal1). cbn [usr] in HT. subst T1'.
      cbn [py_time_loop]. rewrite EP. cbn [snd fst scr usr].
      assert (Hc : map (fun sn => contents get_number_of_items get_item (sP1 sn)) sns = map (fun sn => contents c_get_number_of_items c_get_item (sC1 sn)) sns).
      { apply map_ext_in. intros sn Hsn. apply elem_of_list_In in Hsn. destruct (Hal1 sn Hsn) as (H1 & H2 & _ & H3 & _).
        by rewrite (contents_py L _ _ H1 H2), (contents_cpp _ _ H3). }
      rewrite Hc. destruct (between _ _ _ _ T1) as [[T2 negE2]|eb] eqn:Eb; [|by exists eb].
      apply (IH (S k) (step + 1)%Z (exact (time + dt)) sP1 sC1 ys v1 T2 sc1 fP1 fC1 negE2); try done.
      * lia.
      * destruct Hrec as [H|(H1 & H2 & H3)]; [by left|]. destruct (decide (m_dim mv = 1%nat /\ length E1 = 1%nat /\ length Eext1 = 1%nat)) as [H|H]; [by left|].
        destruct sns as [|sn0 sns0] eqn:Es.
        { cbn in EP. injection EP as _ _ <- _. right. split; [rewrite H1 in Eb; exact (H3 _ _ _ _ _ _ Eb)|]. by split. }
        destruct (HR1 sn0 ltac:(left)) as [H'|[H4 _]]; [by left|]. subst T1. right. split; [by eapply H3|]. by split.
      * intros j sP' v' T' f' negE' Hj Ej. apply (Hloc (S j) sP' v' T' f' negE' ltac:(lia)). cbn [py_time_loop]. rewrite EP. cbn [snd fst scr usr]. rewrite Hc, Eb. exact Ej.
    + destruct HS as (e & EP). cbn [py_time_loop]. rewrite EP. by exists e.
Qed.

(** C63: called with the C++ movers, [advance_charged_particles_in_E_field] raises AttributeError without a solved field and TypeError
    with an external one, as soon as a species has particles. *)
Theorem C63_arguments fl mv ncells maxc dt solved ext qom cm cbcs E1 Eext1 negE Eext step time sns saps c f :
  (exists sn xs, sn ∈ sns /\ CStores (saps sn) xs /\ xs <> []) -> negE = None \/ Eext <> None ->
  cpp_advance_charged_particles fl maxc dt solved ext qom mv ncells cm cbcs E1 Eext1 negE Eext step time sns saps c f =
    Raise (match negE with None => AttributeError | Some _ => TypeError end).
Proof.
  intros (sn & xs & Hsn & Hs & Hx) Hf. induction Hsn as [sn sns|sn sn' sns _ IH].
  - cbn [cpp_advance_charged_particles]. destruct Hs as [Hn _]. destruct (c_get_number_of_items (saps sn) =? 0)%Z eqn:E; [destruct xs; [done|cbn in Hn; lia]|].
    destruct negE; [|reflexivity]. destruct Eext; [reflexivity|]. by destruct Hf.
  - cbn [cpp_advance_charged_particles]. destruct (c_get_number_of_items (saps sn') =? 0)%Z; [by apply IH|].
    destruct negE; [|reflexivity]. destruct Eext; [reflexivity|]. by destruct Hf.
Qed.

(** C63: at a point that belongs to two cells the two movers can take different fields.  Whichever of the cells DOLFIN finds for the
    point, particles that moved there from the other cell stay recorded in that other cell, and get one field from the Python
    function and another one from the C++ function. *)
Theorem C63_facet_refuted V a gd n ncells m x c0 c1 : per_cell V n (length a) -> c0 <> c1 ->
  (forall c, c = c0 \/ c = c1 -> (0 <= c < ncells)%Z /\ (exists cr, cells m c = Some cr) /\ inside m c x = true /\
     length (vs_dofs V c) = n /\ forall i, i ∈ vs_dofs V c -> (i < length a)%nat) ->
  map (at_ a) (vs_dofs V c0) <> map (at_ a) (vs_dofs V c1) -> vs_locate V x = Some c0 \/ vs_locate V x = Some c1 ->
  exists c, (c = c0 \/ c = c1) /\ forall p fl (bcs : Z -> option (bcfun (K:=option traj))) r k maxc fi time dt ctx o, gd = gdim m -> take gd (px p) = x -> pcell p = c -> length o = n ->
    track fl bcs r k m maxc fi time dt p ctx = Ok (set_pcross p 0, ctx) /\
    exists v w, interpolate exact V n gd a [p] [o] = Ok [v] /\ cpp_interpolate V ncells n a [p] o = Ok w /\ length v = length w /\ v <> w.
Proof.
  intros HP Hne Hc Hv Hl.
  assert (H : forall c c', (c = c0 /\ c' = c1) \/ (c = c1 /\ c' = c0) -> vs_locate V x = Some c' ->
    forall p fl (bcs : Z -> option (bcfun (K:=option traj))) r k maxc fi time dt ctx o, gd = gdim m -> take gd (px p) = x -> pcell p = c -> length o = n ->
    track fl bcs r k m maxc fi time dt p ctx = Ok (set_pcross p 0, ctx) /\
    exists v w, interpolate exact V n gd a [p] [o] = Ok [v] /\ cpp_interpolate V ncells n a [p] o = Ok w /\ length v = length w /\ v <> w).
  { intros c c' Hcc Hloc p fl bcs r k maxc fi time dt ctx o Eg Hx Hp Ho.
    assert (Hc' : c = c0 \/ c = c1) by (destruct Hcc as [[-> _]|[-> _]]; auto).
    destruct (Hc c Hc') as (H1 & H2 & H3 & H4 & H5). split.
    - apply track_settled. split; rewrite Hp; [exact H2|]. rewrite <- Eg, Hx. exact H3.
    - exists (map (at_ a) (vs_dofs V c')), (map (at_ a) (vs_dofs V c)). split; [|split; [|split]].
      + unfold interpolate. cbn. rewrite Hx, (eval_cell _ _ _ _ _ HP Hloc). reflexivity.
      + unfold cpp_interpolate. cbn [cpp_interpolate_from]. rewrite Hp. destruct ((c <? 0)%Z || (ncells <=? c)%Z) eqn:E; [lia|].
        rewrite (gather_at _ _ H5). cbn. unfold CppTrackModel.store. rewrite map_length, H4, Ho. destruct (n <? 0 + n)%nat eqn:E'; [lia|].
        cbn [take]. rewrite drop_ge by lia. by rewrite app_nil_r.
      + rewrite !map_length, H4. destruct (HP x c' Hloc) as (K & _). exact K.
      + destruct Hcc as [[-> ->]|[-> ->]]; [|exact Hv]. intros E. by apply Hv. }
  destruct Hl as [Hl|Hl].
  - exists c1. split; [by right|]. apply (H c1 c0); [by right|exact Hl].
  - exists c0. split; [by left|]. apply (H c0 c1); [by left|exact Hl].
Qed.

(** *** A concrete case *)

(** The triangle with a field that is constant on it; three particles in segments of two.  After each step the field is set from the
    number of particles. *)
Definition mk (q : vec * R * R * Z) : particle := let '(o, y, w, id) := q in Particle [1; y] o [0; w] 1 0 0 id 0.
Definition later (e : R) (q : vec * R * R * Z) : vec * R * R * Z := let '(o, y, w, id) := q in ([1; y], y + (w - e), w - e, id).
Definition stays (e : R) (q : vec * R * R * Z) : Prop := let '(o, y, w, id) := q in 0 <= y + (w - e) <= 1.
Definition by_number : Z -> R -> option (vspace * list R) -> list (list (res (option particle))) -> option traj -> res (option traj * option (vspace * list R)) :=
  fun _ _ _ cs T => Ok (T, Some (const2, [0; - (INR (length (concat cs)) / 3)])).
Definition three : list (vec * R * R * Z) := [([0; 0], 1, 0, 1%Z); ([0; 0], 1/2, 1/4, 2%Z); ([0; 0], 1, -1/4, 3%Z)].

Lemma tri_step s ps e v f step time : Reachable 2 s -> Stores s (map mk ps) -> (forall q, q ∈ ps -> stays e q) -> arrays_of 2 f ->
  exists s' f', charged_guarded_bmover exact INR 2 2 (Some (const2, [0; e])) None None None "e" step time 1 1 10 tri_mesh (py_bcs no_bcs) false s (TCtx v None) f
    = Ok (s', TCtx v None, f') /\ Stores s' (map mk (map (later e) ps)) /\ Reachable 2 s' /\ arrays_of 2 f'.
Proof.
  intros HR Hs Hst Hf. set (g := value exact 2 2 (Some (const2, [0; e]))).
  set (h := fun (i : Z) (_ : particle) => random_value exact INR 2 2 None (sf_rng f) (map mk ps) (Z.to_nat i)).
  assert (Hloc : forall p, exists c, fe_eval exact const2 2 [0; e] (take 2 (px p)) = Ok c /\ c = [0; e]).
  { intros p. exists [0; e]. split; [|reflexivity]. exact (eval_cell const2 2 [0; e] (take 2 (px p)) 0 const2_per_cell eq_refl). }
  assert (Hg : forall p, g p = [0; e]).
  { intros p. symmetry. apply value_unique. destruct (Hloc p) as (c & H1 & ->). exists const2, [0; e]. by split. }
  pose proof (C04_pass_is_sequential 2 s (map mk ps) (each_hooks exact 2 (Some (const2, [0; e])) None None None "e" step time 1 1 10 tri_mesh (py_bcs no_bcs) false g h) (TCtx v None)
    ltac:(lia) HR Hs) as HP.
  assert (Hsq : forall i kept ch, seq_pass (each_hooks exact 2 (Some (const2, [0; e])) None None None "e" step time 1 1 10 tri_mesh (py_bcs no_bcs) false g h) i kept ch (TCtx v None) (map mk ps)
    = Ok (kept ++ map mk (map (later e) ps), TCtx v None)).
  { clear HP Hs. clearbody h. induction ps as [|[[[o y] w] id] ps IH]; intros i kept ch; [cbn; by rewrite app_nil_r|].
    pose proof (Hst (o, y, w, id) ltac:(left)) as Hy. cbn [stays] in Hy.
    assert (Ha : adv (each_hooks exact 2 (Some (const2, [0; e])) None None None "e" step time 1 1 10 tri_mesh (py_bcs no_bcs) false g h) (TCtx v None) i (mk (o, y, w, id))
      = Ok (mk (later e (o, y, w, id)), TCtx v None)).
    { unfold each_hooks, charged_hooks. cbn [adv option_map]. unfold select_E. rewrite Hg. cbn iota beta. unfold advance_charged. cbv zeta.
      set (p := free_move exact 1 _). assert (Ep : p = mk (later e (o, y, w, id))).
      { subst p. unfold free_move, accelerate, mk, later. cbn. unfold exact, set_px, set_px0, set_pu. cbn. repeat (first [reflexivity | match goal with |- @eq R _ _ => lra | |- _ => f_equal end]). }
      clearbody p. subst p. rewrite track_settled; [reflexivity|]. split; [by eexists|]. cbn [mk later pcell px gdim tri_mesh inside take].
      rewrite tri_in; [reflexivity|lra|lra]. }
    rewrite map_cons, (seq_keep _ _ _ _ _ _ _ _ _ _ Ha eq_refl eq_refl), (IH ltac:(intros q Hq; apply Hst; by right)). by rewrite <- app_assoc. }
  rewrite (Hsq 0%Z [] false) in HP. destruct HP as (s' & EP & HS & HR').
  pose proof (C59_fields exact INR 2 2 (Some (const2, [0; e])) None None None "e" step time 1 1 10 tri_mesh (py_bcs no_bcs) false 2 s (map mk ps) (TCtx v None) f ltac:(lia) HR Hs Hf
    ltac:(discriminate)) as H59. fold g in H59. fold h in H59.
  destruct (proj2 (H59 s' (TCtx v None))) as (f' & E).
  { split; [|exact EP]. intros p _. split; [|intros [H _]; by exfalso; apply H]. intros _. destruct (Hloc p) as (c & H1 & _). exists c, const2, [0; e]. by split. }
  exists s', f'. split; [exact E|]. split; [exact HS|]. split; [exact HR'|].
  exact (proj1 (C59_draws exact INR 2 2 (Some (const2, [0; e])) None None None "e" step time 1 1 10 tri_mesh (py_bcs no_bcs) false 2 s (map mk ps) (TCtx v None) f s' (TCtx v None) f'
    ltac:(lia) HR Hs Hf ltac:(discriminate) E)).
Qed.

Lemma loop_example s2 : CReach 2 3 s2 -> CStores s2 (map mk three) ->
  exists sC sc fC ys, cpp_time_loop exact 10 1 ["e"] (fun _ => None) (fun _ => None) (fun _ => 1) by_number ChargedXY 1 tri_cmesh (fun _ => no_bcs) [0; 0] [0; 0]
      2 0 0 (fun _ => s2) zeros None (CFields [1; 2; 3; 4] (replicate 4 0) (replicate 4 0) None) (Some (const2, [0; 1/2]))
    = Ok (sC, sc, None, fC, Some (const2, [0; - 1])) /\
  CStores (sC "e") ys /\ map px ys = [[1; 1]; [1; 1]; [1; 1/2]] /\ map pu ys = [[0; 1/2]; [0; 3/4]; [0; 1/4]].
Proof.
  intros HC HS. destruct (C01_push_keeps_place 2 (map mk three)) as (s & Ep & Hs); [lia|].
  assert (HR : Reachable 2 s) by exact (push_all_reach 2 _ _ _ _ (r_new 2) Ep).
  set (f := SegFields [[0; 0]; [0; 0]] [[0; 0]; [0; 0]] 0 None None). assert (Hf : arrays_of 2 f) by (by split).
  destruct (tri_step s three (1/2) [0; 0] (fields_at_start f) 1 (exact (0 + 1)) HR Hs) as (s1 & f1 & E1 & Hs1 & HR1 & Hf1).
  { intros q Hq. unfold three in Hq. rewrite !elem_of_cons, elem_of_nil in Hq. destruct Hq as [->|[->|[->|[]]]]; cbn; lra. }
  { exact Hf. }
  destruct (tri_step s1 (map (later (1/2)) three) (- 1) [0; 0] (fields_at_start f1) 2 (exact (exact (0 + 1) + 1)) HR1 Hs1) as (s3 & f3 & E3 & Hs3 & HR3 & Hf3).
  { intros q Hq. unfold three in Hq. cbn [map later] in Hq. rewrite !elem_of_cons, elem_of_nil in Hq. destruct Hq as [->|[->|[->|[]]]]; cbn; lra. }
  { exact Hf1. }
  set (loop := fun n => py_time_loop exact 10 1 ["e"] (fun _ => None) (fun _ => None) (fun _ => 1) by_number INR 2 2 tri_mesh (fun _ => py_bcs no_bcs) n 0 0 (fun _ => s) [0; 0] None f (Some (const2, [0; 1/2]))).
  assert (L1 : exists sP, loop 1%nat = Ok (sP, [0; 0], None, f1, Some (const2, [0; - 1])) /\ sP "e" = s1).
  { eexists. split. 2: shelve. unfold loop. cbn [py_time_loop]. unfold advance_charged_particles_in_E_field. cbn [over_species]. change (0 + 1)%Z with 1%Z. rewrite E1. cbn iota beta. cbn [usr scr map].
    unfold by_number. cbn [concat]. rewrite app_nil_r. change (String.eqb "e" "e") with true. cbn iota. rewrite (contents_py 2 _ _ HR1 Hs1). cbn [length map three]. replace (- (INR 3 / 3)) with (- 1) by (cbn; lra). reflexivity. Unshelve. reflexivity. }
  assert (L2 : exists sP, loop 2%nat = Ok (sP, [0; 0], None, f3, Some (const2, [0; - 1])) /\ sP "e" = s3).
  { eexists. split. 2: shelve. unfold loop. cbn [py_time_loop]. unfold advance_charged_particles_in_E_field. cbn [over_species]. change (0 + 1)%Z with 1%Z. rewrite E1. cbn iota beta. cbn [usr scr map].
    unfold by_number. cbn [concat]. rewrite !app_nil_r. change (String.eqb "e" "e") with true. cbn iota. rewrite (contents_py 2 _ _ HR1 Hs1). cbn [length map three]. replace (- (INR 3 / 3)) with (- 1) by (cbn; lra).
    change (1 + 1)%Z with 2%Z. rewrite E3. cbn iota beta. cbn [usr scr map concat]. rewrite app_nil_r. change (String.eqb "e" "e") with true. cbn iota. rewrite (contents_py 2 _ _ HR3 Hs3). cbn [length map three]. replace (- (INR 3 / 3)) with (- 1) by (cbn; lra). reflexivity. Unshelve. reflexivity. }
  pose proof (C63_loop ChargedXY 1 2 INR 10 1 (fun _ => None) (fun _ => None) (fun _ => 1) tri_mesh tri_cmesh (fun _ => no_bcs) [0; 0] [0; 0] 2 ["e"] by_number ltac:(lia) tri_same
    ltac:(right; left) ltac:(cbn; lia) ltac:(apply NoDup_singleton) ltac:(intros sn _ v b; discriminate)
    2 3 0 0 (fun _ => s) (fun _ => s2) (fun _ => map mk three) [0; 0] None zeros f (CFields [1; 2; 3; 4] (replicate 4 0) (replicate 4 0) None) (Some (const2, [0; 1/2]))) as H.
  assert (Hc : forall ps : list (vec * R * R * Z), forall p, p ∈ map mk ps -> in_own_cell const2 2 p /\ (0 <= pcell p < 1)%Z).
  { intros ps p Hp. apply elem_of_list_In, in_map_iff in Hp as ([[[o y] w] id] & <- & _). split; [reflexivity|cbn; lia]. }
  specialize (H ltac:(lia)). 
  assert (Hal : forall sn, sn ∈ ["e"] -> Reachable 2 s /\ Stores s (map mk three) /\ (exists j, (j <= 3)%nat /\ CReach 2 j s2) /\ CStores s2 (map mk three) /\ forall p, p ∈ map mk three -> shaped ChargedXY p).
  { intros sn _. split; [exact HR|]. split; [exact Hs|]. split; [exists 3%nat; by split|]. split; [exact HS|].
    intros p Hp. apply elem_of_list_In, in_map_iff in Hp as ([[[o y] w] id] & <- & _). by split. }
  specialize (H Hal). specialize (H ltac:(right; split; [reflexivity|]; split; [intros sn v b; discriminate|]; intros st t ne cs T2 ne2; unfold by_number; intros [= <- _]; reflexivity)).
  specialize (H ltac:(by split) Hf ltac:(by repeat split)).
  assert (Hl : forall j sP' v' T' f' negE', (j < 2)%nat -> loop j = Ok (sP', v', T', f', negE') -> located ChargedXY 1 2 ["e"] sP' negE').
  { intros [|[|j]] sP' v' T' f' negE' Hj; [| |lia].
    - unfold loop. cbn [py_time_loop]. intros [= <- _ _ _ <-]. exists const2, [0; 1/2]. split; [reflexivity|]. split; [exact const2_per_cell|].
      intros sn xs p _ Hx Hp. apply (Hc three). by rewrite (stores_inj _ _ _ Hs Hx).
    - destruct L1 as (sP & -> & EsP). intros [= <- _ _ _ <-]. exists const2, [0; - 1]. split; [reflexivity|]. split; [exact const2_per_cell|].
      intros sn xs p Hsn Hx Hp. apply elem_of_list_singleton in Hsn as ->. rewrite EsP in Hx. apply (Hc (map (later (1/2)) three)). by rewrite (stores_inj _ _ _ Hs1 Hx). }
  specialize (H Hl). destruct L2 as (sP & E2 & EsP). fold (loop 2%nat) in H.
  destruct (cpp_time_loop _ _ _ _ _ _ _ _ _ _ _ _ _ _ _ _ _ _ _ _ _ _) as [[[[[sC sc] T] fC] negE]|e] eqn:EC.
  - destruct H as (sP' & v' & fP' & ys & E & Hy). pose proof (eq_trans (eq_sym E2) E) as E4. injection E4 as <- _ <- _ <-.
    destruct (Hy "e"%string ltac:(left)) as [Hy1 Hy2]. rewrite EsP in Hy1. pose proof (stores_inj _ _ _ Hs3 Hy1) as Ey.
    exists sC, sc, fC, (ys "e"%string). split; [reflexivity|]. split; [exact Hy2|]. rewrite <- Ey.
    split; cbn [map three later mk px pu]; repeat f_equal; lra.
  - exfalso. destruct H as (e' & E). pose proof (eq_trans (eq_sym E2) E) as E4. discriminate E4.
Qed.
(** Two steps with the C++ movers: in the first the field is -1/2, in the second, with three particles, 1.  The Python run does the same,
    so C63_loop tells what is in the C++ containers. *)
Example C63_loop_example : exists s2 sC sc fC ys, CReach 2 3 s2 /\ CStores s2 (map mk three) /\
  cpp_time_loop exact 10 1 ["e"] (fun _ => None) (fun _ => None) (fun _ => 1) by_number ChargedXY 1 tri_cmesh (fun _ => no_bcs) [0; 0] [0; 0]
      2 0 0 (fun _ => s2) zeros None (CFields [1; 2; 3; 4] (replicate 4 0) (replicate 4 0) None) (Some (const2, [0; 1/2]))
    = Ok (sC, sc, None, fC, Some (const2, [0; - 1])) /\
  CStores (sC "e") ys /\ map px ys = [[1; 1]; [1; 1]; [1; 1/2]] /\ map pu ys = [[0; 1/2]; [0; 3/4]; [0; 1/4]].
Proof.
  destruct (C60_example [0; 0] [0; 0]) as (s2 & _ & _ & _ & HR & Hs & _). destruct (loop_example s2 HR Hs) as (sC & sc & fC & ys & H).
  exists s2, sC, sc, fC, ys. split; [exact HR|]. split; [exact Hs|exact H].
Qed.
(** The same particles without a solved field, and with an external one; the Python mover moves them without a field
    (C60_same and C61 are about it). *)
Example C63_arguments_example : exists s2, CStores s2 (map mk three) /\
  cpp_advance_charged_particles exact 10 1 (fun _ => None) (fun _ => None) (fun _ => 1) ChargedXY 1 tri_cmesh (fun _ => no_bcs) [0; 0] [0; 0] None None 1 1 ["e"] (fun _ => s2)
    (zeros, None) (CFields [1; 2; 3; 4] (replicate 4 0) (replicate 4 0) None) = Raise AttributeError /\
  cpp_advance_charged_particles exact 10 1 (fun _ => None) (fun _ => None) (fun _ => 1) ChargedXY 1 tri_cmesh (fun _ => no_bcs) [0; 0] [0; 0] (Some (const2, [0; 1/2])) (Some (const2, [7; 8]))
    1 1 ["e"] (fun _ => s2) (zeros, None) (CFields [1; 2; 3; 4] (replicate 4 0) (replicate 4 0) None) = Raise TypeError.
Proof.
  destruct (C60_example [0; 0] [0; 0]) as (s2 & _ & _ & _ & _ & Hs & _). exists s2. split; [exact Hs|].
  split; (rewrite C63_arguments; [reflexivity|exists "e"%string, (map mk three); split; [left|split; [exact Hs|discriminate]]|]); [by left|right; discriminate].
Qed.
(** The mesh with the cells [0, 1] and [1, 3] and a field of 5 and 7.  DOLFIN finds the second cell for the point 1.  A particle that came
    there from the first one gets 7 from the Python function and 5 from the C++ function. *)
Definition const1 : vspace := VSpace (fun c => [Z.to_nat c]) (fun x => if Rltb (comp x 0) 1 then Some 0%Z else Some 1%Z) (fun _ _ => [[1]]).
Lemma const1_per_cell : per_cell const1 1 2.
Proof.
  intros x c Hc. assert (Hc' : c = 0%Z \/ c = 1%Z) by (cbn in Hc; destruct (Rltb (comp x 0) 1); injection Hc as <-; auto).
  split; [reflexivity|]. split; [intros i Hi; cbn in Hi; apply elem_of_list_singleton in Hi as ->; destruct Hc' as [->| ->]; cbn; lia|]. split; [reflexivity|].
  intros [|i] b Hb; [|by destruct i]. injection Hb as <-. split; [reflexivity|]. intros [|d]; [reflexivity|]. by destruct d.
Qed.
Definition landed : particle := Particle [1] [1/2] [1/2] 1 0 0 1 0.
Example C63_facet_example : interpolate exact const1 1 1 [5; 7] [landed] [[0]] = Ok [[7]] /\ cpp_interpolate const1 2 1 [5; 7] [landed] [0] = Ok [5] /\
  exists c, (c = 0 \/ c = 1)%Z /\ forall p fl (bcs : Z -> option (bcfun (K:=option traj))) r k maxc fi time dt ctx o, take 1 (px p) = [1] -> pcell p = c -> length o = 1%nat ->
    track fl bcs r k line_mesh maxc fi time dt p ctx = Ok (set_pcross p 0, ctx) /\
    exists v w, interpolate exact const1 1 1 [5; 7] [p] [o] = Ok [v] /\ cpp_interpolate const1 2 1 [5; 7] [p] o = Ok w /\ length v = length w /\ v <> w.
Proof.
  assert (H1 : Rltb 1 1 = false) by (apply Rltb_false; lra). assert (H2 : Rltb 3 1 = false) by (apply Rltb_false; lra).
  split; [|split].
  - unfold interpolate. cbn [MeshFieldModel.interpolate_from]. rewrite (eval_cell const1 1 [5; 7] _ 1%Z const1_per_cell).
    + reflexivity.
    + cbn. rewrite H1. reflexivity.
  - reflexivity.
  - destruct (C63_facet_refuted const1 [5; 7] 1 1 2 line_mesh [1] 0%Z 1%Z const1_per_cell) as (c & Hc & H).
    + discriminate.
    + intros c Hc. split; [lia|]. split; [destruct Hc as [->| ->]; by eexists|]. split.
      * assert (Rltb 1 0 = false) as H3 by (apply Rltb_false; lra). assert (Rltb 3 1 = false) as H4 by (apply Rltb_false; lra).
        destruct Hc as [->| ->]; cbn; rewrite ?H1, ?H3, ?H4; reflexivity.
      * split; [reflexivity|]. intros i Hi. cbn in Hi. apply elem_of_list_singleton in Hi as ->. destruct Hc as [->| ->]; cbn; lia.
    + cbn. unfold at_. cbn. intros E. injection E as E. lra.
    + right. cbn. by rewrite H1.
    + exists c. split; [exact Hc|]. intros p fl bcs r k maxc fi time dt ctx o. exact (H p fl bcs r k maxc fi time dt ctx o eq_refl).
Qed.

Print Assumptions C63_loop.
Print Assumptions C63_arguments.
Print Assumptions C63_facet_refuted.
