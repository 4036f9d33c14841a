(** C64: the deposited density and the interpolated field belong together, and depositing with and without a search for the cell. *)
From stdpp Require Import strings list_numbers.
From Verif Require Import SapModel MoverModel SapProofs SapSpec SapRefine StorageProps.
From Verif Require Import Vec VecProofs TrackModel DiagModel DiagProofs SumProps DumpProps DensityModel DensityProps MeshFieldModel MeshFieldProps CppFieldProps.
From Verif Require Import DeltaModel.
From Verif Require Import FieldProps.
Local Open Scope R_scope.

(** ** What is meant *)

(** The sum over the degrees of freedom of the coefficients of a field times the deposited values. *)
Definition inner (phi a : list R) : R := Rsum (zip_with Rmult phi a).
(** The sum over the particles of weight times the value found for the particle. *)
Definition weighted (ps : list particle) (vs : list vec) : R := Rsum (zip_with (fun p v => pw p * comp v 0) ps vs).
(** The value at [x] of the basis function of degree of freedom [i], computed in cell [c]. *)
Definition hat (fs : fspace) (c : Z) (x : vec) (i : nat) : R :=
  Rsum (zip_with (fun j b => if (j =? i)%nat then b else 0) (fs_dofs fs c) (fs_basis fs c x)).

(** ** Sums *)

Lemma inner_at phi a n : length phi = n -> length a = n -> inner phi a = Rsum (map (fun i => at_ phi i * at_ a i) (seq 0 n)).
Proof.
  unfold inner. revert a n. induction phi as [|x phi IH]; intros a n Hp Ha; subst n.
  - destruct a; [reflexivity|discriminate].
  - destruct a as [|y a]; [discriminate|]. cbn [zip_with length seq map]. rewrite !Rsum_cons. f_equal.
    rewrite (IH a (length phi) eq_refl) by (cbn in Ha; lia). rewrite <- seq_shift, map_map. reflexivity.
Qed.
Lemma pick phi ndof idx : forall b, (forall i, i ∈ idx -> (i < ndof)%nat) ->
  Rsum (map (fun i => at_ phi i * Rsum (zip_with (fun j x => if (j =? i)%nat then x else 0) idx b)) (seq 0 ndof)) =
  Rsum (zip_with (fun i x => at_ phi i * x) idx b).
Proof.
  induction idx as [|j idx IH]; intros b Hin.
  - cbn [zip_with]. rewrite Rsum_nil. transitivity (Rsum (map (fun _ => 0) (seq 0 ndof))); [f_equal; apply map_ext; intros i; lra|apply Rsum_map_0].
  - destruct b as [|x b].
    + cbn [zip_with]. rewrite Rsum_nil. transitivity (Rsum (map (fun _ => 0) (seq 0 ndof))); [f_equal; apply map_ext; intros i; lra|apply Rsum_map_0].
    + cbn [zip_with]. rewrite Rsum_cons. rewrite <- (IH b) by (intros i Hi; apply Hin; by right).
      rewrite (map_ext _ (fun i => (if (j =? i)%nat then at_ phi j * x else 0) + at_ phi i * Rsum (zip_with (fun j x => if (j =? i)%nat then x else 0) idx b))).
      * rewrite Rsum_map_plus. f_equal. apply pick_one. apply Hin. left.
      * intros i. rewrite Rsum_cons. destruct (Nat.eqb_spec j i) as [->|]; lra.
Qed.
Lemma value_scalar locate fs phi c x : value_in (scalar_space locate fs) phi c x 0 = Rsum (zip_with (fun i b => at_ phi i * b) (fs_dofs fs c) (fs_basis fs c x)).
Proof. unfold value_in. cbn [scalar_space vs_dofs vs_basis]. f_equal. change (map ?f ?l) with (f <$> l). rewrite zip_with_fmap_r. reflexivity. Qed.
Lemma hats_value fs phi ndof c x : (forall i, i ∈ fs_dofs fs c -> (i < ndof)%nat) ->
  Rsum (map (fun i => at_ phi i * hat fs c x i) (seq 0 ndof)) = Rsum (zip_with (fun i b => at_ phi i * b) (fs_dofs fs c) (fs_basis fs c x)).
Proof. intros H. unfold hat. by apply pick. Qed.
Lemma scalar_proper locate fs ncell ndof : DofSpace fs ncell ndof -> (forall x c, locate x = Some c -> (0 <= c < Z.of_nat ncell)%Z) ->
  MeshFieldProps.Proper (scalar_space locate fs) 1 ndof.
Proof.
  intros HD Hl x c Hc. cbn in Hc. specialize (Hl x c Hc). destruct (HD (Z.to_nat c) ltac:(lia)) as (_ & H & _). rewrite Z2Nat.id in H by lia.
  split; [exact H|]. cbn. apply list.Forall_forall. intros b Hb. apply elem_of_list_fmap in Hb as (y & -> & _). reflexivity.
Qed.

(** Depositing the particles one by one in the given cells. *)
Lemma deposited fs gdim ndof phi ps a a' : (forall p i, p ∈ ps -> i ∈ fs_dofs fs (pcell p) -> (i < ndof)%nat) -> length phi = ndof -> length a = ndof -> length a' = ndof ->
  (forall i, at_ a' i = at_ a i + Rsum (map (fun p => pw p * spread fs gdim i p) ps)) ->
  inner phi a' = inner phi a + Rsum (map (fun p => pw p * Rsum (zip_with (fun i b => at_ phi i * b) (fs_dofs fs (pcell p)) (fs_basis fs (pcell p) (take gdim (px p))))) ps).
Proof.
  intros Hin Hp Ha Ha' H. rewrite (inner_at phi a' ndof Hp Ha'), (inner_at phi a ndof Hp Ha).
  rewrite (map_ext _ (fun i => at_ phi i * at_ a i + Rsum (map (fun p => pw p * (at_ phi i * spread fs gdim i p)) ps))).
  2: { intros i. rewrite H, Rmult_plus_distr_l. f_equal. rewrite <- Rsum_map_scale. f_equal. apply map_ext. intros p. lra. }
  rewrite Rsum_map_plus. f_equal. rewrite Rsum_swap. f_equal. apply map_ext_in. intros p Hpp%elem_of_list_In. rewrite Rsum_map_scale. f_equal.
  apply pick. intros i Hi. by apply (Hin p).
Qed.
Lemma weighted_map locate fs gdim phi ps vs : (forall p, p ∈ ps -> locate (take gdim (px p)) = Some (pcell p)) ->
  (forall i p, ps !! i = Some p -> exists v, vs !! i = Some v /\ field_at (scalar_space locate fs) 1 phi (take gdim (px p)) v) ->
  weighted ps vs = Rsum (map (fun p => pw p * Rsum (zip_with (fun i b => at_ phi i * b) (fs_dofs fs (pcell p)) (fs_basis fs (pcell p) (take gdim (px p))))) ps).
Proof.
  unfold weighted. revert vs. induction ps as [|p ps IH]; intros vs Hl Hv; [reflexivity|].
  destruct (Hv 0%nat p eq_refl) as (v & Hv0 & Hf). destruct vs as [|v' vs]; [discriminate|]. injection Hv0 as ->.
  cbn [zip_with map]. rewrite !Rsum_cons. f_equal.
  - f_equal. destruct Hf as (_ & c & Hc & Hd). cbn in Hc. rewrite (Hl p) in Hc by left. injection Hc as <-. rewrite Hd. apply value_scalar.
  - apply IH; [intros q Hq; apply Hl; by right|]. intros i q Hq. exact (Hv (S i) q Hq).
Qed.

(** ** The density and the field *)

(** C64: deposit the particles of a container into a field, and interpolate any field of the same function space to the same
    particles.  If the search finds every particle in the cell that its record names, the sum over the degrees of freedom of
    coefficient times deposited value is the sum over the particles of weight times interpolated value. *)
Theorem C64_adjoint (L : Z) ncell gdim ndof vol junk fs fC locate s ps phi a out : (1 <= L)%Z -> DofSpace fs ncell ndof ->
  (forall x c, locate x = Some c -> (0 <= c < Z.of_nat ncell)%Z) -> Counted L s ps ->
  (forall p, p ∈ ps -> locate (take gdim (px p)) = Some (pcell p)) -> length phi = ndof -> length a = ndof -> (length ps <= length out)%nat ->
  exists s' a' vs, accumulate exact ncell gdim vol junk fs fC s (Some a) None = Ok (s', (Some a', None)) /\ Counted L s' ps /\
    interpolate exact (scalar_space locate fs) 1 gdim phi ps out = Ok vs /\
    inner phi a' = inner phi a + weighted ps vs.
Proof.
  intros HL HD Hl Hs Hown Hphi Ha Hout. destruct (counted_loop L HL s ps Hs) as (s' & bs & Hs' & Hf & Hbs & _).
  assert (Hm : InMesh ncell ps) by (intros p Hp; exact (Hl _ _ (Hown p Hp))).
  set (fC' := FSpace (fun c => [Z.to_nat c]) (fun _ _ => [])).
  assert (HC : CellSpace fC' ncell (fun c => c)).
  { intros c Hc. cbn. rewrite Nat2Z.id. split; [reflexivity|]. split; [exact Hc|]. intros c' _ H. exact H. }
  destruct (deposit_all_ok ncell gdim ndof fs fC' (fun c => c) HD HC ps Hm (Some a) None) as (oa' & ob' & E & HA & HB); [exact Ha|exact I|].
  destruct ob'; [destruct HB|]. destruct oa' as [a'|]; [|destruct HA]. destruct HA as [Hl' HA].
  assert (Hd : forall qs b, deposit_all exact ncell gdim fs fC (b, None) qs = deposit_all exact ncell gdim fs fC' (b, None) qs).
  { induction qs as [|q qs IH]; intros b; [reflexivity|]. cbn [deposit_all]. unfold deposit. cbn [fst snd].
    destruct b as [b|]; [|apply IH]. destruct (interpolate_delta _ _ _ _ _ _); [apply IH|reflexivity]. }
  assert (HP : MeshFieldProps.Proper (scalar_space locate fs) 1 (length phi)) by (rewrite Hphi; by apply (scalar_proper locate fs ncell)).
  destruct (C58_interpolate (scalar_space locate fs) 1 gdim phi ps out HP Hout) as [Hi _].
  destruct Hi as (vs & Ev & _ & Hv & _); [intros p Hp; cbn; rewrite (Hown p Hp); discriminate|].
  exists s', a', vs. split; [|split; [exact Hs'|split; [exact Ev|]]].
  - unfold accumulate. rewrite Hf, fold_deposit, Hbs, map_map. cbn [seen default]. rewrite map_id, Hd, E. reflexivity.
  - rewrite (weighted_map locate fs gdim phi ps vs Hown Hv). apply (deposited fs gdim ndof); [|exact Hphi|exact Ha|congruence|exact HA].
    intros p i Hp Hi. specialize (Hm p Hp). destruct (HD (Z.to_nat (pcell p)) ltac:(lia)) as (_ & H & _). rewrite Z2Nat.id in H by lia. by apply H.
Qed.

(** C64: the same for the assembled charge of all species: with the coefficients of a potential, the sum over the degrees of freedom of
    potential times charge is the sum over all particles of charge times weight times potential at the particle. *)
Theorem C64_energy (L : Z) ncell gdim ndof vol (vl : nat -> R) junk fs fC d locate charge names saps xs phi out : (1 <= L)%Z ->
  DofSpace fs ncell ndof -> CellSpace fC ncell d -> (forall c : nat, (c < ncell)%nat -> vol (Z.of_nat c) = Some (vl c)) ->
  (forall x c, locate x = Some c -> (0 <= c < Z.of_nat ncell)%Z) -> NoDup names ->
  (forall sn, sn ∈ names -> Counted L (saps sn) (xs sn) /\ (length (xs sn) <= length out)%nat /\
     forall p, p ∈ xs sn -> locate (take gdim (px p)) = Some (pcell p)) -> length phi = ndof ->
  exists saps' rho dofs cells, density_update exact ncell gdim vol junk fs fC charge names ndof saps = Ok (saps', rho, dofs, cells) /\
    exists vs, (forall sn, sn ∈ names -> interpolate exact (scalar_space locate fs) 1 gdim phi (xs sn) out = Ok (vs sn)) /\
    inner phi rho = Rsum (map (fun sn => charge sn * weighted (xs sn) (vs sn)) names).
Proof.
  intros HL HD HC Hv Hl Hnd Hpop Hphi.
  assert (Hm : forall sn, sn ∈ names -> InMesh ncell (xs sn)).
  { intros sn Hsn p Hp. destruct (Hpop sn Hsn) as (_ & _ & H). exact (Hl _ _ (H p Hp)). }
  destruct (C33_assembled_charge L ncell gdim ndof vol vl junk fs fC d charge names saps xs HL HD HC Hv Hnd) as (saps' & rho & dofs & cells & E & _ & Hlen & Hr & _).
  { intros sn Hsn. destruct (Hpop sn Hsn) as (H & _). split; [exact H|by apply Hm]. }
  exists saps', rho, dofs, cells. split; [exact E|].
  assert (HP : MeshFieldProps.Proper (scalar_space locate fs) 1 (length phi)) by (rewrite Hphi; by apply (scalar_proper locate fs ncell)).
  set (vs := fun sn => match interpolate exact (scalar_space locate fs) 1 gdim phi (xs sn) out with Ok v => v | Raise _ => [] end).
  assert (Hvs : forall sn, sn ∈ names -> interpolate exact (scalar_space locate fs) 1 gdim phi (xs sn) out = Ok (vs sn) /\
    weighted (xs sn) (vs sn) = Rsum (map (fun p => pw p * Rsum (zip_with (fun i b => at_ phi i * b) (fs_dofs fs (pcell p)) (fs_basis fs (pcell p) (take gdim (px p))))) (xs sn))).
  { intros sn Hsn. destruct (Hpop sn Hsn) as (_ & Hout & Hown). destruct (C58_interpolate (scalar_space locate fs) 1 gdim phi (xs sn) out HP Hout) as [Hi _].
    destruct Hi as (w & Ev & _ & Hw & _); [intros p Hp; cbn; rewrite (Hown p Hp); discriminate|]. unfold vs. rewrite Ev. split; [reflexivity|].
    exact (weighted_map locate fs gdim phi (xs sn) w Hown Hw). }
  exists vs. split; [intros sn Hsn; by apply Hvs|].
  rewrite (inner_at phi rho ndof Hphi Hlen).
  rewrite (map_ext _ (fun i => Rsum (map (fun sn => charge sn * Rsum (map (fun p => pw p * (at_ phi i * spread fs gdim i p)) (xs sn))) names))).
  2: { intros i. rewrite Hr, <- Rsum_map_scale. f_equal. apply map_ext. intros sn.
       rewrite (map_ext (fun p => pw p * (at_ phi i * spread fs gdim i p)) (fun p => at_ phi i * (pw p * spread fs gdim i p))) by (intros p; lra).
       rewrite Rsum_map_scale. lra. }
  rewrite Rsum_swap. f_equal. apply map_ext_in. intros sn Hsn%elem_of_list_In. rewrite Rsum_map_scale. f_equal. rewrite (proj2 (Hvs sn Hsn)).
  rewrite Rsum_swap. f_equal. apply map_ext_in. intros p Hp%elem_of_list_In. rewrite Rsum_map_scale. f_equal. apply pick.
  intros i Hi. specialize (Hm sn Hsn p Hp). destruct (HD (Z.to_nat (pcell p)) ltac:(lia)) as (_ & H & _). rewrite Z2Nat.id in H by lia. by apply H.
Qed.

(** ** With and without a search *)

Section Search.
Context (ncell gdim ndof : nat) (fs : fspace) (locate : vec -> option Z).
Context (HD : DofSpace fs ncell ndof) (Hloc : forall x c, locate x = Some c -> (0 <= c < Z.of_nat ncell)%Z).
Lemma delta_at a p c : length a = ndof -> locate (take gdim (px p)) = Some c ->
  exists a', integrate_delta exact locate gdim fs a p = Ok a' /\ length a' = ndof /\ forall i, at_ a' i = at_ a i + pw p * hat fs c (take gdim (px p)) i.
Proof using HD Hloc.
  intros Ha Hc. pose proof (Hloc _ _ Hc) as Hr. destruct (HD (Z.to_nat c) ltac:(lia)) as (Hnd & Hin & Hb). rewrite Z2Nat.id in Hnd, Hin, Hb by lia.
  unfold integrate_delta. rewrite Hc. assert (Hin' : Forall (fun i => (i < length a)%nat) (fs_dofs fs c)).
  { apply list.Forall_forall. intros i Hi. rewrite Ha. by apply Hin. }
  rewrite gather_ok by exact Hin'. eexists. split; [reflexivity|]. unfold exact. split; [rewrite scatter_len; exact Ha|].
  intros i. unfold hat. apply scatter_add; [exact Hnd|exact Hin'|apply Hb].
Qed.
Lemma cell_at a p : length a = ndof -> (0 <= pcell p < Z.of_nat ncell)%Z ->
  exists a', interpolate_delta exact ncell gdim fs a p = Ok a' /\ length a' = ndof /\ forall i, at_ a' i = at_ a i + pw p * hat fs (pcell p) (take gdim (px p)) i.
Proof using HD.
  intros Ha Hp. destruct (DensityProps.interpolate_ok ncell gdim ndof fs HD a p Ha Hp) as (a' & E & Hl & H). exists a'. split; [exact E|]. split; [congruence|].
  intros i. rewrite H. cbn [map]. rewrite Rsum_cons, Rsum_nil. unfold spread, hat. lra.
Qed.

(** C64: the deposit of one particle, other than one of weight zero, with the search is the deposit without it exactly if the two cells give
    every basis function the same value at the particle. *)
Theorem C64_search_exact a p c : length a = ndof -> (0 <= pcell p < Z.of_nat ncell)%Z -> locate (take gdim (px p)) = Some c -> pw p <> 0 ->
  integrate_delta exact locate gdim fs a p = interpolate_delta exact ncell gdim fs a p <->
  forall i, hat fs c (take gdim (px p)) i = hat fs (pcell p) (take gdim (px p)) i.
Proof using HD Hloc.
  intros Ha Hp Hc Hw. destruct (delta_at a p c Ha Hc) as (a1 & -> & L1 & H1). destruct (cell_at a p Ha Hp) as (a2 & -> & L2 & H2). split.
  - intros [= ->] i. specialize (H1 i). specialize (H2 i). rewrite H1 in H2. apply (Rmult_eq_reg_l (pw p)); [lra|exact Hw].
  - intros H. f_equal. apply at_ext; [congruence|]. intros i _. rewrite H1, H2, H. reflexivity.
Qed.

(** C64: for all particles of a container, wherever the basis functions do not depend on the cell in which they are computed. *)
Theorem C64_search (L : Z) vol junk fC s ps a : (1 <= L)%Z -> Counted L s ps -> InMesh ncell ps -> length a = ndof ->
  (forall p, p ∈ ps -> exists c, locate (take gdim (px p)) = Some c /\ forall i, hat fs c (take gdim (px p)) i = hat fs (pcell p) (take gdim (px p)) i) ->
  exists s' a', accumulate exact ncell gdim vol junk fs fC s (Some a) None = Ok (s', (Some a', None)) /\ integrate_all exact locate gdim fs a ps = Ok a' /\
    length a' = ndof /\ forall i, at_ a' i = at_ a i + Rsum (map (fun p => pw p * hat fs (pcell p) (take gdim (px p)) i) ps).
Proof using HD Hloc.
  intros HL Hs Hm Ha Hh. destruct (counted_loop L HL s ps Hs) as (s' & bs & Hs' & Hf & Hbs & _). exists s'.
  assert (H : forall a, length a = ndof -> exists a', deposit_all exact ncell gdim fs fC (Some a, None) ps = Ok (Some a', None) /\ integrate_all exact locate gdim fs a ps = Ok a' /\
    length a' = ndof /\ forall i, at_ a' i = at_ a i + Rsum (map (fun p => pw p * hat fs (pcell p) (take gdim (px p)) i) ps)).
  { clear a Ha Hs Hs' Hf Hbs. induction ps as [|p ps IH]; intros a Ha.
    - exists a. split; [reflexivity|]. split; [reflexivity|]. split; [exact Ha|]. intros i. cbn. lra.
    - destruct (Hh p ltac:(left)) as (c & Hc & Hi). destruct (delta_at a p c Ha Hc) as (a1 & E1 & L1 & H1).
      destruct (cell_at a p Ha (Hm p ltac:(left))) as (a2 & E2 & L2 & H2).
      assert (a1 = a2) as -> by (apply at_ext; [congruence|]; intros i _; by rewrite H1, H2, Hi).
      destruct (IH ltac:(intros q Hq; apply Hm; by right) ltac:(intros q Hq; apply Hh; by right) a2 L2) as (a' & G1 & G2 & G3 & G4).
      exists a'. cbn [deposit_all integrate_all]. unfold deposit. cbn [fst snd]. rewrite E1, E2. split; [exact G1|]. split; [exact G2|]. split; [exact G3|].
      intros i. rewrite G4, H2. cbn [map]. rewrite Rsum_cons. lra. }
  destruct (H a Ha) as (a' & E & G). exists a'. split; [|exact G].
  unfold accumulate. rewrite Hf, fold_deposit, Hbs, map_map. cbn [seen default]. rewrite map_id, E. reflexivity.
Qed.

(** C64: with the search, RuntimeError exactly if one of the points is not in the mesh. *)
Theorem C64_search_outside a ps : length a = ndof ->
  ((forall p, p ∈ ps -> locate (take gdim (px p)) <> None) -> exists a', integrate_all exact locate gdim fs a ps = Ok a') /\
  ((exists p, p ∈ ps /\ locate (take gdim (px p)) = None) -> integrate_all exact locate gdim fs a ps = Raise RuntimeError).
Proof using HD Hloc.
  revert a. induction ps as [|p ps IH]; intros a Ha; (split; [intros Hin|intros (q & Hq & Hn)]).
  - by exists a.
  - inversion Hq.
  - cbn [integrate_all]. destruct (locate (take gdim (px p))) as [c|] eqn:Ec; [|exfalso; apply (Hin p); [left|exact Ec]].
    destruct (delta_at a p c Ha Ec) as (a1 & -> & L1 & _). apply IH; [exact L1|]. intros q Hq. apply Hin. by right.
  - cbn [integrate_all]. destruct (locate (take gdim (px p))) as [c|] eqn:Ec.
    + destruct (delta_at a p c Ha Ec) as (a1 & -> & L1 & _). apply IH; [exact L1|]. exists q. split; [|exact Hn].
      apply elem_of_cons in Hq as [->|Hq]; [congruence|exact Hq].
    + unfold integrate_delta. by rewrite Ec.
Qed.
End Search.

(** ** Linear elements on a line *)

(** The vertices [X] in increasing order, and the linear Lagrange elements on the cells between them: the degree of freedom of vertex
    [v] has the number [dn v]. *)
Definition increasing (X : list R) : Prop := forall c, (S c < length X)%nat -> at_ X c < at_ X (S c).
Definition p1_line (X : list R) (dn : nat -> nat) : fspace :=
  FSpace (fun c => [dn (Z.to_nat c); dn (S (Z.to_nat c))])
         (fun c x => let l := at_ X (Z.to_nat c) in let r := at_ X (S (Z.to_nat c)) in [(r - comp x 0) / (r - l); (comp x 0 - l) / (r - l)]).
(** [x] is between the vertices of cell [c]. *)
Definition in_line (X : list R) (c : Z) (x : R) : Prop :=
  (0 <= c < Z.of_nat (length X) - 1)%Z /\ at_ X (Z.to_nat c) <= x <= at_ X (S (Z.to_nat c)).
Definition numbering (X : list R) (dn : nat -> nat) : Prop := forall v, (v < length X)%nat -> (dn v < length X)%nat /\ forall w, (w < length X)%nat -> dn w = dn v -> w = v.

Lemma increasing_lt X i j : increasing X -> (i < j)%nat -> (j < length X)%nat -> at_ X i < at_ X j.
Proof.
  intros HX Hij. induction Hij as [|j Hij IH]; intros Hj; [by apply HX|]. apply (Rlt_trans _ (at_ X j)); [apply IH; lia|by apply HX].
Qed.
Lemma p1_dofs X dn : numbering X dn -> DofSpace (p1_line X dn) (length X - 1) (length X).
Proof.
  intros Hn c Hc. cbn. rewrite Nat2Z.id. split; [|split; [|reflexivity]].
  - constructor; [|apply NoDup_singleton]. intros H%elem_of_list_singleton. destruct (Hn (S c) ltac:(lia)) as [_ K]. specialize (K c ltac:(lia) H). lia.
  - intros i Hi. apply elem_of_cons in Hi as [->|Hi%elem_of_list_singleton]; [apply Hn; lia|]. subst. apply Hn. lia.
Qed.
Lemma hat_p1 X dn c x i : hat (p1_line X dn) c [x] i =
  (if (dn (Z.to_nat c) =? i)%nat then (at_ X (S (Z.to_nat c)) - x) / (at_ X (S (Z.to_nat c)) - at_ X (Z.to_nat c)) else 0) +
  (if (dn (S (Z.to_nat c)) =? i)%nat then (x - at_ X (Z.to_nat c)) / (at_ X (S (Z.to_nat c)) - at_ X (Z.to_nat c)) else 0).
Proof. unfold hat. cbn [p1_line fs_dofs fs_basis zip_with]. rewrite !Rsum_cons, Rsum_nil. cbn. lra. Qed.
(** On a line the basis functions do not depend on the cell. *)
Lemma hats_agree X dn c c' x i : increasing X -> in_line X c x -> in_line X c' x -> hat (p1_line X dn) c [x] i = hat (p1_line X dn) c' [x] i.
Proof.
  intros HX. assert (H : forall c c', (c < c')%Z -> in_line X c x -> in_line X c' x -> hat (p1_line X dn) c [x] i = hat (p1_line X dn) c' [x] i).
  { clear c c'. intros c c' Hcc [Hc Hx] [Hc' Hx']. destruct (decide (c' = c + 1)%Z) as [->|Hne].
    - rewrite !hat_p1. replace (Z.to_nat (c + 1)) with (S (Z.to_nat c)) in * by lia. assert (x = at_ X (S (Z.to_nat c))) as -> by lra.
      pose proof (HX (Z.to_nat c) ltac:(lia)) as K1. pose proof (HX (S (Z.to_nat c)) ltac:(lia)) as K2.
      destruct (dn (Z.to_nat c) =? i)%nat, (dn (S (Z.to_nat c)) =? i)%nat, (dn (S (S (Z.to_nat c))) =? i)%nat; field; lra.
    - pose proof (increasing_lt X (S (Z.to_nat c)) (Z.to_nat c') HX ltac:(lia) ltac:(lia)). lra. }
  intros H1 H2. destruct (Z.lt_trichotomy c c') as [Hlt|[->|Hlt]]; [by apply H|reflexivity|symmetry; by apply H].
Qed.

(** C64: linear elements on any mesh of a line, with any numbering of the degrees of freedom.  The density of a container does not depend on
    which of the two cells a particle on a vertex is counted in: it is the same with the search and without it.  Nothing negative is
    deposited if no weight is negative; what is deposited adds up to the weight of the particles, and its centre is that of the particles. *)
Theorem C64_line (L : Z) X dn locate vol junk fC s ps a : (1 <= L)%Z -> increasing X -> numbering X dn ->
  (forall x c, locate [x] = Some c -> in_line X c x) -> (forall x c, in_line X c x -> locate [x] <> None) ->
  (forall x c, locate x = Some c -> (0 <= c < Z.of_nat (length X - 1))%Z) ->
  Counted L s ps -> (forall p, p ∈ ps -> exists x r, px p = x :: r /\ in_line X (pcell p) x) -> length a = length X ->
  exists s' a', accumulate exact (length X - 1) 1 vol junk (p1_line X dn) fC s (Some a) None = Ok (s', (Some a', None)) /\
    integrate_all exact locate 1 (p1_line X dn) a ps = Ok a' /\ length a' = length X /\
    ((forall p, p ∈ ps -> 0 <= pw p) -> forall i, at_ a i <= at_ a' i) /\
    Rsum (map (fun v => at_ a' (dn v) - at_ a (dn v)) (seq 0 (length X))) = total_weight ps /\
    Rsum (map (fun v => at_ X v * (at_ a' (dn v) - at_ a (dn v))) (seq 0 (length X))) = Rsum (map (fun p => pw p * comp (px p) 0) ps).
Proof.
  intros HL HX Hn Hl1 Hl2 Hl3 Hs Hin Ha.
  assert (Hm : InMesh (length X - 1) ps). { intros p Hp. destruct (Hin p Hp) as (x & r & _ & Hx & _). lia. }
  destruct (C64_search (length X - 1) 1 (length X) (p1_line X dn) locate (p1_dofs X dn Hn) Hl3 L vol junk fC s ps a HL Hs Hm Ha) as (s' & a' & E1 & E2 & Hl & H).
  { intros p Hp. destruct (Hin p Hp) as (x & r & -> & Hx). cbn [take]. destruct (locate [x]) as [c|] eqn:Ec; [|exfalso; exact (Hl2 x _ Hx Ec)].
    exists c. split; [exact Ec|]. intros i. apply hats_agree; [exact HX|by apply Hl1|exact Hx]. }
  exists s', a'. split; [exact E1|]. split; [exact E2|]. split; [exact Hl|].
  assert (Hmom : forall Y, Rsum (map (fun v => at_ Y v * (at_ a' (dn v) - at_ a (dn v))) (seq 0 (length X))) =
    Rsum (map (fun p => pw p * (let c := Z.to_nat (pcell p) in (at_ Y c * (at_ X (S c) - comp (px p) 0) + at_ Y (S c) * (comp (px p) 0 - at_ X c)) / (at_ X (S c) - at_ X c))) ps)).
  { intros Y. rewrite (map_ext _ (fun v => Rsum (map (fun p => pw p * (at_ Y v * hat (p1_line X dn) (pcell p) (take 1 (px p)) (dn v))) ps))).
    2: { intros v. rewrite H. rewrite (map_ext (fun p => pw p * (at_ Y v * _)) (fun p => at_ Y v * (pw p * hat (p1_line X dn) (pcell p) (take 1 (px p)) (dn v)))) by (intros p; lra).
         rewrite Rsum_map_scale. lra. }
    rewrite Rsum_swap. f_equal. apply map_ext_in. intros p Hp%elem_of_list_In. rewrite Rsum_map_scale. f_equal.
    destruct (Hin p Hp) as (x & r & Ex & Hc & Hx). rewrite Ex. cbn [take comp nth]. cbv zeta. set (c := Z.to_nat (pcell p)) in *.
    assert (Hc' : (S c < length X)%nat) by lia. pose proof (HX c Hc') as Hlt.
    transitivity (Rsum (zip_with (fun i b => at_ Y i * b) [c; S c] [(at_ X (S c) - x) / (at_ X (S c) - at_ X c); (x - at_ X c) / (at_ X (S c) - at_ X c)])).
    - rewrite <- (pick Y (length X)) by (intros i Hi; apply elem_of_cons in Hi as [->|Hi%elem_of_list_singleton]; lia). f_equal. apply map_ext_in.
      intros v Hv%elem_of_list_In%elem_of_seq. f_equal. rewrite hat_p1. fold c. cbn [zip_with]. rewrite !Rsum_cons, Rsum_nil, Rplus_0_r.
      assert (Hd : forall w, (w < length X)%nat -> (dn w =? dn v)%nat = (w =? v)%nat).
      { intros w Hw. destruct (Nat.eqb_spec w v) as [->|Hne]; [apply Nat.eqb_refl|]. apply Nat.eqb_neq. intros K. apply Hne. by apply (proj2 (Hn v ltac:(lia))). }
      rewrite !Hd by lia. reflexivity.
    - cbn [zip_with]. rewrite !Rsum_cons, Rsum_nil. field. lra. }
  split; [|split].
  - intros Hw i. rewrite H. assert (0 <= Rsum (map (fun p => pw p * hat (p1_line X dn) (pcell p) (take 1 (px p)) i) ps)); [|lra].
    clear - Hw Hin HX. induction ps as [|p ps IH]; [cbn; lra|]. cbn [map]. rewrite Rsum_cons.
    assert (0 <= pw p * hat (p1_line X dn) (pcell p) (take 1 (px p)) i).
    { apply Rmult_le_pos; [apply Hw; left|]. destruct (Hin p ltac:(left)) as (x & r & -> & Hc & Hx). cbn [take]. rewrite hat_p1.
      pose proof (HX (Z.to_nat (pcell p)) ltac:(lia)). assert (0 < / (at_ X (S (Z.to_nat (pcell p))) - at_ X (Z.to_nat (pcell p)))) by (apply Rinv_0_lt_compat; lra).
      apply Rplus_le_le_0_compat; (destruct (_ =? _)%nat; [|lra]); apply Rmult_le_pos; lra. }
    assert (0 <= Rsum (map (fun p => pw p * hat (p1_line X dn) (pcell p) (take 1 (px p)) i) ps)); [|lra].
    apply IH; intros q Hq; [apply Hin|apply Hw]; by right.
  - specialize (Hmom (replicate (length X) 1)). unfold total_weight.
    assert (H1 : forall v, (v < length X)%nat -> at_ (replicate (length X) 1) v = 1).
    { intros v Hv. unfold at_. rewrite nth_lookup, lookup_replicate_2 by exact Hv. reflexivity. }
    etransitivity; [|etransitivity; [exact Hmom|]]; f_equal; apply map_ext_in.
    + intros v Hv%elem_of_list_In%elem_of_seq. rewrite H1 by lia. lra.
    + intros p Hp%elem_of_list_In. destruct (Hin p Hp) as (x & r & _ & Hc & _). cbv zeta. pose proof (HX (Z.to_nat (pcell p)) ltac:(lia)). rewrite !H1 by lia. field. lra.
  - rewrite Hmom. f_equal. apply map_ext_in. intros p Hp%elem_of_list_In. destruct (Hin p Hp) as (x & r & _ & Hc & _). cbv zeta.
    pose proof (HX (Z.to_nat (pcell p)) ltac:(lia)). field. lra.
Qed.

(** ** Examples *)

(** Cells [0, 1] and [1, 3], degrees of freedom numbered backwards; DOLFIN finds the second cell for the point 1, where a particle is that
    is recorded in the first one. *)
Definition dX : list R := [0; 1; 3].
Definition dback (v : nat) : nat := (2 - v)%nat.
Definition dloc (x : vec) : option Z :=
  match x with [y] => if Rltb y 0 then None else if Rltb y 1 then Some 0%Z else if Rltb 3 y then None else Some 1%Z | _ => None end.
Definition d_ps : list particle := [dp (1/2) 8 0; dp 1 4 0; dp 2 4 1].
Definition d_sap : sap particle := snd (run py_step (sap_init 2) (map Push d_ps)).
Lemma d_counted : Counted 2 d_sap d_ps.
Proof.
  split; [|split; [split|intros H; discriminate H]].
  - apply (run_reach 2 (map Push d_ps) (sap_init 2) [OPos 0 0; OPos 1 1; OPos 0 2]); [constructor|]. cbv -[IZR Rdiv]. reflexivity.
  - cbv -[IZR Rdiv]. reflexivity.
  - intros k x Hk. destruct k as [|[|[|k]]]; cbn in Hk; try discriminate Hk; injection Hk as <-; cbv -[IZR Rdiv]; reflexivity.
Qed.
Ltac d_eval := cbn [dp set_pcell pcell]; unfold at_, dX; change (Z.to_nat 0) with 0%nat; change (Z.to_nat 1) with 1%nat; cbn; split; lra.
Lemma dX_increasing : increasing dX.
Proof. intros [|[|c]] Hc; cbn; try lra. cbn in Hc. lia. Qed.
Lemma dX_numbering : numbering dX dback.
Proof. intros v Hv. cbn in *. unfold dback. split; [lia|]. intros w Hw H. lia. Qed.
Lemma dloc_sound x c : dloc [x] = Some c -> in_line dX c x.
Proof.
  cbn [dloc]. destruct (Rltb x 0) eqn:E0; [discriminate|]. apply Rltb_false in E0. destruct (Rltb x 1) eqn:E1; [apply Rltb_true in E1|apply Rltb_false in E1].
  - intros [= <-]. split; [cbn; lia|d_eval].
  - destruct (Rltb 3 x) eqn:E2; [discriminate|]. apply Rltb_false in E2. intros [= <-]. split; [cbn; lia|d_eval].
Qed.
Lemma dloc_complete x c : in_line dX c x -> dloc [x] <> None.
Proof.
  intros [Hc Hx]. cbn in Hc. assert (0 <= x <= 3) as Hr by (destruct (decide (c = 0)%Z) as [->|]; [|assert (c = 1)%Z as -> by lia]; unfold at_, dX in Hx; change (Z.to_nat 0) with 0%nat in Hx; change (Z.to_nat 1) with 1%nat in Hx; cbn in Hx; lra).
  cbn [dloc]. assert (Rltb x 0 = false) as -> by (apply Rltb_false; lra). destruct (Rltb x 1); [discriminate|].
  assert (Rltb 3 x = false) as -> by (apply Rltb_false; lra). discriminate.
Qed.
Lemma dloc_cell x c : dloc x = Some c -> (0 <= c < 2)%Z.
Proof. destruct x as [|y [|y' x]]; try discriminate. intros H%dloc_sound. destruct H as [H _]. cbn in H. lia. Qed.
Lemma d_in : forall p, p ∈ d_ps -> exists x r, px p = x :: r /\ in_line dX (pcell p) x.
Proof.
  intros p Hp. unfold d_ps in Hp. repeat (apply elem_of_cons in Hp as [->|Hp]; [cbn [dp set_pcell px]; eexists _, []; (split; [reflexivity|]); split; [cbn; lia|d_eval]|]). inversion Hp.
Qed.
(** The density is the same with and without the search: 4, 10 and 2 at the vertices 0, 1 and 3, with the centre at 1. *)
Example C64_line_example vol junk fC : exists s' a', accumulate exact 2 1 vol junk (p1_line dX dback) fC d_sap (Some [0; 0; 0]) None = Ok (s', (Some a', None)) /\
  integrate_all exact dloc 1 (p1_line dX dback) [0; 0; 0] d_ps = Ok a' /\ a' = [2; 10; 4].
Proof.
  destruct (C64_search 2 1 3 (p1_line dX dback) dloc (p1_dofs dX dback dX_numbering) dloc_cell 2 vol junk fC d_sap d_ps [0; 0; 0] ltac:(lia) d_counted) as (s' & a' & E1 & E2 & Hl & H).
  - intros p Hp. destruct (d_in p Hp) as (x & r & _ & Hx & _). cbn in Hx. lia.
  - reflexivity.
  - intros p Hp. destruct (d_in p Hp) as (x & r & -> & Hx). cbn [take]. destruct (dloc [x]) as [c|] eqn:Ec; [|exfalso; exact (dloc_complete x _ Hx Ec)].
    exists c. split; [exact Ec|]. intros i. apply hats_agree; [exact dX_increasing|by apply dloc_sound|exact Hx].
  - exists s', a'. split; [exact E1|]. split; [exact E2|].
    apply at_ext; [exact Hl|]. intros i Hi. rewrite Hl in Hi. rewrite H. unfold d_ps. cbn [map dp set_pcell px pcell pw take]. rewrite !Rsum_cons, Rsum_nil, !hat_p1.
    unfold dback. change (Z.to_nat 0) with 0%nat. change (Z.to_nat 1) with 1%nat.
    destruct i as [|[|[|i]]]; [cbn; lra..|lia].
Qed.
(** C64_line applies to it. *)
Example C64_line_centre vol junk fC : exists s' a', accumulate exact 2 1 vol junk (p1_line dX dback) fC d_sap (Some [0; 0; 0]) None = Ok (s', (Some a', None)) /\
  Rsum (map (fun v => at_ dX v * (at_ a' (dback v) - at_ [0; 0; 0] (dback v))) (seq 0 3)) = 16 /\ total_weight d_ps = 16.
Proof.
  destruct (C64_line 2 dX dback dloc vol junk fC d_sap d_ps [0; 0; 0] ltac:(lia) dX_increasing dX_numbering dloc_sound dloc_complete dloc_cell d_counted d_in eq_refl)
    as (s' & a' & E & _ & _ & _ & _ & Hm).
  exists s', a'. split; [exact E|]. split.
  - etransitivity; [exact Hm|]. unfold d_ps. cbn [map]. rewrite !Rsum_cons, Rsum_nil. cbn. lra.
  - unfold total_weight, d_ps. cbn [map]. rewrite !Rsum_cons, Rsum_nil. cbn. lra.
Qed.
(** With one degree of freedom per cell the two functions differ for the particle at the point 1. *)
Definition d0 : fspace := FSpace (fun c => [Z.to_nat c]) (fun _ _ => [1]).
Lemma d0_dofs : DofSpace d0 2 2.
Proof. intros c Hc. cbn. rewrite Nat2Z.id. split; [apply NoDup_singleton|]. split; [|reflexivity]. intros i ->%elem_of_list_singleton. exact Hc. Qed.
Example C64_search_example : integrate_delta exact dloc 1 d0 [0; 0] (dp 1 4 0) <> interpolate_delta exact 2 1 d0 [0; 0] (dp 1 4 0) /\
  integrate_delta exact dloc 1 (p1_line dX dback) [0; 0; 0] (dp 1 4 0) = interpolate_delta exact 2 1 (p1_line dX dback) [0; 0; 0] (dp 1 4 0).
Proof.
  assert (Hc : dloc (take 1 (px (dp 1 4 0))) = Some 1%Z).
  { cbn. assert (Rltb 1 0 = false) as -> by (apply Rltb_false; lra). assert (Rltb 1 1 = false) as -> by (apply Rltb_false; lra).
    assert (Rltb 3 1 = false) as -> by (apply Rltb_false; lra). reflexivity. }
  split.
  - rewrite (C64_search_exact 2 1 2 d0 dloc d0_dofs dloc_cell [0; 0] (dp 1 4 0) 1%Z eq_refl ltac:(cbn; lia) Hc ltac:(cbn; lra)).
    intros H. specialize (H 0%nat). unfold hat in H. cbn [d0 fs_dofs fs_basis dp set_pcell pcell] in H. change (Z.to_nat 0) with 0%nat in H. change (Z.to_nat 1) with 1%nat in H. cbn in H. lra.
  - apply (C64_search_exact 2 1 3 (p1_line dX dback) dloc (p1_dofs dX dback dX_numbering) dloc_cell [0; 0; 0] (dp 1 4 0) 1%Z eq_refl ltac:(cbn; lia) Hc ltac:(cbn; lra)).
    intros i. cbn [dp set_pcell px pcell take]. apply hats_agree; [exact dX_increasing|apply dloc_sound; exact Hc|]. split; [cbn; lia|d_eval].
Qed.
(** A potential of 5, 6 and 8 at the vertices 0, 1 and 3; charge -2.  Particles in their own cells at 1/2 and 2 with the weights 8 and 4. *)
Definition d_qs : list particle := [dp (1/2) 8 0; dp 2 4 1].
Definition d_sap2 : sap particle := snd (run py_step (sap_init 2) (map Push d_qs)).
Lemma d_counted2 : Counted 2 d_sap2 d_qs.
Proof.
  split; [|split; [split|intros H; discriminate H]].
  - apply (run_reach 2 (map Push d_qs) (sap_init 2) [OPos 0 0; OPos 1 1]); [constructor|]. cbv -[IZR Rdiv]. reflexivity.
  - cbv -[IZR Rdiv]. reflexivity.
  - intros k x Hk. destruct k as [|[|k]]; cbn in Hk; try discriminate Hk; injection Hk as <-; cbv -[IZR Rdiv]; reflexivity.
Qed.
Lemma d_own : forall p, p ∈ d_qs -> dloc (take 1 (px p)) = Some (pcell p).
Proof.
  intros p Hp. unfold d_qs in Hp. apply elem_of_cons in Hp as [->|Hp%elem_of_list_singleton]; [|subst]; cbn.
  - assert (Rltb (1/2) 0 = false) as -> by (apply Rltb_false; lra). assert (Rltb (1/2) 1 = true) as -> by (apply Rltb_true; lra). reflexivity.
  - assert (Rltb 2 0 = false) as -> by (apply Rltb_false; lra). assert (Rltb 2 1 = false) as -> by (apply Rltb_false; lra).
    assert (Rltb 3 2 = false) as -> by (apply Rltb_false; lra). reflexivity.
Qed.
Example C64_adjoint_example vol junk fC : exists s' a' vs, accumulate exact 2 1 vol junk (p1_line dX dback) fC d_sap2 (Some [1; 0; 0]) None = Ok (s', (Some a', None)) /\
  interpolate exact (scalar_space dloc (p1_line dX dback)) 1 1 [8; 6; 5] d_qs [[0]; [0]] = Ok vs /\ inner [8; 6; 5] a' = 8 + weighted d_qs vs.
Proof.
  destruct (C64_adjoint 2 2 1 3 vol junk (p1_line dX dback) fC dloc d_sap2 d_qs [8; 6; 5] [1; 0; 0] [[0]; [0]] ltac:(lia) (p1_dofs dX dback dX_numbering) dloc_cell d_counted2 d_own eq_refl eq_refl
    ltac:(cbn; lia)) as (s' & a' & vs & E1 & _ & E2 & H).
  exists s', a', vs. split; [exact E1|]. split; [exact E2|]. rewrite H. f_equal. unfold inner. cbn [zip_with]. rewrite !Rsum_cons, Rsum_nil. lra.
Qed.
Example C64_energy_example junk : exists saps' rho dofs cells vs,
  density_update exact 2 1 (fun c => Some 1) junk (p1_line dX dback) d0 (fun _ => -2) ["e"%string] 3 (fun _ => d_sap2) = Ok (saps', rho, dofs, cells) /\
  interpolate exact (scalar_space dloc (p1_line dX dback)) 1 1 [8; 6; 5] d_qs [[0]; [0]] = Ok vs /\ inner [8; 6; 5] rho = -2 * weighted d_qs vs + 0.
Proof.
  destruct (C64_energy 2 2 1 3 (fun c => Some 1) (fun _ => 1) junk (p1_line dX dback) d0 (fun c => c) dloc (fun _ => -2) ["e"%string] (fun _ => d_sap2) (fun _ => d_qs) [8; 6; 5] [[0]; [0]]
    ltac:(lia) (p1_dofs dX dback dX_numbering)) as (saps' & rho & dofs & cells & E & vs & Hv & H).
  - intros c Hc. cbn. rewrite Nat2Z.id. split; [reflexivity|]. split; [exact Hc|]. intros c' _ Hc'. exact Hc'.
  - intros c Hc. reflexivity.
  - exact dloc_cell.
  - apply NoDup_singleton.
  - intros sn _. split; [exact d_counted2|]. split; [cbn; lia|exact d_own].
  - reflexivity.
  - exists saps', rho, dofs, cells, (vs "e"%string). split; [exact E|]. split; [apply Hv; left|]. rewrite H. cbn [map]. rewrite Rsum_cons, Rsum_nil. reflexivity.
Qed.

Print Assumptions C64_adjoint.
Print Assumptions C64_energy.
Print Assumptions C64_search_exact.
Print Assumptions C64_search.
Print Assumptions C64_search_outside.
Print Assumptions C64_line.
