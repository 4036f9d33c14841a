(** C31, C32 and C33: number density and charge density. *)
From stdpp Require Import strings list_numbers.
From Verif Require Import SapModel MoverModel SapProofs SapSpec SapRefine StorageProps.
From Verif Require Import Vec VecProofs TrackModel DiagModel DiagProofs SumProps DumpProps DensityModel.
Local Open Scope R_scope.

(** ** What is meant *)

(** Element [i] of an array. *)
Definition at_ (a : list R) (i : nat) : R := nth i a 0.
(** The total weight of the particles of one cell. *)
Definition cell_weight (c : Z) (ps : list particle) : R := total_weight (filter (fun p => pcell p = c) ps).
(** The value, at the place of particle [p], of the basis function of degree of freedom [i]. *)
Definition spread (fs : fspace) (gdim : nat) (i : nat) (p : particle) : R :=
  Rsum (zip_with (fun j x => if (j =? i)%nat then x else 0) (fs_dofs fs (pcell p)) (fs_basis fs (pcell p) (take gdim (px p)))).

(** A function space on a mesh of [ncell] cells with [ndof] degrees of freedom: the degrees of freedom of a cell are
    different, and there is one basis function for each. *)
Definition DofSpace (fs : fspace) (ncell ndof : nat) : Prop := forall c : nat, (c < ncell)%nat ->
  NoDup (fs_dofs fs (Z.of_nat c)) /\ (forall i, i ∈ fs_dofs fs (Z.of_nat c) -> (i < ndof)%nat) /\
  forall x, length (fs_basis fs (Z.of_nat c) x) = length (fs_dofs fs (Z.of_nat c)).
(** A function space with one degree of freedom per cell: number [d c] for cell [c]. *)
Definition CellSpace (fs : fspace) (ncell : nat) (d : nat -> nat) : Prop := forall c, (c < ncell)%nat ->
  fs_dofs fs (Z.of_nat c) = [d c] /\ (d c < ncell)%nat /\ forall c', (c' < ncell)%nat -> d c' = d c -> c' = c.
(** The particles are in cells of the mesh. *)
Definition InMesh (ncell : nat) (ps : list particle) : Prop := forall p, p ∈ ps -> (0 <= pcell p < Z.of_nat ncell)%Z.

(** ** Arrays *)

Lemma at_insert a i x j : (i < length a)%nat -> at_ (<[i := x]> a) j = if (j =? i)%nat then x else at_ a j.
Proof.
  intros Hi. unfold at_. rewrite !nth_lookup. destruct (Nat.eqb_spec j i) as [->|Hne].
  - by rewrite list_lookup_insert by exact Hi.
  - by rewrite list_lookup_insert_ne by congruence.
Qed.
Lemma gather_ok a idx : Forall (fun i => (i < length a)%nat) idx -> gather a idx = Ok (map (at_ a) idx).
Proof.
  induction 1 as [|i idx Hi _ IH]; [reflexivity|]. cbn [gather map]. destruct (lookup_lt_is_Some_2 a i Hi) as [x Hx].
  rewrite Hx, IH. unfold at_. rewrite nth_lookup, Hx. reflexivity.
Qed.
Lemma scatter_len idx : forall a v, length (scatter a idx v) = length a.
Proof. induction idx as [|i idx IH]; intros a [|x v]; cbn [scatter]; [reflexivity..|]. rewrite IH. apply insert_length. Qed.
(** Updating different elements by a function of the old element. *)
Lemma scatter_at {B} (g : R -> B -> R) idx : forall a (v : list B) j, NoDup idx -> Forall (fun i => (i < length a)%nat) idx ->
  length v = length idx ->
  (j ∉ idx -> at_ (scatter a idx (zip_with g (map (at_ a) idx) v)) j = at_ a j) /\
  (forall k x, idx !! k = Some j -> v !! k = Some x -> at_ (scatter a idx (zip_with g (map (at_ a) idx) v)) j = g (at_ a j) x).
Proof.
  induction idx as [|i idx IH]; intros a v j Hnd Hin Hlen.
  - split; [reflexivity|]. intros k x Hk. discriminate.
  - destruct v as [|y v]; [discriminate|]. cbn [map zip_with scatter]. inversion_clear Hnd as [|? ? Hni Hnd'].
    inversion_clear Hin as [|? ? Hi Hin']. set (a1 := <[i := g (at_ a i) y]> a).
    assert (Hmap : map (at_ a) idx = map (at_ a1) idx).
    { apply map_ext_in. intros k Hk. unfold a1. rewrite at_insert by exact Hi.
      destruct (Nat.eqb_spec k i) as [->|]; [|reflexivity]. exfalso. apply Hni. by apply elem_of_list_In. }
    rewrite Hmap. assert (Hl1 : length a1 = length a) by apply insert_length.
    destruct (IH a1 v j Hnd') as [IH1 IH2]; [by rewrite Hl1|cbn in Hlen; lia|]. split.
    + intros Hj. rewrite IH1 by (intros H; apply Hj; by right). unfold a1. rewrite at_insert by exact Hi.
      destruct (Nat.eqb_spec j i) as [->|]; [|reflexivity]. exfalso. apply Hj. left.
    + intros [|k] x Hk Hx; cbn in Hk, Hx.
      * injection Hk as ->. injection Hx as ->. rewrite IH1 by exact Hni. unfold a1. rewrite at_insert by exact Hi.
        by rewrite Nat.eqb_refl.
      * rewrite (IH2 k x Hk Hx). unfold a1. rewrite at_insert by exact Hi.
        destruct (Nat.eqb_spec j i) as [->|]; [|reflexivity]. exfalso. apply Hni. by eapply elem_of_list_lookup_2.
Qed.
Lemma hat_zero j idx : forall (b : list R), j ∉ idx -> Rsum (zip_with (fun i x => if (i =? j)%nat then x else 0) idx b) = 0.
Proof.
  induction idx as [|i idx IH]; intros [|x b] Hj; cbn [zip_with]; [reflexivity..|]. rewrite Rsum_cons, IH by (intros H; apply Hj; by right).
  destruct (Nat.eqb_spec i j) as [->|]; [exfalso; apply Hj; left|lra].
Qed.
Lemma hat_at j idx : forall (b : list R) k x, NoDup idx -> idx !! k = Some j -> b !! k = Some x ->
  Rsum (zip_with (fun i x => if (i =? j)%nat then x else 0) idx b) = x.
Proof.
  induction idx as [|i idx IH]; intros b k x Hnd Hk Hx; [discriminate|]. destruct b as [|y b]; [discriminate|].
  inversion_clear Hnd as [|? ? Hni Hnd']. cbn [zip_with]. rewrite Rsum_cons. destruct k as [|k]; cbn in Hk, Hx.
  - injection Hk as ->. injection Hx as ->. rewrite Nat.eqb_refl, hat_zero by exact Hni. lra.
  - rewrite (IH b k x Hnd' Hk Hx). destruct (Nat.eqb_spec i j) as [->|]; [|lra]. exfalso. apply Hni. by eapply elem_of_list_lookup_2.
Qed.
(** [a[idx] += c*b] *)
Lemma scatter_add a idx (b : list R) c j : NoDup idx -> Forall (fun i => (i < length a)%nat) idx -> length b = length idx ->
  at_ (scatter a idx (zip_with (fun o x => o + c * x) (map (at_ a) idx) b)) j =
  at_ a j + c * Rsum (zip_with (fun i x => if (i =? j)%nat then x else 0) idx b).
Proof.
  intros Hnd Hin Hlen. destruct (scatter_at (fun o x => o + c * x) idx a b j Hnd Hin Hlen) as [H1 H2].
  destruct (decide (j ∈ idx)) as [Hj|Hj].
  - apply elem_of_list_lookup in Hj as [k Hk]. destruct (lookup_lt_is_Some_2 b k) as [x Hx].
    { rewrite Hlen. by eapply lookup_lt_Some. }
    rewrite (H2 k x Hk Hx), (hat_at j idx b k x Hnd Hk Hx). reflexivity.
  - rewrite (H1 Hj), hat_zero by exact Hj. lra.
Qed.

(** ** Depositing particles *)
Section Deposit.
Context (ncell gdim ndof : nat) (junk : particle) (fD fC : fspace) (d : nat -> nat).
Context (HD : DofSpace fD ncell ndof) (HC : CellSpace fC ncell d).

Definition DofSum (ps : list particle) (a a' : list R) : Prop :=
  length a' = length a /\ forall i, at_ a' i = at_ a i + Rsum (map (fun p => pw p * spread fD gdim i p) ps).
Definition CellSum (ps : list particle) (b b' : list R) : Prop :=
  length b' = length b /\ forall c, (c < ncell)%nat -> at_ b' (d c) = at_ b (d c) + cell_weight (Z.of_nat c) ps.

Lemma interpolate_ok a p : length a = ndof -> (0 <= pcell p < Z.of_nat ncell)%Z ->
  exists a', interpolate_delta exact ncell gdim fD a p = Ok a' /\ DofSum [p] a a'.
Proof using HD.
  intros Hl Hc. unfold interpolate_delta, has_cell. replace ((0 <=? pcell p) && (pcell p <? Z.of_nat ncell))%Z with true by lia.
  cbn [negb]. destruct (HD (Z.to_nat (pcell p)) ltac:(lia)) as (Hnd & Hin & Hb). rewrite Z2Nat.id in Hnd, Hin, Hb by lia.
  rewrite Hb, Nat.eqb_refl. cbn [negb].
  assert (Hin' : Forall (fun i => (i < length a)%nat) (fs_dofs fD (pcell p))).
  { apply list.Forall_forall. intros i Hi. rewrite Hl. by apply Hin. }
  rewrite gather_ok by exact Hin'. eexists. split; [reflexivity|]. unfold exact. split; [apply scatter_len|].
  intros i. cbn [map]. rewrite Rsum_cons, Rsum_nil, Rplus_0_r. unfold spread.
  apply scatter_add; [exact Hnd|exact Hin'|apply Hb].
Qed.
Lemma add_weight_ok b p : length b = ncell -> (0 <= pcell p < Z.of_nat ncell)%Z ->
  exists b', add_weight exact ncell fC b p = Ok b' /\ CellSum [p] b b'.
Proof using HC.
  intros Hl Hc. unfold add_weight, has_cell. replace ((0 <=? pcell p) && (pcell p <? Z.of_nat ncell))%Z with true by lia.
  cbn [negb]. set (c0 := Z.to_nat (pcell p)). destruct (HC c0 ltac:(lia)) as (Hdof & Hlt & Hinj).
  assert (Hc0 : Z.of_nat c0 = pcell p) by lia. rewrite Hc0 in Hdof. rewrite Hdof.
  rewrite gather_ok by (repeat constructor; lia). cbn [map scatter]. eexists. split; [reflexivity|]. split; [apply insert_length|].
  intros c Hcn. unfold exact. rewrite at_insert by lia. unfold cell_weight.
  destruct (Nat.eqb_spec (d c) (d c0)) as [Hd|Hd].
  - assert (c = c0) as -> by (by apply Hinj). rewrite filter_cons_True by (symmetry; exact Hc0). unfold total_weight. cbn. lra.
  - rewrite filter_cons_False by (intros H; apply Hd; f_equal; lia). unfold total_weight. cbn. lra.
Qed.

(** Either array may be absent. *)
Definition Opt (P : list R -> list R -> Prop) (o o' : option (list R)) : Prop :=
  match o, o' with Some a, Some a' => P a a' | None, None => True | _, _ => False end.
Definition OptLen (n : nat) (o : option (list R)) : Prop := match o with Some a => length a = n | None => True end.

Lemma deposit_all_ok ps : InMesh ncell ps -> forall oa ob, OptLen ndof oa -> OptLen ncell ob ->
  exists oa' ob', deposit_all exact ncell gdim fD fC (oa, ob) ps = Ok (oa', ob') /\
    Opt (DofSum ps) oa oa' /\ Opt (CellSum ps) ob ob'.
Proof using HD HC.
  induction ps as [|p ps IH]; intros Hm oa ob Ha Hb.
  - exists oa, ob. split; [reflexivity|]. split.
    + destruct oa; [|exact I]. split; [reflexivity|]. intros i. cbn. lra.
    + destruct ob; [|exact I]. split; [reflexivity|]. intros c _. unfold cell_weight, total_weight. cbn. lra.
  - cbn [deposit_all]. unfold deposit. cbn [fst snd].
    assert (Hp : (0 <= pcell p < Z.of_nat ncell)%Z) by (apply Hm; left).
    assert (exists oa1, match oa with Some a => let! a1 := interpolate_delta exact ncell gdim fD a p in Ok (Some a1) | None => Ok None end = Ok oa1
      /\ Opt (DofSum [p]) oa oa1) as (oa1 & -> & Ha1).
    { destruct oa as [a|]; [|by exists None]. destruct (interpolate_ok a p Ha Hp) as (a1 & -> & H1). by exists (Some a1). }
    assert (exists ob1, match ob with Some b => let! b1 := add_weight exact ncell fC b p in Ok (Some b1) | None => Ok None end = Ok ob1
      /\ Opt (CellSum [p]) ob ob1) as (ob1 & -> & Hb1).
    { destruct ob as [b|]; [|by exists None]. destruct (add_weight_ok b p Hb Hp) as (b1 & -> & H1). by exists (Some b1). }
    destruct (IH ltac:(intros q Hq; apply Hm; by right) oa1 ob1) as (oa' & ob' & E & Ha' & Hb').
    + destruct oa, oa1; cbn in *; try done. destruct Ha1 as [Hl _]. lia.
    + destruct ob, ob1; cbn in *; try done. destruct Hb1 as [Hl _]. lia.
    + exists oa', ob'. split; [exact E|]. split.
      * destruct oa, oa1, oa'; cbn in *; try done. destruct Ha1 as [L1 H1], Ha' as [L2 H2]. split; [congruence|].
        intros i. rewrite H2, H1. cbn [map]. rewrite !Rsum_cons, Rsum_nil. lra.
      * destruct ob, ob1, ob'; cbn in *; try done. destruct Hb1 as [L1 H1], Hb' as [L2 H2]. split; [congruence|].
        intros c Hc. rewrite H2, H1 by exact Hc. unfold cell_weight. rewrite Rplus_assoc. f_equal.
        change (p :: ps) with ([p] ++ ps). rewrite list.filter_app. unfold total_weight. rewrite map_app, Rsum_app. reflexivity.
Qed.

Lemma deposit_app ps qs : forall st, deposit_all exact ncell gdim fD fC st (ps ++ qs) =
  let! st1 := deposit_all exact ncell gdim fD fC st ps in deposit_all exact ncell gdim fD fC st1 qs.
Proof using.
  induction ps as [|p ps IH]; intros st; [reflexivity|]. cbn [app deposit_all].
  destruct (deposit exact ncell gdim fD fC st p); [apply IH|reflexivity].
Qed.
Lemma fold_deposit bs : forall st,
  fold_blocks (fun st n v => deposit_all exact ncell gdim fD fC st (map (seen junk) (take (Z.to_nat n) v))) st bs =
  deposit_all exact ncell gdim fD fC st (map (seen junk) (concat bs)).
Proof using.
  induction bs as [|b bs IH]; intros st; [reflexivity|]. cbn [fold_blocks concat]. rewrite map_app, deposit_app.
  rewrite Nat2Z.id, firstn_all. destruct (deposit_all exact ncell gdim fD fC st (map (seen junk) b)); [apply IH|reflexivity].
Qed.

Lemma divide_ok (vol : Z -> option R) : (forall c, (c < ncell)%nat -> exists v, vol (Z.of_nat c) = Some v) ->
  forall cells b, NoDup cells -> (forall c, c ∈ cells -> (c < ncell)%nat) -> length b = ncell ->
  exists b', divide_cells exact vol fC cells b = Ok b' /\ length b' = ncell /\
    (forall c v, c ∈ cells -> vol (Z.of_nat c) = Some v -> at_ b' (d c) = at_ b (d c) / v) /\
    (forall c, (c < ncell)%nat -> c ∉ cells -> at_ b' (d c) = at_ b (d c)).
Proof using HC.
  intros Hv. induction cells as [|c cells IH]; intros b Hnd Hin Hl.
  - exists b. split; [reflexivity|]. split; [exact Hl|]. split; [intros c v H; inversion H|reflexivity].
  - inversion_clear Hnd as [|? ? Hni Hnd']. cbn [divide_cells].
    assert (Hc : (c < ncell)%nat) by (apply Hin; left). destruct (Hv c Hc) as [v Ev]. rewrite Ev.
    destruct (HC c Hc) as (Hdof & Hlt & Hinj). rewrite Hdof, gather_ok by (repeat constructor; lia). cbn [map scatter].
    set (b1 := <[d c := exact (at_ b (d c) / v)]> b).
    assert (Hb1 : forall c', (c' < ncell)%nat -> at_ b1 (d c') = if (c' =? c)%nat then at_ b (d c) / v else at_ b (d c')).
    { intros c' Hc'. unfold b1. rewrite at_insert by lia. destruct (Nat.eqb_spec c' c) as [->|Hne]; [by rewrite Nat.eqb_refl|].
      destruct (Nat.eqb_spec (d c') (d c)) as [Hd|]; [|reflexivity]. exfalso. apply Hne. by apply Hinj. }
    destruct (IH b1 Hnd') as (b' & E & Hl' & H1 & H2); [intros c' Hc'; apply Hin; by right|unfold b1; by rewrite insert_length|].
    exists b'. split; [exact E|]. split; [exact Hl'|]. split.
    + intros c' v' Hc' Ev'. apply elem_of_cons in Hc' as [->|Hc'].
      * rewrite H2 by assumption. rewrite Hb1, Nat.eqb_refl by exact Hc. congruence.
      * rewrite (H1 c' v' Hc' Ev'), Hb1 by (apply Hin; by right).
        destruct (Nat.eqb_spec c' c) as [->|]; [contradiction|reflexivity].
    + intros c' Hc' Hni'. rewrite H2 by (first [assumption|intros H; apply Hni'; by right]). rewrite Hb1 by exact Hc'.
      destruct (Nat.eqb_spec c' c) as [->|]; [exfalso; apply Hni'; left|reflexivity].
Qed.
End Deposit.

(** ** C31 *)

(** [accumulate_number_density] adds, at every degree of freedom, the weights of the particles times the value of its basis
    function, and leaves in every cell what was there plus the weight of the particles of the cell, divided by its volume.
    Either field may be absent ([None]).  The particles stay. *)
Theorem C31_accumulate (L : Z) ncell gdim ndof vol junk fD fC d s ps oa ob : (1 <= L)%Z ->
  DofSpace fD ncell ndof -> CellSpace fC ncell d -> (forall c : nat, (c < ncell)%nat -> exists v, vol (Z.of_nat c) = Some v) ->
  Counted L s ps -> InMesh ncell ps -> OptLen ndof oa -> OptLen ncell ob ->
  exists s' oa' ob', accumulate exact ncell gdim vol junk fD fC s oa ob = Ok (s', (oa', ob')) /\ Counted L s' ps /\
    Opt (fun a a' => length a' = ndof /\ forall i, at_ a' i = at_ a i + Rsum (map (fun p => pw p * spread fD gdim i p) ps)) oa oa' /\
    Opt (fun b b' => length b' = ncell /\ forall (c : nat) v, (c < ncell)%nat -> vol (Z.of_nat c) = Some v ->
      at_ b' (d c) = (at_ b (d c) + cell_weight (Z.of_nat c) ps) / v) ob ob'.
Proof.
  intros HL HD HC Hv Hs Hm Ha Hb. destruct (counted_loop L HL s ps Hs) as (s' & bs & Hs' & Hf & Hbs & _).
  destruct (deposit_all_ok ncell gdim ndof fD fC d HD HC ps Hm oa ob Ha Hb) as (oa' & ob' & E & HA & HB).
  unfold accumulate. rewrite Hf, fold_deposit, Hbs. rewrite map_map. cbn [seen default]. rewrite map_id, E.
  assert (HA' : Opt (fun a a' => length a' = ndof /\ forall i, at_ a' i = at_ a i + Rsum (map (fun p => pw p * spread fD gdim i p) ps)) oa oa').
  { destruct oa, oa'; cbn in *; try done. destruct HA as [? ?]. split; [congruence|assumption]. }
  destruct ob as [b|], ob' as [b'|]; cbn in HB; try done.
  - destruct HB as [HlB HB]. cbn in Hb. unfold divide_by_cell_volumes.
    destruct (divide_ok ncell fC d HC vol Hv (seq 0 ncell) b') as (b'' & Ed & Hl & H1 & _).
    + apply NoDup_seq.
    + intros c Hc. apply elem_of_seq in Hc. lia.
    + congruence.
    + rewrite Ed. exists s', oa', (Some b''). split; [reflexivity|]. split; [exact Hs'|]. split; [exact HA'|].
      cbn. split; [exact Hl|]. intros c v Hc Ev. rewrite (H1 c v); [|apply elem_of_seq; lia|exact Ev]. by rewrite HB.
  - exists s', oa', None. split; [reflexivity|]. split; [exact Hs'|]. split; [exact HA'|exact I].
Qed.

Lemma at_zero n i : at_ (replicate n 0) i = 0.
Proof.
  unfold at_. rewrite nth_lookup. destruct (replicate n 0 !! i) as [x|] eqn:E; [|reflexivity].
  apply lookup_replicate in E as [-> _]. reflexivity.
Qed.
(** Arrays of the same length with the same elements are equal. *)
Lemma at_ext a b : length a = length b -> (forall i, (i < length a)%nat -> at_ a i = at_ b i) -> a = b.
Proof.
  intros Hl He. apply (nth_ext a b 0 0 Hl). exact He.
Qed.
Lemma Rsum_perm l l' : l ≡ₚ l' -> Rsum l = Rsum l'.
Proof. induction 1; rewrite ?Rsum_cons; lra. Qed.
(** Every element of a cell array belongs to a cell. *)
Lemma cell_of fC ncell d i : CellSpace fC ncell d -> (i < ncell)%nat -> exists c, (c < ncell)%nat /\ d c = i.
Proof.
  intros HC Hi.
  assert (Hin : incl (seq 0 ncell) (map d (seq 0 ncell))).
  { apply NoDup_length_incl.
    - assert (forall l, NoDup l -> (forall c, c ∈ l -> (c < ncell)%nat) -> List.NoDup (map d l)) as H.
      { induction l as [|c l IH]; intros Hnd Hl; cbn; constructor; inversion_clear Hnd as [|? ? Hni Hnd'].
        - intros Hx. apply in_map_iff in Hx as (c' & Hd & Hc'). apply Hni. apply elem_of_list_In in Hc'.
          destruct (HC c) as (_ & _ & Hinj); [apply Hl; left|]. rewrite <- (Hinj c'); [exact Hc'|apply Hl; by right|exact Hd].
        - apply IH; [exact Hnd'|]. intros c' Hc'. apply Hl. by right. }
      apply H; [apply NoDup_seq|]. intros c Hc. apply elem_of_seq in Hc. lia.
    - rewrite map_length. reflexivity.
    - intros x Hx. apply in_map_iff in Hx as (c & <- & Hc). apply in_seq in Hc. apply in_seq. destruct (HC c ltac:(lia)) as (_ & ? & _). lia. }
  specialize (Hin i). destruct (in_map_iff d (seq 0 ncell) i) as [H1 _]. destruct H1 as (c & Hc & Hcs); [apply Hin, in_seq; lia|].
  exists c. apply in_seq in Hcs. split; [lia|exact Hc].
Qed.

(** A sum with one term. *)
Lemma pick_one k n x : (k < n)%nat -> Rsum (map (fun i => if (k =? i)%nat then x else 0) (seq 0 n)) = x.
Proof.
  intros Hk. replace n with (k + (1 + (n - k - 1)))%nat by lia. rewrite !seq_app, !map_app, !Rsum_app. cbn [seq map].
  rewrite Nat.add_0_l, Nat.eqb_refl, Rsum_cons, Rsum_nil.
  assert (Hz : forall l, (forall c, c ∈ l -> c <> k) -> Rsum (map (fun c => if (k =? c)%nat then x else 0) l) = 0).
  { induction l as [|c l IHl]; intros H; [reflexivity|]. cbn [map]. rewrite Rsum_cons, IHl by (intros c' Hc'; apply H; by right).
    destruct (Nat.eqb_spec k c) as [->|]; [exfalso; by apply (H c); [left|]|lra]. }
  rewrite !Hz; [lra| |]; intros c Hc; apply elem_of_seq in Hc; lia.
Qed.

(** The particles of a mesh are those of its cells. *)
Lemma cell_weights ncell ps : InMesh ncell ps ->
  Rsum (map (fun c => cell_weight (Z.of_nat c) ps) (seq 0 ncell)) = total_weight ps.
Proof.
  induction ps as [|p ps IH]; intros Hm.
  - unfold cell_weight, total_weight. cbn. induction (seq 0 ncell) as [|c cs IHc]; [reflexivity|]. cbn [map]. rewrite Rsum_cons, IHc. lra.
  - unfold total_weight. cbn [map]. rewrite Rsum_cons. fold (total_weight ps). rewrite <- IH by (intros q Hq; apply Hm; by right).
    rewrite (map_ext _ (fun c => (if (Z.to_nat (pcell p) =? c)%nat then pw p else 0) + cell_weight (Z.of_nat c) ps)).
    + rewrite Rsum_map_plus. f_equal. assert (Hp : (0 <= pcell p < Z.of_nat ncell)%Z) by (apply Hm; left).
      apply pick_one. lia.
    + intros c. unfold cell_weight. rewrite filter_cons. destruct (Nat.eqb_spec (Z.to_nat (pcell p)) c) as [<-|Hne].
      * rewrite decide_True by (assert (0 <= pcell p < Z.of_nat ncell)%Z by (apply Hm; left); lia). unfold total_weight. cbn [map]. by rewrite Rsum_cons.
      * rewrite decide_False by (assert (0 <= pcell p < Z.of_nat ncell)%Z by (apply Hm; left); lia). lra.
Qed.

(** The cell density alone: nothing is needed of the other function space. *)
Lemma accumulate_cells (L : Z) ncell gdim vol (vl : nat -> R) junk fD fC d s ps b : (1 <= L)%Z ->
  CellSpace fC ncell d -> (forall c : nat, (c < ncell)%nat -> vol (Z.of_nat c) = Some (vl c)) ->
  Counted L s ps -> InMesh ncell ps -> length b = ncell ->
  exists s' n, accumulate exact ncell gdim vol junk fD fC s None (Some b) = Ok (s', (None, Some n)) /\ Counted L s' ps /\
    length n = ncell /\ forall c, (c < ncell)%nat -> at_ n (d c) = (at_ b (d c) + cell_weight (Z.of_nat c) ps) / vl c.
Proof.
  intros HL HC Hv Hs Hm Hl.
  set (fD' := FSpace (fun _ => []) (fun _ _ => [])).
  assert (HD : DofSpace fD' ncell 0).
  { intros c _. cbn. split; [constructor|]. split; [intros i Hi; inversion Hi|reflexivity]. }
  destruct (C31_accumulate L ncell gdim 0 vol junk fD' fC d s ps None (Some b) HL HD HC) as (s' & oa' & ob' & E & Hs' & HA & HB);
    [intros c Hc; eexists; apply (Hv c Hc)|exact Hs|exact Hm|exact I|exact Hl|].
  destruct oa'; [destruct HA|]. destruct ob' as [n|]; [|destruct HB]. cbn in HB. destruct HB as [Hln HB]. exists s', n. split.
  - rewrite <- E. unfold accumulate.
    destruct (counted_loop L HL s ps Hs) as (s2 & bs & _ & Hf & _). rewrite !Hf, !fold_deposit.
    assert (Hd : forall qs b, deposit_all exact ncell gdim fD fC (None, b) qs = deposit_all exact ncell gdim fD' fC (None, b) qs).
    { induction qs as [|q qs IH]; intros b'; [reflexivity|]. cbn [deposit_all]. unfold deposit. cbn [fst snd].
      destruct b' as [b'|]; [|apply IH]. destruct (add_weight _ _ _ _ _); [apply IH|reflexivity]. }
    rewrite Hd. reflexivity.
  - split; [exact Hs'|]. split; [exact Hln|]. intros c Hc. apply HB; [exact Hc|]. by apply Hv.
Qed.

(** From a zeroed field: the sum over the cells of density times volume is the number of particles. *)
Theorem C31_cells_conserve (L : Z) ncell gdim vol (vl : nat -> R) junk fD fC d s ps : (1 <= L)%Z ->
  CellSpace fC ncell d -> (forall c : nat, (c < ncell)%nat -> vol (Z.of_nat c) = Some (vl c) /\ vl c <> 0) ->
  Counted L s ps -> InMesh ncell ps ->
  exists s' n, accumulate exact ncell gdim vol junk fD fC s None (Some (replicate ncell 0)) = Ok (s', (None, Some n)) /\
    Rsum (map (fun c => at_ n (d c) * vl c) (seq 0 ncell)) = total_weight ps.
Proof.
  intros HL HC Hv Hs Hm.
  destruct (accumulate_cells L ncell gdim vol vl junk fD fC d s ps (replicate ncell 0) HL HC (fun c Hc => proj1 (Hv c Hc)) Hs Hm)
    as (s' & n & E & _ & _ & HB); [apply replicate_length|].
  exists s', n. split; [exact E|].
  rewrite <- (cell_weights ncell ps Hm). f_equal. apply map_ext_in. intros c Hc%elem_of_list_In%elem_of_seq.
  destruct (Hv c ltac:(lia)) as [_ Hv0]. rewrite (HB c ltac:(lia)), at_zero. field. exact Hv0.
Qed.

(** The sum over the degrees of freedom of what the particles deposit is their weight. *)
Lemma spread_total fD ncell gdim ndof ps : DofSpace fD ncell ndof ->
  (forall (c : nat) x, (c < ncell)%nat -> Rsum (fs_basis fD (Z.of_nat c) x) = 1) -> InMesh ncell ps ->
  Rsum (map (fun i => Rsum (map (fun p => pw p * spread fD gdim i p) ps)) (seq 0 ndof)) = total_weight ps.
Proof.
  intros HD Hone Hm.
  induction ps as [|p ps IH].
  + unfold total_weight. cbn. induction (seq 0 ndof) as [|i l IHl]; [reflexivity|]. cbn [map]. rewrite Rsum_cons, IHl. cbn. lra.
  + unfold total_weight. cbn [map]. rewrite Rsum_cons. fold (total_weight ps).
    rewrite <- IH by (intros q Hq; apply Hm; by right).
    rewrite (map_ext _ (fun i => pw p * spread fD gdim i p + Rsum (map (fun p => pw p * spread fD gdim i p) ps)))
      by (intros i; cbn [map]; rewrite Rsum_cons; reflexivity).
    rewrite Rsum_map_plus. f_equal. assert (Hp : (0 <= pcell p < Z.of_nat ncell)%Z) by (apply Hm; left).
    destruct (HD (Z.to_nat (pcell p)) ltac:(lia)) as (Hnd & Hin & Hb). specialize (Hone (Z.to_nat (pcell p)) (take gdim (px p)) ltac:(lia)).
    rewrite Z2Nat.id in Hnd, Hin, Hb, Hone by lia. rewrite Rsum_map_scale. rewrite <- (Rmult_1_r (pw p)) at 2. f_equal. rewrite <- Hone.
    unfold spread. specialize (Hb (take gdim (px p))). revert Hin Hb. clear. generalize (fs_basis fD (pcell p) (take gdim (px p))) as b.
    induction (fs_dofs fD (pcell p)) as [|j idx IH]; intros b Hin Hb.
    * destruct b; [|discriminate]. cbn. induction (seq 0 ndof) as [|i l IHl]; [reflexivity|]. cbn [map]. rewrite Rsum_cons, IHl. lra.
    * destruct b as [|x b]; [discriminate|]. rewrite Rsum_cons. rewrite <- (IH b); [|intros i Hi; apply Hin; by right|cbn in Hb; lia].
      cbn [zip_with].
      rewrite (map_ext _ (fun i => (if (j =? i)%nat then x else 0) + Rsum (zip_with (fun j x => if (j =? i)%nat then x else 0) idx b)))
        by (intros i; apply Rsum_cons).
      rewrite Rsum_map_plus. f_equal. assert (Hj : (j < ndof)%nat) by (apply Hin; left). apply pick_one. exact Hj.
Qed.

(** From a zeroed field, when the basis functions add up to one in every cell: the sum over the degrees of freedom is the
    number of particles. *)
Theorem C31_dofs_conserve (L : Z) ncell gdim ndof vol junk fD fC s ps : (1 <= L)%Z ->
  DofSpace fD ncell ndof -> (forall (c : nat) x, (c < ncell)%nat -> Rsum (fs_basis fD (Z.of_nat c) x) = 1) ->
  Counted L s ps -> InMesh ncell ps ->
  exists s' n, accumulate exact ncell gdim vol junk fD fC s (Some (replicate ndof 0)) None = Ok (s', (Some n, None)) /\
    length n = ndof /\ Rsum n = total_weight ps.
Proof.
  intros HL HD Hone Hs Hm. destruct (counted_loop L HL s ps Hs) as (s' & bs & Hs' & Hf & Hbs & _).
  set (fC' := FSpace (fun c => [Z.to_nat c]) (fun _ _ => [])).
  assert (HC : CellSpace fC' ncell (fun c => c)).
  { intros c Hc. cbn. rewrite Nat2Z.id. split; [reflexivity|]. split; [exact Hc|]. intros c' _ H. exact H. }
  destruct (deposit_all_ok ncell gdim ndof fD fC' (fun c => c) HD HC ps Hm (Some (replicate ndof 0)) None) as (oa' & ob' & E & HA & HB);
    [apply replicate_length|exact I|].
  destruct ob'; [destruct HB|]. destruct oa' as [n|]; [|destruct HA]. destruct HA as [Hl HA]. rewrite replicate_length in Hl.
  assert (Hd : forall qs a, deposit_all exact ncell gdim fD fC (a, None) qs = deposit_all exact ncell gdim fD fC' (a, None) qs).
  { induction qs as [|q qs IH]; intros a; [reflexivity|]. cbn [deposit_all]. unfold deposit. cbn [fst snd].
    destruct a as [a|]; [|apply IH]. destruct (interpolate_delta _ _ _ _ _ _); [apply IH|reflexivity]. }
  exists s', n. split; [|split; [exact Hl|]].
  - unfold accumulate. rewrite Hf, fold_deposit, Hbs, map_map. cbn [seen default]. rewrite map_id, Hd, E. reflexivity.
  - assert (En : n = map (fun i => Rsum (map (fun p => pw p * spread fD gdim i p) ps)) (seq 0 ndof)).
    { apply at_ext; [rewrite map_length, seq_length; exact Hl|]. intros i Hi. rewrite HA, at_zero, Rplus_0_l. unfold at_.
      rewrite (nth_indep _ 0 (Rsum (map (fun p => pw p * spread fD gdim 0%nat p) ps))) by (rewrite map_length, seq_length; lia).
      rewrite (map_nth (fun i => Rsum (map (fun p => pw p * spread fD gdim i p) ps))), seq_nth by lia. reflexivity. }
    rewrite En. by apply (spread_total fD ncell).
Qed.

(** The order of the particles does not matter: two containers with the same particles in different order give the same
    arrays, from the same starting arrays. *)
Theorem C31_order (L : Z) ncell gdim ndof vol junk fD fC d s1 s2 ps qs oa ob : (1 <= L)%Z ->
  DofSpace fD ncell ndof -> CellSpace fC ncell d -> (forall c : nat, (c < ncell)%nat -> exists v, vol (Z.of_nat c) = Some v) ->
  Counted L s1 ps -> Counted L s2 qs -> ps ≡ₚ qs -> InMesh ncell ps -> OptLen ndof oa -> OptLen ncell ob ->
  exists s1' s2' out, accumulate exact ncell gdim vol junk fD fC s1 oa ob = Ok (s1', out) /\
    accumulate exact ncell gdim vol junk fD fC s2 oa ob = Ok (s2', out).
Proof.
  intros HL HD HC Hv H1 H2 Hp Hm Ha Hb.
  assert (Hm2 : InMesh ncell qs) by (intros q Hq; apply Hm; by rewrite Hp).
  destruct (C31_accumulate L ncell gdim ndof vol junk fD fC d s1 ps oa ob HL HD HC Hv H1 Hm Ha Hb) as (s1' & a1 & b1 & E1 & _ & HA1 & HB1).
  destruct (C31_accumulate L ncell gdim ndof vol junk fD fC d s2 qs oa ob HL HD HC Hv H2 Hm2 Ha Hb) as (s2' & a2 & b2 & E2 & _ & HA2 & HB2).
  exists s1', s2', (a1, b1). split; [exact E1|]. rewrite E2. do 3 f_equal.
  - destruct oa as [a|], a1 as [a1|], a2 as [a2|]; cbn in HA1, HA2; try contradiction; [|reflexivity]. f_equal.
    destruct HA1 as [L1 HA1], HA2 as [L2 HA2]. apply at_ext; [congruence|]. intros i _. rewrite HA1, HA2. f_equal.
    apply Rsum_perm. by rewrite Hp.
  - destruct ob as [b|], b1 as [b1|], b2 as [b2|]; cbn in HB1, HB2; try contradiction; [|reflexivity]. f_equal.
    destruct HB1 as [L1 HB1], HB2 as [L2 HB2]. apply at_ext; [congruence|]. intros i Hi. rewrite L2 in Hi.
    destruct (cell_of fC ncell d i HC Hi) as (c & Hc & <-). destruct (Hv c Hc) as [v Ev].
    rewrite (HB1 c v Hc Ev), (HB2 c v Hc Ev). do 2 f_equal. unfold cell_weight, total_weight. apply Rsum_perm. by rewrite Hp.
Qed.

(** The version that is to call C++ fails with a NameError as soon as there is a particle or a cell density is asked for. *)
Theorem C31_cpp_version (L : Z) s ps hasD hasC : (1 <= L)%Z -> Counted L s ps ->
  (accumulate_CPP s hasD hasC = Raise NameError <-> hasC = true \/ (hasD = true /\ ps <> [])) /\
  (hasC = false -> hasD = false \/ ps = [] -> exists s', accumulate_CPP s hasD hasC = Ok s' /\ Counted L s' ps).
Proof.
  intros HL Hs. destruct (counted_loop L HL s ps Hs) as (s' & bs & Hs' & Hf & Hbs & Hne). unfold accumulate_CPP. rewrite Hf.
  assert (Hfold : fold_blocks (fun (_ : unit) _ _ => if hasD || hasC then Raise NameError else Ok tt) tt bs =
    if (hasD || hasC) && negb (bool_decide (ps = [])) then Raise NameError else Ok tt).
  { clear - Hbs Hne. destruct ps as [|p ps].
    - destruct bs as [|b bs]; [by rewrite bool_decide_true, andb_false_r by reflexivity|]. exfalso.
      inversion_clear Hne as [|? ? Hb _]. destruct b; [by apply Hb|discriminate].
    - rewrite bool_decide_false by discriminate. rewrite andb_true_r. destruct (hasD || hasC) eqn:E.
      + destruct bs as [|b bs]; [discriminate|]. reflexivity.
      + clear Hbs Hne. induction bs as [|b bs IH]; [reflexivity|]. exact IH. }
  rewrite Hfold. split.
  - destruct hasC; [split; [by left|]; intros _; by destruct (_ && _)|]. rewrite orb_false_r. destruct hasD.
    + destruct ps; [rewrite bool_decide_true by reflexivity|rewrite bool_decide_false by discriminate]; cbn.
      * split; [discriminate|intros [|[_ H]]; [discriminate|by destruct H]].
      * split; [intros _; right; split; [reflexivity|discriminate]|reflexivity].
    + cbn. split; [discriminate|intros [|[H _]]; discriminate].
  - intros -> H. exists s'. split; [|exact Hs']. rewrite orb_false_r. destruct H as [->| ->]; [reflexivity|].
    rewrite bool_decide_true, andb_false_r by reflexivity. reflexivity.
Qed.

(** A species that died out still has a density: two particles of weight 2 and 3 in cell 0 went through a pass and were
    then deleted, and the cell gets the density of a weight of 6. *)
Theorem C31_died_out_refuted :
  exists (s : sap particle), Reachable 2 s /\ Stores s [] /\
    forall junk fD v, v <> 0 -> exists s' n, accumulate exact 1 1 (fun _ => Some v) junk fD (FSpace (fun _ => [0%nat]) (fun _ _ => []))
      s None (Some [0]) = Ok (s', (None, Some n)) /\ at_ n 0 * v = 6.
Proof.
  set (h := [Push (sp 2 1 0); Push (sp 3 0 1); Pass (fun p => p) (fun _ => false); Pass (fun p => p) (fun _ => true)]).
  exists (snd (run py_step (sap_init 2) h)). split; [|split].
  - apply (run_reach 2 h (sap_init 2) [OPos 0 0; OPos 1 1; ODone; ODone]); [constructor|]. cbv -[sp]. reflexivity.
  - split; [cbv -[sp]; reflexivity|]. intros k x Hk. by rewrite lookup_nil in Hk.
  - intros junk fD v Hv.
    assert (E : forall b (st : option (list R) * option (list R)), exists s', for_out b (snd (run py_step (sap_init 2) h)) st =
      let! st1 := b st 2%Z [Some (sp 3 0 1); Some (sp 3 0 1)] in Ok (s', st1)).
    { intros b st. eexists. cbv -[sp Rplus IZR]. destruct (b _ _ _); reflexivity. }
    unfold accumulate. match goal with |- context [for_out ?b _ ?st] => destruct (E b st) as [s' ->] end.
    exists s'. eexists. split; [cbv -[sp Rplus Rdiv IZR exact pw]; reflexivity|]. unfold at_, exact, sp. cbn [nth pw]. field. exact Hv.
Qed.

(** ** C32 *)

(** [n] calls of [accumulate_number_density] for the cell density, without setting it to zero in between. *)
Fixpoint calls (n : nat) ncell gdim vol junk fD fC (s : sap particle) (b : option (list R)) : res (sap particle * option (list R)) :=
  match n with
  | O => Ok (s, b)
  | S k => let! (s1, (_, b1)) := accumulate exact ncell gdim vol junk fD fC s None b in calls k ncell gdim vol junk fD fC s1 b1
  end.

(** After [n] calls the weight of the cell was divided once by the volume, once by its square, and so on. *)
Theorem C32_repeated (L : Z) ncell gdim vol (vl : nat -> R) junk fD fC d s ps n : (1 <= L)%Z ->
  CellSpace fC ncell d -> (forall c : nat, (c < ncell)%nat -> vol (Z.of_nat c) = Some (vl c) /\ vl c <> 0) ->
  Counted L s ps -> InMesh ncell ps ->
  exists s' b, calls n ncell gdim vol junk fD fC s (Some (replicate ncell 0)) = Ok (s', Some b) /\ Counted L s' ps /\
    length b = ncell /\ forall c, (c < ncell)%nat ->
    at_ b (d c) = Rsum (map (fun k => cell_weight (Z.of_nat c) ps / vl c ^ k) (seq 1 n)).
Proof.
  intros HL HC Hv Hs Hm.
  assert (forall n s b0 (g : nat -> R), Counted L s ps -> length b0 = ncell -> (forall c, (c < ncell)%nat -> at_ b0 (d c) = g c) ->
    exists s' b, calls n ncell gdim vol junk fD fC s (Some b0) = Ok (s', Some b) /\ Counted L s' ps /\ length b = ncell /\
    forall c, (c < ncell)%nat -> at_ b (d c) = g c / vl c ^ n + Rsum (map (fun k => cell_weight (Z.of_nat c) ps / vl c ^ k) (seq 1 n))) as H.
  { clear n s Hs. induction n as [|n IH]; intros s b0 g Hs Hl Hg.
    - exists s, b0. split; [reflexivity|]. split; [exact Hs|]. split; [exact Hl|]. intros c Hc. rewrite Hg by exact Hc. cbn. field.
    - destruct (accumulate_cells L ncell gdim vol vl junk fD fC d s ps b0 HL HC (fun c Hc => proj1 (Hv c Hc)) Hs Hm Hl) as (s1 & b1 & E & Hs1 & Hl1 & H1).
      cbn [calls]. rewrite E.
      destruct (IH s1 b1 (fun c => (g c + cell_weight (Z.of_nat c) ps) / vl c) Hs1 Hl1) as (s' & b & E' & Hs' & Hl' & H2).
      { intros c Hc. rewrite H1 by exact Hc. by rewrite Hg. }
      exists s', b. split; [exact E'|]. split; [exact Hs'|]. split; [exact Hl'|]. intros c Hc. rewrite H2 by exact Hc.
      destruct (Hv c Hc) as [_ Hnz]. rewrite (seq_S n 1), map_app, Rsum_app. cbn [map]. rewrite Rsum_cons, Rsum_nil.
      change (1 + n)%nat with (S n). rewrite <- !tech_pow_Rmult. assert (vl c ^ n <> 0) by (by apply pow_nonzero). field. split; assumption. }
  destruct (H n s (replicate ncell 0) (fun _ => 0) Hs ltac:(apply replicate_length)) as (s' & b & E & Hs' & Hl' & Hb).
  { intros c _. apply at_zero. }
  exists s', b. split; [exact E|]. split; [exact Hs'|]. split; [exact Hl'|]. intros c Hc. rewrite Hb by exact Hc.
  destruct (Hv c Hc) as [_ Hnz]. assert (vl c ^ n <> 0) by (by apply pow_nonzero). field. assumption.
Qed.

(** Two calls: the sum of the two densities, or the density itself, is what one gets only when the volume is one or the
    cell is empty. *)
Theorem C32_twice (L : Z) ncell gdim vol (vl : nat -> R) junk fD fC d s ps : (1 <= L)%Z ->
  CellSpace fC ncell d -> (forall c : nat, (c < ncell)%nat -> vol (Z.of_nat c) = Some (vl c) /\ vl c <> 0) ->
  Counted L s ps -> InMesh ncell ps ->
  exists s1 b1 s2 b2,
    accumulate exact ncell gdim vol junk fD fC s None (Some (replicate ncell 0)) = Ok (s1, (None, Some b1)) /\
    accumulate exact ncell gdim vol junk fD fC s1 None (Some b1) = Ok (s2, (None, Some b2)) /\
    forall c, (c < ncell)%nat ->
      (at_ b2 (d c) = 2 * at_ b1 (d c) <-> vl c = 1 \/ cell_weight (Z.of_nat c) ps = 0) /\
      (at_ b2 (d c) = at_ b1 (d c) <-> cell_weight (Z.of_nat c) ps = 0).
Proof.
  intros HL HC Hv Hs Hm.
  destruct (accumulate_cells L ncell gdim vol vl junk fD fC d s ps (replicate ncell 0) HL HC (fun c Hc => proj1 (Hv c Hc)) Hs Hm)
    as (s1 & b1 & E1 & Hs1 & Hl1 & H1); [apply replicate_length|].
  destruct (accumulate_cells L ncell gdim vol vl junk fD fC d s1 ps b1 HL HC (fun c Hc => proj1 (Hv c Hc)) Hs1 Hm Hl1)
    as (s2 & b2 & E2 & _ & _ & H2).
  exists s1, b1, s2, b2. split; [exact E1|]. split; [exact E2|]. intros c Hc. destruct (Hv c Hc) as [_ Hnz].
  rewrite (H2 c Hc), (H1 c Hc), at_zero. set (w := cell_weight _ _). set (v := vl c) in *.
  assert (Hq : ((0 + w) / v + w) / v - 2 * ((0 + w) / v) = w * (1 - v) / (v * v)) by (field; exact Hnz).
  assert (Hq1 : ((0 + w) / v + w) / v - (0 + w) / v = w / (v * v)) by (field; exact Hnz).
  assert (Hz : forall x, x / (v * v) = 0 -> x = 0).
  { intros x Hx. replace x with (x / (v * v) * (v * v)) by (field; exact Hnz). rewrite Hx. ring. }
  split; split; intros H.
  - assert (w * (1 - v) = 0) as Hp by (apply Hz; lra). apply Rmult_integral in Hp as [?|?]; [by right|left; lra].
  - enough (w * (1 - v) / (v * v) = 0) by lra. replace (w * (1 - v)) with 0 by (destruct H as [-> | ->]; ring). unfold Rdiv. ring.
  - apply Hz. lra.
  - enough (w / (v * v) = 0) by lra. rewrite H. unfold Rdiv. ring.
Qed.

(** With both fields set to zero in between, a second call gives the same arrays again. *)
Theorem C32_zeroed (L : Z) ncell gdim ndof vol junk fD fC d s ps : (1 <= L)%Z ->
  DofSpace fD ncell ndof -> CellSpace fC ncell d -> (forall c : nat, (c < ncell)%nat -> exists v, vol (Z.of_nat c) = Some v) ->
  Counted L s ps -> InMesh ncell ps ->
  exists s1 s2 out,
    accumulate exact ncell gdim vol junk fD fC s (Some (replicate ndof 0)) (Some (replicate ncell 0)) = Ok (s1, out) /\
    accumulate exact ncell gdim vol junk fD fC s1 (Some (replicate ndof 0)) (Some (replicate ncell 0)) = Ok (s2, out).
Proof.
  intros HL HD HC Hv Hs Hm.
  destruct (C31_accumulate L ncell gdim ndof vol junk fD fC d s ps (Some (replicate ndof 0)) (Some (replicate ncell 0)) HL HD HC Hv Hs Hm)
    as (s1 & a1 & b1 & E1 & Hs1 & _); [apply replicate_length|apply replicate_length|].
  destruct (C31_order L ncell gdim ndof vol junk fD fC d s s1 ps ps (Some (replicate ndof 0)) (Some (replicate ncell 0)) HL HD HC Hv Hs Hs1)
    as (s1' & s2 & out & Ea & Eb); [reflexivity|exact Hm|apply replicate_length|apply replicate_length|].
  rewrite E1 in Ea. injection Ea as <- <-. exists s1, s2, (a1, b1). split; [exact E1|exact Eb].
Qed.

(** ** C33 *)

(** The charge density of the species, at one place. *)
Definition charge_at (names : list string) (charge : string -> R) (n : string -> list R) (i : nat) : R :=
  Rsum (map (fun sn => charge sn * at_ (n sn) i) names).

Lemma multiply_add_ok a b q : length a = length b ->
  exists c, multiply_add exact a b q = Ok c /\ length c = length a /\ forall i, at_ c i = at_ a i + q * at_ b i.
Proof.
  intros Hl. unfold multiply_add. rewrite Hl, Nat.eqb_refl. eexists. split; [reflexivity|].
  rewrite zip_with_length, Hl, Nat.min_id. split; [reflexivity|]. intros i. unfold at_, exact. rewrite !nth_lookup, lookup_zip_with.
  destruct (a !! i) as [x|] eqn:Ea.
  - destruct (lookup_lt_is_Some_2 b i) as [y Hy]; [rewrite <- Hl; by eapply lookup_lt_Some|]. rewrite Hy. reflexivity.
  - rewrite (lookup_ge_None_2 b i) by (rewrite <- Hl; by apply lookup_ge_None). cbn. lra.
Qed.

(** Every entry grows by the sum over the species of charge times number density. *)
Theorem C33_charge names charge dens n rho : (forall sn, sn ∈ names -> dens sn = Some (n sn) /\ length (n sn) = length rho) ->
  exists rho', charge_density exact names charge dens rho = Ok rho' /\ length rho' = length rho /\
    forall i, at_ rho' i = at_ rho i + charge_at names charge n i.
Proof.
  revert rho. induction names as [|sn names IH]; intros rho H.
  - exists rho. split; [reflexivity|]. split; [reflexivity|]. intros i. unfold charge_at. cbn. lra.
  - cbn [charge_density]. destruct (H sn ltac:(left)) as [-> Hl]. destruct (multiply_add_ok rho (n sn) (charge sn) ltac:(congruence)) as (r1 & -> & Hl1 & H1).
    destruct (IH r1) as (r2 & E & Hl2 & H2); [intros s Hs; rewrite Hl1; apply H; by right|].
    exists r2. split; [exact E|]. split; [congruence|]. intros i. rewrite H2, H1. unfold charge_at. cbn [map]. rewrite Rsum_cons. lra.
Qed.

(** The order of the species does not matter, and a second call adds the same again. *)
Theorem C33_order names names' charge dens n rho : names ≡ₚ names' ->
  (forall sn, sn ∈ names -> dens sn = Some (n sn) /\ length (n sn) = length rho) ->
  exists rho1 rho2, charge_density exact names charge dens rho = Ok rho1 /\ charge_density exact names' charge dens rho = Ok rho1 /\
    charge_density exact names' charge dens rho1 = Ok rho2 /\ forall i, at_ rho2 i - at_ rho1 i = at_ rho1 i - at_ rho i.
Proof.
  intros Hp H. assert (H' : forall sn, sn ∈ names' -> dens sn = Some (n sn) /\ length (n sn) = length rho) by (intros sn Hs; apply H; by rewrite Hp).
  destruct (C33_charge names charge dens n rho H) as (r1 & E1 & L1 & H1). destruct (C33_charge names' charge dens n rho H') as (r1' & E1' & L1' & H1').
  assert (Hq : forall i, charge_at names charge n i = charge_at names' charge n i) by (intros i; apply Rsum_perm; by rewrite Hp).
  assert (r1' = r1) as ->.
  { apply at_ext; [congruence|]. intros i _. rewrite H1, H1', Hq. reflexivity. }
  destruct (C33_charge names' charge dens n r1) as (r2 & E2 & L2 & H2).
  { intros sn Hs. rewrite L1. by apply H'. }
  exists r1, r2. split; [exact E1|]. split; [exact E1'|]. split; [exact E2|]. intros i. rewrite H2, H1'. lra.
Qed.

(** When it fails: the first species whose density is missing, or has neither one value nor as many as the charge density. *)
Theorem C33_errors names charge dens rho : (length rho <> 1)%nat ->
  (exists rho', charge_density exact names charge dens rho = Ok rho') <->
  forall sn, sn ∈ names -> exists n, dens sn = Some n /\ (length n = length rho \/ length n = 1%nat).
Proof.
  intros H1. revert rho H1. induction names as [|sn names IH]; intros rho H1.
  - split; [intros _ sn Hs; inversion Hs|intros _; by exists rho].
  - cbn [charge_density]. destruct (dens sn) as [n|] eqn:En.
    + destruct (decide (length n = length rho \/ length n = 1%nat)) as [Hl|Hl].
      * assert (exists r1, multiply_add exact rho n (charge sn) = Ok r1 /\ length r1 = length rho) as (r1 & -> & Hr1).
        { unfold multiply_add. destruct Hl as [Hl|Hl].
          - rewrite Hl, Nat.eqb_refl. eexists. split; [reflexivity|]. rewrite zip_with_length. lia.
          - destruct n as [|y [|]]; try discriminate Hl. destruct (Nat.eqb_spec (length rho) (length [y])) as [E|E]; [exfalso; apply H1; rewrite E; reflexivity|].
            eexists. split; [reflexivity|]. apply map_length. }
        cbv beta match. rewrite IH by (rewrite Hr1; exact H1). rewrite Hr1. split.
        -- intros H s Hs. apply elem_of_cons in Hs as [->|Hs]; [by exists n|by apply H].
        -- intros H s Hs. apply H. by right.
      * assert (multiply_add exact rho n (charge sn) = Raise ValueError) as ->.
        { unfold multiply_add. destruct (Nat.eqb_spec (length rho) (length n)); [exfalso; apply Hl; left; lia|].
          destruct n as [|y [|]]; try reflexivity. exfalso. apply Hl. by right. }
        split; [intros [? ?]; discriminate|]. intros H. destruct (H sn ltac:(left)) as (n' & E & Hn'). rewrite En in E. injection E as <-.
        exfalso. exact (Hl Hn').
    + split; [intros [? ?]; discriminate|]. intros H. destruct (H sn ltac:(left)) as (n' & E & _). rewrite En in E. discriminate.
Qed.

(** The density update of a time step: whatever the order of the species, the assembled charge at a degree of freedom is the
    sum over all particles of charge times weight times the value of the basis function, and each species' cell density is the
    weight of its particles in the cell over the volume of the cell. *)
Theorem C33_assembled_charge (L : Z) ncell gdim ndof vol (vl : nat -> R) junk fD fC d charge names saps xs : (1 <= L)%Z ->
  DofSpace fD ncell ndof -> CellSpace fC ncell d -> (forall c : nat, (c < ncell)%nat -> vol (Z.of_nat c) = Some (vl c)) ->
  NoDup names -> (forall sn, sn ∈ names -> Counted L (saps sn) (xs sn) /\ InMesh ncell (xs sn)) ->
  exists saps' rho dofs cells,
    density_update exact ncell gdim vol junk fD fC charge names ndof saps = Ok (saps', rho, dofs, cells) /\
    (forall sn, sn ∈ names -> Counted L (saps' sn) (xs sn)) /\ length rho = ndof /\
    (forall i, at_ rho i = Rsum (map (fun sn => charge sn * Rsum (map (fun p => pw p * spread fD gdim i p) (xs sn))) names)) /\
    (forall sn i, sn ∈ names -> at_ (dofs sn) i = Rsum (map (fun p => pw p * spread fD gdim i p) (xs sn))) /\
    (forall sn c, sn ∈ names -> (c < ncell)%nat -> at_ (cells sn) (d c) = cell_weight (Z.of_nat c) (xs sn) / vl c).
Proof.
  intros HL HD HC Hv Hnd Hpop. unfold density_update.
  assert (forall rho dofs cells, length rho = ndof -> (forall sn, sn ∈ names -> dofs sn = replicate ndof 0 /\ cells sn = replicate ncell 0) ->
    exists saps' rho' dofs' cells',
      density_species exact ncell gdim vol junk fD fC charge names saps rho dofs cells = Ok (saps', rho', dofs', cells') /\
      (forall sn, sn ∈ names -> Counted L (saps' sn) (xs sn)) /\ length rho' = ndof /\
      (forall i, at_ rho' i = at_ rho i + Rsum (map (fun sn => charge sn * Rsum (map (fun p => pw p * spread fD gdim i p) (xs sn))) names)) /\
      (forall sn i, sn ∈ names -> at_ (dofs' sn) i = Rsum (map (fun p => pw p * spread fD gdim i p) (xs sn))) /\
      (forall sn c, sn ∈ names -> (c < ncell)%nat -> at_ (cells' sn) (d c) = cell_weight (Z.of_nat c) (xs sn) / vl c) /\
      (forall sn, sn ∉ names -> saps' sn = saps sn /\ dofs' sn = dofs sn /\ cells' sn = cells sn)) as H.
  { revert saps Hpop. induction names as [|sn names IH]; intros saps Hpop rho dofs cells Hl Hz.
    - exists saps, rho, dofs, cells. split; [reflexivity|]. split; [intros sn Hs; inversion Hs|]. split; [exact Hl|]. split; [intros i; cbn; lra|].
      split; [intros sn i Hs; inversion Hs|]. split; [intros sn c Hs; inversion Hs|]. intros sn _. done.
    - inversion_clear Hnd as [|? ? Hni Hnd']. cbn [density_species]. destruct (Hz sn ltac:(left)) as [-> ->]. destruct (Hpop sn ltac:(left)) as [Hs Hm].
      destruct (C31_accumulate L ncell gdim ndof vol junk fD fC d (saps sn) (xs sn) (Some (replicate ndof 0)) (Some (replicate ncell 0)) HL HD HC)
        as (s1 & oa & ob & E & Hs1 & HA & HB);
        [intros c Hc; eexists; apply (Hv c Hc)|exact Hs|exact Hm|apply replicate_length|apply replicate_length|].
      destruct oa as [a|]; [|destruct HA]. destruct ob as [b|]; [|destruct HB]. cbn in HA, HB. destruct HA as [La HA], HB as [Lb HB].
      rewrite E. cbv beta iota zeta. destruct (multiply_add_ok rho a (charge sn) ltac:(congruence)) as (r1 & Er & Lr & Hr). unfold from_option, Datatypes.id. rewrite Er. cbv beta iota.
      destruct (IH Hnd' (set_key saps sn s1)) with (rho := r1) (dofs := set_key dofs sn a) (cells := set_key cells sn b)
        as (saps' & r2 & dofs' & cells' & E2 & G1 & G2 & G3 & G4 & G5 & G6).
      + intros s Hss. unfold set_key. destruct (decide (s = sn)) as [->|Hne]; [contradiction|].
        rewrite ?bool_decide_false, ?decide_False by congruence. destruct (String.eqb_spec s sn) as [->|]; [contradiction|]. apply Hpop. by right.
      + congruence.
      + intros s Hss. unfold set_key. destruct (String.eqb_spec s sn) as [->|]; [contradiction|]. apply Hz. by right.
      + exists saps', r2, dofs', cells'. split; [exact E2|]. destruct (G6 sn Hni) as (K1 & K2 & K3). unfold set_key in K1, K2, K3.
        rewrite String.eqb_refl in K1, K2, K3. split; [|split; [exact G2|split; [|split; [|split]]]].
        * intros s Hss. apply elem_of_cons in Hss as [->|Hss]; [by rewrite K1|by apply G1].
        * intros i. rewrite G3, Hr, HA, at_zero. rewrite map_cons, Rsum_cons. lra.
        * intros s i Hss. apply elem_of_cons in Hss as [->|Hss]; [|by apply G4]. rewrite K2, HA, at_zero. lra.
        * intros s c Hss Hc. apply elem_of_cons in Hss as [->|Hss]; [|by apply G5]. rewrite K3, (HB c (vl c) Hc (Hv c Hc)), at_zero. by rewrite Rplus_0_l.
        * intros s Hss. destruct (G6 s) as (-> & -> & ->); [intros Hq; apply Hss; by right|]. unfold set_key.
          destruct (String.eqb_spec s sn) as [->|]; [exfalso; apply Hss; left|done]. }
  destruct (H (replicate ndof 0) (fun _ => replicate ndof 0) (fun _ => replicate ncell 0)) as (saps' & r & dofs' & cells' & E & G1 & G2 & G3 & G4 & G5 & _);
    [apply replicate_length|done|].
  exists saps', r, dofs', cells'. split; [exact E|]. split; [exact G1|]. split; [exact G2|]. split; [|split; [exact G4|exact G5]].
  intros i. rewrite G3, at_zero. lra.
Qed.

(** The assembled charge of all degrees of freedom is the charge of all particles. *)
Theorem C33_total_charge (L : Z) ncell gdim ndof vol (vl : nat -> R) junk fD fC d charge names saps xs : (1 <= L)%Z ->
  DofSpace fD ncell ndof -> (forall (c : nat) x, (c < ncell)%nat -> Rsum (fs_basis fD (Z.of_nat c) x) = 1) ->
  CellSpace fC ncell d -> (forall c : nat, (c < ncell)%nat -> vol (Z.of_nat c) = Some (vl c)) ->
  NoDup names -> (forall sn, sn ∈ names -> Counted L (saps sn) (xs sn) /\ InMesh ncell (xs sn)) ->
  exists saps' rho dofs cells,
    density_update exact ncell gdim vol junk fD fC charge names ndof saps = Ok (saps', rho, dofs, cells) /\
    Rsum rho = Rsum (map (fun sn => charge sn * total_weight (xs sn)) names).
Proof.
  intros HL HD Hone HC Hv Hnd Hpop.
  destruct (C33_assembled_charge L ncell gdim ndof vol vl junk fD fC d charge names saps xs HL HD HC Hv Hnd Hpop)
    as (saps' & rho & dofs & cells & E & _ & Hl & Hr & _).
  exists saps', rho, dofs, cells. split; [exact E|].
  assert (rho = map (fun i => Rsum (map (fun sn => charge sn * Rsum (map (fun p => pw p * spread fD gdim i p) (xs sn))) names)) (seq 0 ndof)) as ->.
  { apply at_ext; [rewrite map_length, seq_length; exact Hl|]. intros i Hi. rewrite Hr. unfold at_.
    erewrite nth_indep by (rewrite map_length, seq_length; lia).
    rewrite (map_nth (fun i => Rsum (map (fun sn => charge sn * Rsum (map (fun p => pw p * spread fD gdim i p) (xs sn))) names)) _ 0%nat), seq_nth by lia.
    reflexivity. }
  rewrite Rsum_swap. f_equal. apply map_ext_in. intros sn Hsn%elem_of_list_In. rewrite Rsum_map_scale. f_equal.
  apply (spread_total fD ncell); [exact HD|exact Hone|apply Hpop; exact Hsn].
Qed.

(** ** Examples *)

(** A mesh of two cells of volume 2 and 4 on the line, vertices 0, 1, 2; piecewise linear degrees of freedom at the vertices
    (with the coordinate relative to the cell), and one degree of freedom per cell, numbered backwards. *)
Definition eg_D : fspace := FSpace (fun c => [Z.to_nat c; S (Z.to_nat c)]) (fun c x => [1 - (nth 0 x 0 - IZR c); nth 0 x 0 - IZR c]).
Definition eg_C : fspace := FSpace (fun c => [(1 - Z.to_nat c)%nat]) (fun _ _ => [1]).
Definition eg_vol (c : Z) : option R := if (c =? 0)%Z then Some 2 else if (c =? 1)%Z then Some 4 else None.
Definition dp (x w : R) (c : Z) : particle := set_pcell (Particle [x] [x] [0] w 0 0 0 0) c.
Lemma eg_DofSpace : DofSpace eg_D 2 3.
Proof.
  intros c Hc. cbn. rewrite Nat2Z.id. split; [|split; [|reflexivity]].
  - constructor; [intros H; apply elem_of_list_singleton in H; lia|]. apply NoDup_singleton.
  - intros i Hi. apply elem_of_cons in Hi as [->|Hi%elem_of_list_singleton]; lia.
Qed.
Lemma eg_CellSpace : CellSpace eg_C 2 (fun c => (1 - c)%nat).
Proof. intros c Hc. cbn. rewrite Nat2Z.id. split; [reflexivity|]. split; [lia|]. intros c' Hc' H. lia. Qed.
Definition eg_ps : list particle := [dp (1/2) 8 0; dp (5/4) 4 1; dp (1/4) 4 0].
Definition eg_push : list (op particle) := map Push eg_ps.
Lemma eg_counted : Counted 2 (snd (run py_step (sap_init 2) eg_push)) eg_ps.
Proof.
  split; [|split; [split|intros H; discriminate H]].
  - apply (run_reach 2 eg_push (sap_init 2) [OPos 0 0; OPos 1 1; OPos 0 2]); [constructor|]. cbv -[IZR]. reflexivity.
  - cbv -[IZR]. reflexivity.
  - intros k x Hk. destruct k as [|[|[|k]]]; cbn in Hk; try discriminate Hk; injection Hk as <-; cbv -[IZR]; reflexivity.
Qed.
Lemma eg_InMesh : InMesh 2 eg_ps.
Proof. intros p Hp. repeat (apply elem_of_cons in Hp as [->|Hp]; [cbn; lia|]). inversion Hp. Qed.

Lemma eg_W0 : cell_weight 0 eg_ps = 12.
Proof.
  unfold cell_weight, eg_ps. rewrite filter_cons_True by reflexivity. rewrite filter_cons_False by discriminate.
  rewrite filter_cons_True by reflexivity. rewrite filter_nil. unfold total_weight, Rsum. cbn. lra.
Qed.
Lemma eg_W1 : cell_weight 1 eg_ps = 4.
Proof.
  unfold cell_weight, eg_ps. rewrite filter_cons_False by discriminate. rewrite filter_cons_True by reflexivity.
  rewrite filter_cons_False by discriminate. rewrite filter_nil. unfold total_weight, Rsum. cbn. lra.
Qed.

(** The densities of the three particles: 12/2 in cell 0 and 4/4 in cell 1; at the vertices 7, 8 and 1, together 16; after a
    second call without zeroing 9 instead of 12 in cell 0. *)
Example C31_example junk : exists s1 a b s2 b2,
  accumulate exact 2 1 eg_vol junk eg_D eg_C (snd (run py_step (sap_init 2) eg_push)) (Some [0; 0; 0]) (Some [0; 0]) = Ok (s1, (Some a, Some b)) /\
  at_ b 1 = 6 /\ at_ b 0 = 1 /\ at_ a 0 = 7 /\ at_ a 1 = 8 /\ at_ a 2 = 1 /\
  accumulate exact 2 1 eg_vol junk eg_D eg_C s1 None (Some b) = Ok (s2, (None, Some b2)) /\ at_ b2 1 = 9.
Proof.
  destruct (C31_accumulate 2 2 1 3 eg_vol junk eg_D eg_C _ (snd (run py_step (sap_init 2) eg_push)) eg_ps (Some [0; 0; 0]) (Some [0; 0]) ltac:(lia) eg_DofSpace eg_CellSpace)
    as (s1 & oa & ob & E & Hs1 & HA & HB).
  - intros [|[|c]] Hc; [eexists; reflexivity..|lia].
  - exact eg_counted.
  - exact eg_InMesh.
  - reflexivity.
  - reflexivity.
  - destruct oa as [a|]; [|destruct HA]. destruct ob as [b|]; [|destruct HB]. cbn [Opt] in HA, HB. destruct HA as [_ HA], HB as [Lb HB].
    destruct (accumulate_cells 2 2 1 eg_vol (fun c => if (c =? 0)%nat then 2 else 4) junk eg_D eg_C _ s1 eg_ps b ltac:(lia) eg_CellSpace)
      as (s2 & b2 & E2 & _ & _ & H2).
    + intros [|[|c]] Hc; [reflexivity..|lia].
    + exact Hs1.
    + exact eg_InMesh.
    + exact Lb.
    + pose proof eg_W0 as W0. pose proof eg_W1 as W1.
      assert (B0 : at_ b 1 = 6).
      { change 1%nat with (1 - 0)%nat. rewrite (HB 0%nat 2 ltac:(lia) eq_refl). change (Z.of_nat 0) with 0%Z. rewrite W0. unfold at_. cbn [nth Nat.sub]. lra. }
      exists s1, a, b, s2, b2. split; [exact E|]. split; [exact B0|]. split.
      { change 0%nat with (1 - 1)%nat. rewrite (HB 1%nat 4 ltac:(lia) eq_refl). change (Z.of_nat 1) with 1%Z. rewrite W1. unfold at_. cbn [nth Nat.sub]. lra. }
      split; [rewrite HA; unfold at_, spread, eg_ps, Rsum; cbn -[IZR Rmult Rplus Rminus]; change (Z.to_nat 1) with 1%nat; change (Z.to_nat 0) with 0%nat; cbn -[IZR Rmult Rplus Rminus]; lra|].
      split; [rewrite HA; unfold at_, spread, eg_ps, Rsum; cbn -[IZR Rmult Rplus Rminus]; change (Z.to_nat 1) with 1%nat; change (Z.to_nat 0) with 0%nat; cbn -[IZR Rmult Rplus Rminus]; lra|].
      split; [rewrite HA; unfold at_, spread, eg_ps, Rsum; cbn -[IZR Rmult Rplus Rminus]; change (Z.to_nat 1) with 1%nat; change (Z.to_nat 0) with 0%nat; cbn -[IZR Rmult Rplus Rminus]; lra|].
      split; [exact E2|]. change 1%nat with (1 - 0)%nat. rewrite (H2 0%nat ltac:(lia)). change (1 - 0)%nat with 1%nat. rewrite B0. change (Z.of_nat 0) with 0%Z. rewrite W0. cbn. lra.
Qed.

(** Two species, charges -1 and 2: a repeated call doubles; a species without a density stops it. *)
Example C33_example :
  exists r1 r2, charge_density exact ["e"%string; "H+"%string] (fun s => if String.eqb s "e"%string then -1 else 2)
    (fun s => if String.eqb s "e"%string then Some [3; 5] else Some [1; 4]) [0; 0] = Ok r1 /\ at_ r1 0 = -1 /\ at_ r1 1 = 3 /\
  charge_density exact ["H+"%string; "e"%string] (fun s => if String.eqb s "e"%string then -1 else 2)
    (fun s => if String.eqb s "e"%string then Some [3; 5] else Some [1; 4]) r1 = Ok r2 /\ at_ r2 0 = -2 /\ at_ r2 1 = 6 /\
  charge_density exact ["e"%string] (fun _ => 1) (fun _ => None) [0; 0] = Raise KeyError.
Proof.
  eexists. eexists. split; [cbv -[IZR Rplus Rmult]; reflexivity|]. unfold at_. cbn [nth]. split; [lra|]. split; [lra|].
  split; [cbv -[IZR Rplus Rmult]; reflexivity|]. cbn [nth]. split; [lra|]. split; [lra|]. reflexivity.
Qed.

Print Assumptions C31_accumulate.
Print Assumptions C31_cells_conserve.
Print Assumptions C31_dofs_conserve.
Print Assumptions C31_order.
Print Assumptions C31_cpp_version.
Print Assumptions C31_died_out_refuted.
Print Assumptions C32_repeated.
Print Assumptions C32_twice.
Print Assumptions C32_zeroed.
Print Assumptions C33_charge.
Print Assumptions C33_order.
Print Assumptions C33_errors.
Print Assumptions C33_assembled_charge.
Print Assumptions C33_total_charge.
