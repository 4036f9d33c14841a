(** C36: cell sets. *)
From stdpp Require Import strings list_numbers.
From Verif Require Import SapModel MoverModel SapProofs SapSpec SapRefine StorageProps.
From Verif Require Import Vec VecProofs TrackModel TrajModel DiagModel DiagProofs SumProps Rounding SourceModel SourceProps RegionModel.
From Verif Require Import LineMeshModel LineMeshProps.
Local Open Scope R_scope.

(** ** What is meant *)

(** The points of a region, with the tolerance [tol].  A ball is cut out by the first coordinate alone. *)
Definition InShape (tol : R) (g : nat) (s : shape) (x : vec) : Prop :=
  match s with
  | Whole => True
  | Rect (Scalar a) (Scalar b) => a - tol <= co x 0 <= b + tol
  | Rect (Tuple a) (Tuple b) => forall i, (i < g)%nat -> co a i - tol <= co x i <= co b i + tol
  | Rect _ _ => False
  | Ball c r => Rabs (co x 0 - c) <= r + tol
  end.
(** A region that fits a mesh with [g] coordinates: numbers as corners in 1D, tuples that are long enough in 2D and 3D. *)
Definition Fits (g : nat) (s : shape) : Prop :=
  match s with
  | Whole => True
  | Rect (Scalar a) (Scalar b) => g = 1%nat
  | Rect (Tuple a) (Tuple b) => (g = 2%nat \/ g = 3%nat) /\ (g <= length a)%nat /\ (g <= length b)%nat
  | Rect _ _ => False
  | Ball c r => True
  end.
(** A mesh as DOLFIN has it: different cells have different numbers, the numbers fit an int32, midpoints are Points, and every cell has a volume. *)
Record MeshOk (m : dmesh) : Prop := {
  mo_nodup : NoDup (map d_index (dm_cells m));
  mo_range : forall c, c ∈ dm_cells m -> (0 <= d_index c < 2 ^ 31)%Z;
  mo_mid : forall c, c ∈ dm_cells m -> length (d_mid c) = 3%nat;
  mo_vol : forall c, c ∈ dm_cells m -> is_Some (dm_volume m (d_index c))
}.
(** The entry of a cell set for a cell of the mesh. *)
Definition Entry (m : dmesh) (c : dcell) (e : srccell) : Prop :=
  c_index e = d_index c /\ Some (c_vol e) = dm_volume m (d_index c) /\ c_mid e = take (dm_gdim m) (d_mid c) /\ c_rad e = d_circ c /\ c_in e = d_contains c.

Lemma co_some (l : vec) i a : l !! i = Some a -> co l i = a.
Proof. intros H. unfold co. apply nth_lookup_Some with (d := 0) in H. exact H. Qed.
Lemma in_range_ok fl x i a b : (i < length x)%nat ->
  in_range fl x i (Ok a) (Ok b) = Ok (negb (Rltb (co x i) (fl (a - region_tol))) && negb (Rltb (fl (b + region_tol)) (co x i))).
Proof.
  intros H. destruct (x !! i) as [xi|] eqn:E; [|apply lookup_ge_None in E; lia]. unfold in_range, ge_lo, le_hi. rewrite E. rewrite (co_some _ _ _ E).
  cbn. destruct (Rltb xi _); reflexivity.
Qed.
Lemma corner_ok l i : (i < length l)%nat -> corner_get (Tuple l) i = Ok (co l i).
Proof. intros H. cbn. destruct (l !! i) as [a|] eqn:E; [by rewrite (co_some _ _ _ E)|apply lookup_ge_None in E; lia]. Qed.
Lemma py_and_ok a b : py_and (Ok a) (Ok b) = Ok (a && b).
Proof. by destruct a. Qed.

(** What [inside] computes on a region that fits, for every rounding. *)
Definition InShapeB (fl : R -> R) (g : nat) (s : shape) (x : vec) : Prop :=
  match s with
  | Whole => True
  | Rect (Scalar a) (Scalar b) => fl (a - region_tol) <= co x 0 <= fl (b + region_tol)
  | Rect (Tuple a) (Tuple b) => forall i, (i < g)%nat -> fl (co a i - region_tol) <= co x i <= fl (co b i + region_tol)
  | Rect _ _ => False
  | Ball c r => fl (fl (c - r) - region_tol) <= co x 0 <= fl (fl (c + r) + region_tol)
  end.
Lemma range_true x a b : negb (Rltb x a) && negb (Rltb b x) = true <-> a <= x <= b.
Proof. rewrite andb_true_iff, !negb_true_iff, !Rltb_false. tauto. Qed.
Lemma inside_ok fl g s x : Fits g s -> length x = 3%nat -> exists b, shape_inside fl g s x = Ok b /\ (b = true <-> InShapeB fl g s x).
Proof.
  intros HF Hx. destruct s as [|[a|a] [b|b]|c r]; cbn [Fits] in HF; try contradiction.
  - exists true. split; [done|]. cbn. tauto.
  - subst g. eexists. split; [cbn [shape_inside rect_inside corner_num]; apply in_range_ok; lia|]. cbn [InShapeB]. apply range_true.
  - destruct HF as [[-> | ->] [Ha Hb]]; cbn [shape_inside rect_inside]; rewrite !corner_ok by lia; rewrite !in_range_ok by lia; rewrite !py_and_ok;
      eexists; (split; [reflexivity|]); cbn [InShapeB]; rewrite !andb_true_iff, !negb_true_iff, !Rltb_false.
    + split; [intros [[? ?] [? ?]] [|[|i]] Hi; [lra|lra|lia]|]. intros H. pose proof (H 0%nat ltac:(lia)). pose proof (H 1%nat ltac:(lia)). lra.
    + split; [intros [[? ?] [[? ?] [? ?]]] [|[|[|i]]] Hi; [lra|lra|lra|lia]|]. intros H. pose proof (H 0%nat ltac:(lia)). pose proof (H 1%nat ltac:(lia)). pose proof (H 2%nat ltac:(lia)). lra.
  - destruct (x !! 0%nat) as [a|] eqn:E; [|apply lookup_ge_None in E; lia]. cbn [shape_inside sphere_inside]. rewrite E, py_and_ok. eexists. split; [reflexivity|].
    cbn [InShapeB]. rewrite (co_some _ _ _ E). apply range_true.
Qed.
Lemma exact_shape g s x : InShapeB exact g s x <-> InShape region_tol g s x.
Proof.
  destruct s as [|[a|a] [b|b]|c r]; cbn; unfold exact; try tauto. split; [intros H|intros H].
  - apply Rabs_le. lra.
  - revert H. unfold Rabs. destruct (Rcase_abs _); lra.
Qed.

Lemma sublist_in {A} (l k : list A) x : sublist l k -> x ∈ l -> x ∈ k.
Proof. intros H Hx. by apply (elem_of_submseteq l k x Hx), sublist_submseteq. Qed.
Lemma choose_ok fl g s cs : Fits g s -> (forall c, c ∈ cs -> length (d_mid c) = 3%nat) -> exists sel, choose_cells fl g s cs = Ok sel /\ sublist sel cs /\
  (forall c, c ∈ cs -> c ∈ sel -> InShapeB fl g s (d_mid c)) /\ (forall c, c ∈ cs -> InShapeB fl g s (d_mid c) -> c ∈ sel).
Proof.
  intros HF. induction cs as [|c cs IH]; intros Hm.
  - exists []. split; [done|]. split; [constructor|]. split; intros c Hc; inversion Hc.
  - destruct IH as (sel & E & Hs & H1 & H2); [intros c' Hc'; apply Hm; by right|].
    destruct (inside_ok fl g s (d_mid c) HF) as (b & Eb & Hb); [apply Hm; left|]. cbn [choose_cells]. rewrite Eb, E. eexists. split; [reflexivity|].
    assert (Hsub : forall c', c' ∈ sel -> c' ∈ cs) by (intros c' H'; by eapply sublist_in).
    destruct b.
    + split; [by constructor|]. split.
      * intros c' Hc' Hin. apply elem_of_cons in Hin as [->|Hin]; [by apply Hb|]. apply H1; [by apply Hsub|done].
      * intros c' Hc' Hin. apply elem_of_cons in Hc' as [->|Hc']; [left|right; by apply H2].
    + split; [by constructor|]. split.
      * intros c' _ Hin. apply H1; [by apply Hsub|done].
      * intros c' Hc' Hin. apply elem_of_cons in Hc' as [->|Hc']; [apply Hb in Hin; discriminate|by apply H2].
Qed.
Lemma int32_small z : (0 <= z < 2 ^ 31)%Z -> int32 z = z.
Proof. intros H. unfold int32. rewrite Z.mod_small by lia. lia. Qed.
Lemma fill_ok m cs : (forall c, c ∈ cs -> (0 <= d_index c < 2 ^ 31)%Z /\ is_Some (dm_volume m (d_index c))) -> exists es, fill_cells m cs = Ok es /\ Forall2 (Entry m) cs es.
Proof.
  induction cs as [|c cs IH]; intros H.
  - exists []. split; [done|constructor].
  - destruct IH as (es & E & HE); [intros c' Hc'; apply H; by right|]. destruct (H c ltac:(left)) as [Hr [v Hv]]. cbn [fill_cells]. rewrite Hv, E.
    eexists. split; [reflexivity|]. constructor; [|exact HE]. unfold Entry. cbn. rewrite int32_small by exact Hr. by rewrite Hv.
Qed.
(** The members of a sublist with different numbers. *)
Lemma sublist_nodup {A} (l k : list A) : sublist l k -> NoDup k -> NoDup l.
Proof.
  induction 1 as [|x l k H IH|x l k H IH]; intros Hn; [done| |].
  - apply list.NoDup_cons in Hn as [Hx Hn]. apply list.NoDup_cons. split; [|by apply IH]. intros Hl. apply Hx. by eapply sublist_in.
  - apply list.NoDup_cons in Hn as [_ Hn]. by apply IH.
Qed.

Lemma entries_nodup m cs es : Forall2 (Entry m) cs es -> map c_index es = map d_index cs.
Proof. induction 1 as [|c e cs es (H1 & _) _ IH]; [done|]. cbn. by rewrite H1, IH. Qed.

(** C36: a cell set made from a region holds exactly the cells whose midpoint lies in the region, in mesh order, each once, with their
    number, volume, midpoint, radius and point test; the constructor fails exactly when there is no such cell.  For every rounding of the
    tolerance test ([InShapeB]); in exact arithmetic that is membership with tolerance 1e-10. *)
Theorem C36_cells fl m s : MeshOk m -> Fits (dm_gdim m) s ->
  ((exists c, c ∈ dm_cells m /\ InShapeB fl (dm_gdim m) s (d_mid c)) -> exists reg sel, cell_set fl m s = Ok reg /\ r_gdim reg = dm_gdim m /\
     sublist sel (dm_cells m) /\ (forall c, c ∈ dm_cells m -> c ∈ sel <-> InShapeB fl (dm_gdim m) s (d_mid c)) /\
     Forall2 (Entry m) sel (r_cells reg) /\ NoDup (map c_index (r_cells reg))) /\
  ((forall c, c ∈ dm_cells m -> ~ InShapeB fl (dm_gdim m) s (d_mid c)) -> cell_set fl m s = Raise RuntimeError).
Proof.
  intros HM HF. destruct (choose_ok fl (dm_gdim m) s (dm_cells m) HF) as (sel & E & Hs & H1 & H2); [apply (mo_mid _ HM)|].
  assert (Hsub : forall c', c' ∈ sel -> c' ∈ dm_cells m) by (intros c' H'; by eapply sublist_in).
  unfold cell_set. rewrite E. split.
  - intros (c & Hc & Hin). pose proof (H2 c Hc Hin) as Hsel.
    destruct (length sel =? 0)%nat eqn:El; [destruct sel; [inversion Hsel|discriminate]|].
    destruct (fill_ok m sel) as (es & Ef & HE); [intros c' Hc'; split; [apply (mo_range _ HM)|apply (mo_vol _ HM)]; by apply Hsub|].
    rewrite Ef. exists (Region (dm_gdim m) es), sel. split; [reflexivity|]. split; [reflexivity|]. split; [exact Hs|]. split; [|split; [exact HE|]].
    + intros c' Hc'. split; [by apply H1|by apply H2].
    + cbn [r_cells]. rewrite (entries_nodup m sel es HE). apply (sublist_nodup _ (map d_index (dm_cells m))); [|exact (mo_nodup _ HM)].
      clear - Hs. induction Hs; cbn; by constructor.
  - intros Hno. destruct sel as [|c sel]; [reflexivity|]. exfalso. apply (Hno c); [apply Hsub; left|]. apply H1; [apply Hsub; left|left].
Qed.
Corollary C36_cells_exact m s c reg : MeshOk m -> Fits (dm_gdim m) s -> cell_set exact m s = Ok reg -> c ∈ dm_cells m ->
  d_index c ∈ map c_index (r_cells reg) <-> InShape region_tol (dm_gdim m) s (d_mid c).
Proof.
  intros HM HF E Hc. destruct (C36_cells exact m s HM HF) as [H1 H2]. rewrite <- exact_shape.
  destruct (choose_ok exact (dm_gdim m) s (dm_cells m) HF) as (sel0 & E0 & _ & H3 & _); [apply (mo_mid _ HM)|].
  assert (Hex : exists c, c ∈ dm_cells m /\ InShapeB exact (dm_gdim m) s (d_mid c)).
  { unfold cell_set in E. rewrite E0 in E. destruct sel0 as [|c0 sel0]; [discriminate|]. exists c0.
    assert (c0 ∈ dm_cells m).
    { destruct (choose_ok exact (dm_gdim m) s (dm_cells m) HF) as (sel1 & E1 & Hs1 & _); [apply (mo_mid _ HM)|]. rewrite E0 in E1. injection E1 as <-.
      eapply sublist_in; [exact Hs1|left]. }
    split; [assumption|]. apply H3; [assumption|left]. }
  destruct (H1 Hex) as (reg' & sel & E' & _ & Hs & Hsel & HE & _). rewrite E in E'. injection E' as <-.
  rewrite (entries_nodup m sel _ HE). rewrite <- (Hsel c Hc). split; [|intros H; by apply elem_of_list_fmap_1].
  intros H. apply elem_of_list_fmap in H as (c' & Hi & Hc'). assert (Hc'm : c' ∈ dm_cells m) by (by eapply sublist_in).
  pose proof (mo_nodup _ HM) as Hnd. apply elem_of_list_lookup in Hc as [i1 Hi1]. apply elem_of_list_lookup in Hc'm as [i2 Hi2].
  assert (i1 = i2).
  { apply (NoDup_lookup _ _ _ (d_index c) Hnd); rewrite (list_lookup_fmap d_index); [by rewrite Hi1|]. rewrite Hi2. cbn. by rewrite Hi. }
  subst i2. rewrite Hi1 in Hi2. injection Hi2 as <-. exact Hc'.
Qed.

(** With every monotone rounding (double precision among them), a cell whose midpoint lies in the closed rectangle is in the set, if the corners are floating-point
    numbers: the tolerance never loses such a cell. *)
Theorem C36_rectangle_kept fl m pmin pmax c : Rounding fl -> MeshOk m -> Fits (dm_gdim m) (Rect (Tuple pmin) (Tuple pmax)) -> c ∈ dm_cells m ->
  (forall i, (i < dm_gdim m)%nat -> fl (co pmin i) = co pmin i /\ fl (co pmax i) = co pmax i /\ co pmin i <= co (d_mid c) i <= co pmax i) ->
  exists reg, cell_set fl m (Rect (Tuple pmin) (Tuple pmax)) = Ok reg /\ d_index c ∈ map c_index (r_cells reg).
Proof.
  intros HR HM HF Hc Hin. assert (Htol : 0 < region_tol) by (unfold region_tol; apply Rinv_0_lt_compat, pow_lt; lra).
  assert (Hb : InShapeB fl (dm_gdim m) (Rect (Tuple pmin) (Tuple pmax)) (d_mid c)).
  { intros i Hi. destruct (Hin i Hi) as (F1 & F2 & H). split.
    - apply Rle_trans with (fl (co pmin i)); [apply (rnd_mono _ HR); lra|]. rewrite F1. lra.
    - apply Rle_trans with (fl (co pmax i)); [|apply (rnd_mono _ HR); lra]. rewrite F2. lra. }
  destruct (C36_cells fl m _ HM HF) as [H1 _]. destruct H1 as (reg & sel & E & _ & _ & Hsel & HE & _); [by exists c|].
  exists reg. split; [exact E|]. rewrite (entries_nodup m sel _ HE). apply elem_of_list_fmap_1. by apply Hsel.
Qed.

(** A region whose corners do not fit the mesh is refused with a TypeError: a tuple in 1D, a number in 2D and 3D. *)
Theorem C36_misfit fl m x c cs b : dm_cells m = c :: cs ->
  (dm_gdim m = 1%nat -> cell_set fl m (Rect (Tuple x) b) = Raise TypeError) /\
  (dm_gdim m = 2%nat \/ dm_gdim m = 3%nat -> forall a, cell_set fl m (Rect (Scalar a) b) = Raise TypeError).
Proof.
  intros Hm. unfold cell_set. rewrite Hm. split.
  - intros ->. reflexivity.
  - intros [-> | ->] a; reflexivity.
Qed.

(** After the construction of a spherical region its [radius] is the array of the cells' radii.  Asking [inside] then fails, unless the set has one
    cell; and with one cell the answer is that for the cell's radius instead of the region's. *)
Theorem C36_sphere_radius_lost fl center (radii : list R) x : (1 <= length x)%nat ->
  match radii with
  | [r] => sphere_inside fl center (inr radii) x = sphere_inside fl center (inl r) x
  | _ => sphere_inside fl center (inr radii) x = Raise ValueError
  end.
Proof. intros _. by destruct radii as [|r [|r' l]]. Qed.

(** A spherical region in 2D or 3D is the slab between two planes: the other coordinates do not count. *)
Theorem C36_sphere_is_slab fl g c r x y : x !! 0%nat = y !! 0%nat -> shape_inside fl g (Ball c r) x = shape_inside fl g (Ball c r) y.
Proof. intros H. cbn [shape_inside sphere_inside]. by rewrite H. Qed.

(** How often a value occurs in a list of equal-sized blocks. *)
Lemma blocks_in {A B} (f : A -> B) (key : list B) n (new : list A) p : length new = (length key * n)%nat ->
  (forall i k ip, key !! i = Some k -> (ip < n)%nat -> exists p, new !! (i * n + ip)%nat = Some p /\ f p = k) -> p ∈ new -> f p ∈ key.
Proof.
  intros Hl H Hp. apply elem_of_list_lookup in Hp as [j Hj]. pose proof (lookup_lt_Some _ _ _ Hj) as Hlt.
  assert (Hn : (0 < n)%nat) by nia.
  assert (Hdiv : (j / n < length key)%nat) by (apply Nat.div_lt_upper_bound; lia).
  destruct (lookup_lt_is_Some_2 key (j / n) Hdiv) as [k Hk]. destruct (H _ k (j mod n)%nat Hk) as (p' & Hp' & Hf); [apply Nat.mod_upper_bound; lia|].
  replace (j / n * n + j mod n)%nat with j in Hp' by (rewrite (Nat.div_mod j n) at 1 by lia; lia). rewrite Hj in Hp'. injection Hp' as <-.
  rewrite Hf. by eapply elem_of_list_lookup_2.
Qed.
Lemma blocks_count {A} (f : A -> Z) n (z : Z) : forall (key : list Z) (new : list A), length new = (length key * n)%nat -> NoDup key -> z ∈ key ->
  (forall i k ip, key !! i = Some k -> (ip < n)%nat -> exists p, new !! (i * n + ip)%nat = Some p /\ f p = k) ->
  length (filter (fun p => f p = z) new) = n.
Proof.
  induction key as [|k key IH]; intros new Hl Hnd Hz H; [inversion Hz|].
  apply list.NoDup_cons in Hnd as [Hk Hnd]. cbn [length] in Hl. rewrite <- (take_drop n new), list.filter_app, app_length.
  assert (H1 : forall p, p ∈ take n new -> f p = k).
  { intros p Hp. apply elem_of_list_lookup in Hp as [j Hj]. apply lookup_take_Some in Hj as [Hj Hlt].
    destruct (H 0%nat k j eq_refl Hlt) as (p' & Hp' & <-). cbn in Hp'. rewrite Hj in Hp'. by injection Hp' as ->. }
  assert (Hd : length (drop n new) = (length key * n)%nat) by (rewrite drop_length; lia).
  assert (H2 : forall i k ip, key !! i = Some k -> (ip < n)%nat -> exists p, drop n new !! (i * n + ip)%nat = Some p /\ f p = k).
  { intros i k' ip Hi Hip. destruct (H (S i) k' ip Hi Hip) as (p & Hp & Hw). exists p. split; [|exact Hw]. rewrite lookup_drop. rewrite <- Hp. f_equal. lia. }
  assert (Hlen : length (take n new) = n) by (rewrite take_length; lia).
  assert (Hall : forall (b : bool) l, (forall p : A, p ∈ l -> (f p = z <-> b = true)) -> length (filter (fun p => f p = z) l) = (if b then length l else 0%nat)).
  { intros b l. induction l as [|p l IHl]; intros Hb; [by destruct b|]. specialize (IHl ltac:(intros p' Hp'; apply Hb; by right)).
    destruct (Hb p ltac:(left)) as [Hb1 Hb2]. destruct b.
    - rewrite filter_cons_True by (by apply Hb2). cbn. by rewrite IHl.
    - rewrite filter_cons_False by (intros H'; apply Hb1 in H'; discriminate). exact IHl. }
  destruct (decide (z = k)) as [->|Hne].
  - rewrite (Hall true (take n new)) by (intros p Hp; split; [done|by intros _; apply H1]). rewrite Hlen.
    rewrite (Hall false (drop n new)); [lia|]. intros p Hp. split; [|discriminate]. intros Hf. exfalso. apply Hk. rewrite <- Hf. by eapply blocks_in.
  - rewrite (Hall false (take n new)) by (intros p Hp; split; [|discriminate]; rewrite (H1 p Hp); intros; congruence).
    apply elem_of_cons in Hz as [->|Hz]; [done|]. rewrite (IH (drop n new)) by assumption. lia.
Qed.

(** A source creates its particles only in cells whose midpoint lies in its region, and in each of these as many as asked for.  A particle is
    at the midpoint or at a point that the cell's point test accepts. *)
Theorem C36_source fl m s reg names spherical pdim pi4 rnd fuel dE negE Eext step time q st st' (L : Z) xs : (1 <= L)%Z ->
  MeshOk m -> Fits (dm_gdim m) s -> cell_set fl m s = Ok reg ->
  (1 <= s_percell q)%Z -> Reachable L (ss_saps st (s_species q)) -> Stores (ss_saps st (s_species q)) xs ->
  create_maxwellian fl names spherical pdim pi4 rnd fuel dE negE Eext step time reg q st = Ok st' ->
  exists new, Stores (ss_saps st' (s_species q)) (xs ++ new) /\
    (forall p, p ∈ new -> exists c, c ∈ dm_cells m /\ InShapeB fl (dm_gdim m) s (d_mid c) /\ pcell p = d_index c /\
       (px p = take (dm_gdim m) (d_mid c) ++ replicate (pdim - dm_gdim m) 0 \/ d_contains c (px p) = true)) /\
    (forall c, c ∈ dm_cells m -> InShapeB fl (dm_gdim m) s (d_mid c) ->
       Z.of_nat (length (filter (fun p => pcell p = d_index c) new)) = s_percell q).
Proof.
  intros HL HM HF E Hn HR HS Ec.
  destruct (choose_ok fl (dm_gdim m) s (dm_cells m) HF) as (sel & E0 & Hs & H1 & H2); [apply (mo_mid _ HM)|].
  assert (Hsub : forall c', c' ∈ sel -> c' ∈ dm_cells m) by (intros c' H'; by eapply sublist_in).
  destruct (fill_ok m sel) as (es & Ef & HE); [intros c' Hc'; split; [apply (mo_range _ HM)|apply (mo_vol _ HM)]; by apply Hsub|].
  assert (reg = Region (dm_gdim m) es) as ->.
  { unfold cell_set in E. rewrite E0 in E. destruct (length sel =? 0)%nat; [discriminate|]. rewrite Ef in E. by injection E as <-. }
  destruct (C27_firing _ _ _ _ _ _ _ _ _ _ _ _ _ _ _ _ L xs HL Hn HR HS Ec) as (new & HS' & _ & _ & Hlen & _ & Hm). cbn [r_cells r_gdim] in *.
  set (n := Z.to_nat (s_percell q)).
  assert (Hkey : map c_index es = map d_index sel) by (by eapply entries_nodup).
  assert (Hl : length new = (length (map c_index es) * n)%nat) by (rewrite map_length; subst n; lia).
  assert (Hblk : forall i k ip, map c_index es !! i = Some k -> (ip < n)%nat -> exists p, new !! (i * n + ip)%nat = Some p /\ pcell p = k).
  { intros i k ip Hi Hip. change ((c_index <$> es) !! i = Some k) in Hi. rewrite list_lookup_fmap in Hi. destruct (es !! i) as [e|] eqn:Ee; [|discriminate]. injection Hi as <-.
    destruct (Hm i e ip Ee ltac:(subst n; lia)) as (p & Hp & HMd). exists p. split; [exact Hp|]. rewrite (m_cell _ _ _ _ _ _ _ _ _ _ HMd).
    destruct (Forall2_lookup_r _ _ _ _ _ HE Ee) as (c & Hc & He & _). rewrite He. apply int32_small. apply (mo_range _ HM). apply Hsub. by eapply elem_of_list_lookup_2. }
  exists new. split; [exact HS'|]. split.
  - intros p Hp. apply elem_of_list_lookup in Hp as [j Hj]. pose proof (lookup_lt_Some _ _ _ Hj) as Hlt. rewrite map_length in Hl.
    assert (Hn0 : (0 < n)%nat) by (subst n; lia).
    assert (Hdiv : (j / n < length es)%nat) by (apply Nat.div_lt_upper_bound; lia).
    destruct (lookup_lt_is_Some_2 es (j / n) Hdiv) as [e He]. destruct (Hm _ e (j mod n)%nat He) as (p' & Hp' & HMd).
    { pose proof (Nat.mod_upper_bound j n ltac:(lia)). subst n. lia. }
    fold n in Hp'. replace (j / n * n + j mod n)%nat with j in Hp' by (rewrite (Nat.div_mod j n) at 1 by lia; lia). rewrite Hj in Hp'. injection Hp' as <-.
    destruct (Forall2_lookup_r _ _ _ _ _ HE He) as (c & Hc & (He1 & _ & He3 & _ & He5)). assert (Hcs : c ∈ sel) by (by eapply elem_of_list_lookup_2).
    exists c. split; [by apply Hsub|]. split; [apply H1; [by apply Hsub|done]|]. split.
    + rewrite (m_cell _ _ _ _ _ _ _ _ _ _ HMd), He1. apply int32_small, (mo_range _ HM). by apply Hsub.
    + destruct (decide ((j mod n)%nat = 0%nat)) as [H0|H0].
      * left. rewrite (m_centre _ _ _ _ _ _ _ _ _ _ HMd H0), He3. by rewrite take_take, Nat.min_id.
      * right. rewrite <- He5. exact (m_inside _ _ _ _ _ _ _ _ _ _ HMd H0).
  - intros c Hc Hin. rewrite (blocks_count pcell n (d_index c) (map c_index es) new Hl); [subst n; lia| | |exact Hblk].
    + rewrite Hkey. apply (sublist_nodup _ (map d_index (dm_cells m))); [|exact (mo_nodup _ HM)]. clear - Hs. induction Hs; cbn; by constructor.
    + rewrite Hkey. apply elem_of_list_fmap_1. by apply H2.
Qed.

(** ** The radial mesh *)
Lemma interval_dcells_index vs : map d_index (dm_cells (interval_dmesh vs)) = map Z.of_nat (seq 0 (pred (length vs))).
Proof.
  cbn [interval_dmesh dm_cells]. assert (Hl : length (zip vs (tail vs)) = pred (length vs)) by (rewrite zip_with_length; destruct vs; cbn [tail length pred]; lia).
  revert Hl. generalize (zip vs (tail vs)) as l. generalize (pred (length vs)) as n. intros n. generalize 0%nat as b. induction n as [|n IH]; intros b l Hl; [done|].
  destruct l as [|xy l]; [discriminate|]. cbn. f_equal. apply IH. by injection Hl.
Qed.
Lemma interval_mesh_good vs : (Z.of_nat (length vs) <= 2 ^ 31)%Z -> MeshOk (interval_dmesh vs).
Proof.
  intros Hlen. pose proof (interval_dcells_index vs) as HX.
  assert (Hr : forall c, c ∈ dm_cells (interval_dmesh vs) -> exists i, d_index c = Z.of_nat i /\ (i < pred (length vs))%nat).
  { intros c Hc. assert (H : d_index c ∈ map d_index (dm_cells (interval_dmesh vs))) by (by apply elem_of_list_fmap_1). rewrite HX in H.
    apply elem_of_list_fmap in H as (i & Hi & Hin). apply elem_of_seq in Hin. exists i. split; [exact Hi|lia]. }
  split.
  - rewrite HX. apply NoDup_fmap_2; [intros x y; lia|apply NoDup_seq].
  - intros c Hc. destruct (Hr c Hc) as (i & -> & Hi). lia.
  - intros c Hc. cbn in Hc. apply elem_of_lookup_zip_with in Hc as (i & a & b & -> & _). done.
  - intros c Hc. destruct (Hr c Hc) as (i & -> & Hi). cbn. replace (Z.of_nat i <? 0)%Z with false by lia. rewrite Nat2Z.id.
    apply lookup_lt_is_Some_2. unfold cell_volumes. rewrite zip_with_length. destruct vs; cbn [tail length pred] in *; lia.
Qed.

(** One firing of a source over the whole radial mesh in spherical coordinates creates the weight
    density times (rmax^3 - rmin^3) / 3 (that is, density times volume per steradian). *)
Theorem C36_radial_source n rmin rmax stretch reg names pdim rnd fuel dE negE Eext step time q st st' (L : Z) xs : (1 <= L)%Z ->
  (0 < n)%nat -> (Z.of_nat n < 2 ^ 31)%Z -> rmin < rmax -> 0 < stretch ->
  cell_set exact (interval_dmesh (radial_vertices n rmin rmax stretch)) Whole = Ok reg ->
  (1 <= s_percell q)%Z -> Reachable L (ss_saps st (s_species q)) -> Stores (ss_saps st (s_species q)) xs ->
  create_maxwellian exact names true pdim (4 * PI) rnd fuel dE negE Eext step time reg q st = Ok st' ->
  exists new, Stores (ss_saps st' (s_species q)) (xs ++ new) /\ Z.of_nat (length new) = (Z.of_nat n * s_percell q)%Z /\
    total_weight new = s_density q * (rmax ^ 3 - rmin ^ 3) / 3.
Proof.
  intros HL Hn Hn31 Hr Hs E Hpc HR HS Ec. set (vs := radial_vertices n rmin rmax stretch) in *.
  destruct (C35_vertices n rmin rmax stretch Hn Hr Hs) as (Hl & HI & Ha & Hb). fold vs in Hl, HI, Ha, Hb.
  destruct (C35_volumes vs rmin rmax HI Ha Hb) as (Hvl & _ & Hvt).
  pose proof (interval_mesh_good vs ltac:(rewrite Hl; lia)) as HM.
  assert (Hcs : forall g (cs : list dcell), choose_cells exact g Whole cs = Ok cs).
  { intros g cs. induction cs as [|c cs IH]; [done|]. cbn [choose_cells shape_inside]. by rewrite IH. }
  unfold cell_set in E. rewrite Hcs in E. destruct (_ =? 0)%nat; [discriminate|].
  destruct (fill_ok (interval_dmesh vs) (dm_cells (interval_dmesh vs))) as (es & Ef & HE).
  { intros c Hc. split; [exact (mo_range _ HM c Hc)|exact (mo_vol _ HM c Hc)]. }
  rewrite Ef in E. injection E as <-.
  assert (Hvol : map c_vol es = cell_volumes vs).
  { pose proof (interval_dcells_index vs) as HX. rewrite Hl in HX. cbn [pred] in HX. rewrite Hl in Hvl. cbn [pred] in Hvl.
    assert (Hle : length es = n).
    { rewrite <- (Forall2_length _ _ _ HE). rewrite <- (map_length d_index), HX, map_length. apply seq_length. }
    apply list_eq_same_length with (n := n); [by rewrite Hvl|by rewrite map_length|].
    intros i v w Hi Hv Hw. change ((c_vol <$> es) !! i = Some v) in Hv. rewrite list_lookup_fmap in Hv. destruct (es !! i) as [e|] eqn:Ee; [|discriminate]. injection Hv as <-.
    destruct (Forall2_lookup_r _ _ _ _ _ HE Ee) as (c & Hc & (_ & He2 & _)).
    assert (Hci : d_index c = Z.of_nat i).
    { assert (Hx : (d_index <$> dm_cells (interval_dmesh vs)) !! i = Some (d_index c)) by (by rewrite list_lookup_fmap, Hc).
      change (map d_index (dm_cells (interval_dmesh vs)) !! i = Some (d_index c)) in Hx. rewrite HX in Hx.
      change ((Z.of_nat <$> seq 0 n) !! i = Some (d_index c)) in Hx. rewrite list_lookup_fmap, lookup_seq_lt in Hx by lia. by injection Hx. }
    rewrite Hci in He2. cbn [interval_dmesh dm_volume] in He2. replace (Z.of_nat i <? 0)%Z with false in He2 by lia. rewrite Nat2Z.id, Hw in He2. by injection He2. }
  destruct (C27_firing _ _ _ _ _ _ _ _ _ _ _ _ _ _ _ _ L xs HL Hpc HR HS Ec) as (new & HS' & _ & _ & Hlen & _).
  destruct (C27_total_weight _ _ _ _ _ _ _ _ _ _ _ _ _ _ L xs HL Hpc HR HS Ec) as (new' & HS'' & Hw).
  assert (new' = new) as ->.
  { apply (app_inv_head xs). exact (stores_inj _ _ _ HS'' HS'). }
  exists new. split; [exact HS'|]. cbn [r_cells] in *. split.
  - rewrite Hlen. f_equal. f_equal. rewrite <- (map_length c_vol), Hvol, Hvl, Hl. reflexivity.
  - rewrite Hw, Hvol. change (Rsum (cell_volumes vs)) with (total (cell_volumes vs)). rewrite Hvt. pose proof PI_RGT_0. field. lra.
Qed.

(** A mesh with the cells [1,2] and [2,5]: the region from 1 to 2 selects the first cell only (midpoints 3/2 and 7/2), the region from 6 to 7 is
    refused, and the number of cells found and their volumes are as expected. *)
Example C36_example :
  MeshOk (interval_dmesh [1; 2; 5]) /\ Fits 1 (Rect (Scalar 1) (Scalar 2)) /\
  (exists reg, cell_set exact (interval_dmesh [1; 2; 5]) (Rect (Scalar 1) (Scalar 2)) = Ok reg /\ map c_index (r_cells reg) = [0%Z] /\
     map c_vol (r_cells reg) = [4 / 3 * PI * 2 ^ 3 - 4 / 3 * PI * 1 ^ 3]) /\
  cell_set exact (interval_dmesh [1; 2; 5]) (Rect (Scalar 6) (Scalar 7)) = Raise RuntimeError.
Proof.
  assert (HM : MeshOk (interval_dmesh [1; 2; 5])) by (apply interval_mesh_good; cbn; lia).
  assert (Ht : 0 < region_tol < 1 / 10).
  { unfold region_tol. split; [apply Rinv_0_lt_compat, pow_lt; lra|]. replace (1 / 10) with (/ 10) by lra. apply Rinv_lt_contravar; [|simpl; lra].
    apply Rmult_lt_0_compat; [lra|apply pow_lt; lra]. }
  split; [exact HM|]. split; [reflexivity|].
  set (c0 := interval_dcell [1; 2; 5] 0 1 2). set (c1 := interval_dcell [1; 2; 5] 1 2 5).
  assert (Hcs : dm_cells (interval_dmesh [1; 2; 5]) = [c0; c1]) by reflexivity.
  split.
  - assert (E : choose_cells exact 1 (Rect (Scalar 1) (Scalar 2)) [c0; c1] = Ok [c0]).
    { unfold c0, c1. cbn [choose_cells shape_inside rect_inside corner_num in_range interval_dcell d_mid]. unfold in_range, ge_lo, le_hi, corner_get, exact.
      cbn -[Rltb]. repeat (match goal with |- context [Rltb ?a ?b] => unfold Rltb at 1; destruct (Rlt_dec a b); try (exfalso; lra) end); reflexivity. }
    unfold cell_set. cbn [interval_dmesh dm_gdim]. fold (interval_dmesh [1; 2; 5]). rewrite Hcs, E. eexists. split; [reflexivity|]. split; [reflexivity|]. cbn [r_cells map c_vol]. f_equal. unfold shell_volume. ring.
  - refine (proj2 (C36_cells exact _ (Rect (Scalar 6) (Scalar 7)) HM eq_refl) _). intros c Hc. rewrite Hcs in Hc. rewrite exact_shape.
    apply elem_of_cons in Hc as [->|Hc]; [|apply elem_of_list_singleton in Hc as ->]; cbn; lra.
Qed.

Print Assumptions C36_cells.
Print Assumptions C36_cells_exact.
Print Assumptions C36_rectangle_kept.
Print Assumptions C36_misfit.
Print Assumptions C36_sphere_radius_lost.
Print Assumptions C36_sphere_is_slab.
Print Assumptions C36_source.
Print Assumptions C36_radial_source.
