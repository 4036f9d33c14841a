(** C58: the functions of [Field_C] that set, multiply and interpolate the values of a field. *)
From stdpp Require Import strings list_numbers.
From Verif Require Import Vec VecProofs SumProps TrackModel DensityModel DensityProps.
From Verif Require Import MeshFieldModel.
From Verif Require Import FieldProps.
Local Open Scope R_scope.

(** ** What is meant *)

(** Degree of freedom [i] belongs to one of the cells. *)
Definition touched (V : vspace) (cells : list Z) (i : nat) : Prop := exists c, c ∈ cells /\ i ∈ vs_dofs V c.
(** The number of the listed cells to which it belongs. *)
Definition touches (V : vspace) (cells : list Z) (i : nat) : nat := length (filter (fun c => i ∈ vs_dofs V c) cells).
(** The degrees of freedom of the listed cells are different from each other within a cell, and there are [n] in the space. *)
Definition SpaceOn (V : vspace) (n : nat) (cells : list Z) : Prop :=
  forall c, c ∈ cells -> NoDup (vs_dofs V c) /\ forall i, i ∈ vs_dofs V c -> (i < n)%nat.
(** The value, in component [d], of the field with values [a] at point [x] of cell [c]. *)
Definition value_in (V : vspace) (a : list R) (c : Z) (x : vec) (d : nat) : R :=
  Rsum (zip_with (fun i b => at_ a i * comp b d) (vs_dofs V c) (vs_basis V c x)).
(** [v] is the value of the field at point [x], which is in the mesh. *)
Definition field_at (V : vspace) (n : nat) (a : list R) (x : vec) (v : vec) : Prop :=
  length v = n /\ exists c, vs_locate V x = Some c /\ forall d, comp v d = value_in V a c x d.
(** The basis functions have [n] components, and the cells found have degrees of freedom of the space. *)
Definition Proper (V : vspace) (n ndof : nat) : Prop := forall x c, vs_locate V x = Some c ->
  (forall i, i ∈ vs_dofs V c -> (i < ndof)%nat) /\ Forall (fun b => length b = n) (vs_basis V c x).
(** All components are zero. *)
Definition zero_vec (v : vec) : Prop := forall d, comp v d = 0.

(** The number of vectors with a component that is not zero. *)
Definition nonzero (vs : list vec) : nat := length (filter (fun v => existsb (fun x => negb (Reqb x 0)) v = true) vs).

(** ** Arrays *)

Lemma at_map (g : R -> R) a i : (i < length a)%nat -> at_ (map g a) i = g (at_ a i).
Proof. intros Hi. unfold at_. rewrite (nth_indep _ 0 (g 0)) by (rewrite map_length; exact Hi). apply map_nth. Qed.
Lemma scatter_const v idx : forall a (l : list R) j, Forall (fun i => (i < length a)%nat) idx -> length l = length idx ->
  at_ (scatter a idx (map (fun _ => v) l)) j = if bool_decide (j ∈ idx) then v else at_ a j.
Proof.
  induction idx as [|i idx IH]; intros a l j Hin Hl; destruct l as [|y l]; try discriminate.
  - cbn. rewrite bool_decide_eq_false_2; [reflexivity|]. apply not_elem_of_nil.
  - inversion_clear Hin as [|? ? Hi Hin']. cbn [map scatter]. rewrite IH; [|by rewrite insert_length|cbn in Hl; lia].
    rewrite at_insert by exact Hi. destruct (Nat.eqb_spec j i) as [->|Hne].
    + rewrite (bool_decide_eq_true_2 (i ∈ i :: idx)) by left. by destruct (bool_decide _).
    + destruct (decide (j ∈ idx)) as [Hj|Hj].
      * rewrite !bool_decide_eq_true_2; [reflexivity|by right|exact Hj].
      * rewrite !bool_decide_eq_false_2; [reflexivity| |exact Hj]. rewrite elem_of_cons. intros [?|?]; contradiction.
Qed.
Lemma in_range V n cells c : SpaceOn V n cells -> c ∈ cells -> Forall (fun i => (i < n)%nat) (vs_dofs V c).
Proof. intros H Hc. apply list.Forall_forall. intros i Hi. exact (proj2 (H c Hc) i Hi). Qed.

Section Fl.
Context (fl : R -> R) (V : vspace) (z : nat -> R).

Lemma put_at_ok a v idx : Forall (fun i => (i < length a)%nat) idx -> exists a', put_at a v idx = Ok a' /\ length a' = length a /\
  forall j, at_ a' j = if bool_decide (j ∈ idx) then v else at_ a j.
Proof.
  intros H. unfold put_at. rewrite (gather_ok _ _ H). eexists. split; [reflexivity|]. split; [apply scatter_len|]. intros j.
  apply scatter_const; [exact H|apply map_length].
Qed.
Lemma put_cells_ok value cells : forall a, SpaceOn V (length a) cells -> exists a', put_cells V value cells a = Ok a' /\ length a' = length a /\
  forall j, (touched V cells j -> at_ a' j = value) /\ (~ touched V cells j -> at_ a' j = at_ a j).
Proof.
  induction cells as [|c cells IH]; intros a H.
  - exists a. split; [reflexivity|]. split; [reflexivity|]. intros j. split; [|done]. intros (c & Hc & _). by apply elem_of_nil in Hc.
  - cbn [put_cells]. destruct (put_at_ok a value (vs_dofs V c)) as (a1 & -> & Hl & Ha); [eapply in_range; [exact H|left]|].
    destruct (IH a1) as (a2 & -> & Hl2 & Ha2). { intros d Hd. rewrite Hl. apply H. by right. }
    exists a2. split; [reflexivity|]. split; [congruence|]. intros j. destruct (Ha2 j) as [H1 H2]. split.
    + intros (d & Hd & Hj). destruct (decide (Exists (fun c => j ∈ vs_dofs V c) cells)) as [Ht|Ht].
      * apply H1. apply list.Exists_exists in Ht. exact Ht.
      * rewrite H2 by (intros Hx; apply Ht; by apply list.Exists_exists). rewrite Ha. apply elem_of_cons in Hd as [->|Hd].
        { by rewrite bool_decide_eq_true_2. }
        exfalso. apply Ht. apply list.Exists_exists. by exists d.
    + intros Hn. rewrite H2. { rewrite Ha. rewrite bool_decide_eq_false_2; [reflexivity|]. intros Hj. apply Hn. exists c. split; [left|exact Hj]. }
      intros (d & Hd & Hj). apply Hn. exists d. split; [by right|exact Hj].
Qed.

(** *** C58: setting a field *)

(** Over a subdomain, exactly the degrees of freedom that belong to a cell of the subdomain get the value; the others are zero. *)
Theorem C58_set_values value cells a : SpaceOn V (length a) cells ->
  (exists a', set_values V value (Some cells) a = Ok a' /\ length a' = length a /\
    forall i, (i < length a)%nat -> (touched V cells i -> at_ a' i = value) /\ (~ touched V cells i -> at_ a' i = 0)) /\
  exists a', set_values V value None a = Ok a' /\ length a' = length a /\ forall i, (i < length a)%nat -> at_ a' i = value.
Proof.
  intros H. cbn [set_values]. split.
  - destruct (put_cells_ok value cells (map (fun _ => 0) a)) as (a' & -> & Hl & Ha); [by rewrite map_length|].
    exists a'. split; [reflexivity|]. split; [by rewrite Hl, map_length|]. intros i Hi. destruct (Ha i) as [H1 H2]. split; [exact H1|].
    intros Hn. rewrite (H2 Hn). by rewrite (at_map (fun _ => 0)).
  - eexists. split; [reflexivity|]. split; [apply map_length|]. intros i Hi. by rewrite (at_map (fun _ => value)).
Qed.

(** *** C58: a gaussian field *)

Lemma put_each_ok cells : forall vals a, SpaceOn V (length a) cells -> length vals = length cells ->
  exists a', put_each V cells vals a = Ok a' /\ length a' = length a /\
  forall j, (~ touched V cells j -> at_ a' j = at_ a j) /\
    (forall n c, cells !! n = Some c -> j ∈ vs_dofs V c -> ~ touched V (drop (S n) cells) j -> at_ a' j = at_ vals n).
Proof.
  induction cells as [|c cells IH]; intros vals a H Hl; destruct vals as [|v vals]; try discriminate.
  - exists a. split; [reflexivity|]. split; [reflexivity|]. intros j. split; [done|]. intros n c Hc. by rewrite lookup_nil in Hc.
  - cbn [put_each]. destruct (put_at_ok a v (vs_dofs V c)) as (a1 & -> & Hl1 & Ha); [eapply in_range; [exact H|left]|].
    destruct (IH vals a1) as (a2 & -> & Hl2 & Ha2). { intros d Hd. rewrite Hl1. apply H. by right. } { cbn in Hl. lia. }
    exists a2. split; [reflexivity|]. split; [congruence|]. intros j. destruct (Ha2 j) as [H1 H2]. split.
    + intros Hn. rewrite H1. { rewrite Ha. rewrite bool_decide_eq_false_2; [reflexivity|]. intros Hj. apply Hn. exists c. split; [left|exact Hj]. }
      intros (d & Hd & Hj). apply Hn. exists d. split; [by right|exact Hj].
    + intros [|n] d Hd Hj Hlast.
      * cbn in Hd. injection Hd as <-. cbn [drop] in Hlast. rewrite drop_0 in Hlast. rewrite H1 by exact Hlast.
        rewrite Ha, bool_decide_eq_true_2 by exact Hj. reflexivity.
      * cbn in Hd. exact (H2 n d Hd Hj Hlast).
Qed.
Lemma normals_length sd n k rv k' : normals_at fl z sd n k = Ok (rv, k') -> length rv = n /\ k' = (k + n)%nat /\
  forall i, (i < n)%nat -> at_ rv i = fl (sd * z (k + i)%nat).
Proof.
  unfold normals_at. destruct (Rltb sd 0); [discriminate|]. intros [= <- <-]. rewrite map_length, seq_length. repeat split.
  intros i Hi. unfold at_. rewrite nth_lookup. change (map ?g ?l) with (g <$> l). rewrite list_lookup_fmap, lookup_seq_lt by exact Hi. reflexivity.
Qed.

(** Over a subdomain that has not more cells than the field has values, a degree of freedom gets the number drawn for the last
    listed cell that it belongs to, and one number is used for each cell.  With more cells than values the call fails. *)
Theorem C58_set_gaussian sd cells a k : SpaceOn V (length a) cells -> 0 <= sd ->
  ((length cells <= length a)%nat -> exists a', set_gaussian_values fl V z sd (Some cells) a k = Ok (a', (k + length cells)%nat) /\
    length a' = length a /\
    forall i, (i < length a)%nat -> (~ touched V cells i -> at_ a' i = 0) /\
      forall n c, cells !! n = Some c -> i ∈ vs_dofs V c -> ~ touched V (drop (S n) cells) i -> at_ a' i = fl (sd * z (k + n)%nat)) /\
  ((length a < length cells)%nat -> set_gaussian_values fl V z sd (Some cells) a k = Raise ValueError) /\
  exists a', set_gaussian_values fl V z sd None a k = Ok (a', (k + length a)%nat) /\ length a' = length a /\
    forall i, (i < length a)%nat -> at_ a' i = fl (sd * z (k + i)%nat).
Proof.
  intros H Hsd. assert (Hn : forall n, exists rv, normals_at fl z sd n k = Ok (rv, (k + n)%nat)).
  { intros n. unfold normals_at. unfold Rltb. destruct (Rlt_dec sd 0) as [Hlt|]; [exfalso; lra|]. by eexists. }
  cbn [set_gaussian_values]. split; [|split].
  - intros Hle. destruct (Hn (length cells)) as (rv & E). rewrite E. apply normals_length in E as (Hl & _ & Hv).
    destruct (Nat.ltb_spec (length a) (length cells)) as [|_]; [lia|].
    destruct (put_each_ok cells rv (map (fun _ => 0) a)) as (a' & -> & Hl' & Ha); [by rewrite map_length|exact Hl|].
    exists a'. split; [reflexivity|]. split; [by rewrite Hl', map_length|]. intros i Hi. destruct (Ha i) as [H1 H2]. split.
    + intros Hnt. rewrite (H1 Hnt). by rewrite (at_map (fun _ => 0)).
    + intros n c Hc Hj Hlast. rewrite (H2 n c Hc Hj Hlast). apply Hv. by eapply lookup_lt_Some.
  - intros Hlt. destruct (Hn (length cells)) as (rv & ->). destruct (Nat.ltb_spec (length a) (length cells)) as [_|]; [reflexivity|lia].
  - destruct (Hn (length a)) as (rv & E). exists rv. split; [exact E|]. apply normals_length in E as (Hl & _ & Hv). by split.
Qed.
End Fl.

(** *** C58: multiplying a field *)

Lemma scale_at_ok a m idx : NoDup idx -> Forall (fun i => (i < length a)%nat) idx -> exists a', scale_at exact a m idx = Ok a' /\
  length a' = length a /\ forall j, at_ a' j = if bool_decide (j ∈ idx) then m * at_ a j else at_ a j.
Proof.
  intros Hnd H. unfold scale_at. rewrite (gather_ok _ _ H). eexists. split; [reflexivity|]. split; [apply scatter_len|]. intros j.
  assert (Hz : forall l : list R, map (fun x => exact (x * m)) l = zip_with (fun x (_ : R) => x * m) l l).
  { induction l as [|x l IH]; [reflexivity|]. cbn. by rewrite IH. }
  rewrite Hz.
  destruct (scatter_at (fun x (_ : R) => x * m) idx a (map (at_ a) idx) j Hnd H (map_length _ _)) as [H1 H2].
  destruct (decide (j ∈ idx)) as [Hj|Hj].
  - rewrite bool_decide_eq_true_2 by exact Hj. apply elem_of_list_lookup in Hj as [k Hk]. rewrite (H2 k (at_ a j) Hk); [lra|].
    change (map (at_ a) idx) with (at_ a <$> idx). by rewrite list_lookup_fmap, Hk.
  - rewrite bool_decide_eq_false_2 by exact Hj. exact (H1 Hj).
Qed.
Lemma touches_cons V c cells j : touches V (c :: cells) j = ((if bool_decide (j ∈ vs_dofs V c) then 1 else 0) + touches V cells j)%nat.
Proof.
  unfold touches. rewrite filter_cons. destruct (decide (j ∈ vs_dofs V c)) as [H|H].
  - by rewrite bool_decide_eq_true_2.
  - by rewrite bool_decide_eq_false_2.
Qed.

(** Over a subdomain every value is multiplied once for each listed cell that it belongs to, also when [gaussian] is asked for.
    Without a subdomain every value is multiplied by the number, or by a random number of its own. *)
Theorem C58_multiply V (z : nat -> R) m cells a k : SpaceOn V (length a) cells ->
  (forall g, exists a', multiply_values exact V z m g (Some cells) a k = Ok (a', k) /\ length a' = length a /\
    forall i, (i < length a)%nat -> at_ a' i = m ^ touches V cells i * at_ a i) /\
  (exists a', multiply_values exact V z m false None a k = Ok (a', k) /\ length a' = length a /\
    forall i, (i < length a)%nat -> at_ a' i = m * at_ a i) /\
  (0 <= m -> exists a', multiply_values exact V z m true None a k = Ok (a', (k + length a)%nat) /\ length a' = length a /\
    forall i, (i < length a)%nat -> at_ a' i = m * z (k + i)%nat * at_ a i).
Proof.
  intros H. cbn [multiply_values]. split; [|split].
  - intros g. enough (Hx : exists a', scale_cells exact V m cells a = Ok a' /\ length a' = length a /\ forall i, at_ a' i = m ^ touches V cells i * at_ a i).
    { destruct Hx as (a' & -> & Hl & Ha). exists a'. by repeat split. }
    revert a H. induction cells as [|c cells IH]; intros a H.
    + exists a. repeat split. intros i. cbn. lra.
    + cbn [scale_cells]. destruct (scale_at_ok a m (vs_dofs V c)) as (a1 & -> & Hl & Ha); [apply H; left|eapply in_range; [exact H|left]|].
      destruct (IH a1) as (a2 & -> & Hl2 & Ha2). { intros d Hd. rewrite Hl. apply H. by right. }
      exists a2. split; [reflexivity|]. split; [congruence|]. intros i. rewrite Ha2, Ha, touches_cons.
      destruct (bool_decide _); cbn [Nat.add Rpow_def.pow]; lra.
  - eexists. split; [reflexivity|]. split; [apply map_length|]. intros i Hi. rewrite (at_map (fun x => exact (x * m))) by exact Hi. unfold exact. lra.
  - intros Hm. destruct (normals_at exact z m (length a) k) as [[rv k1]|e] eqn:E.
    2: { exfalso. unfold normals_at, Rltb in E. destruct (Rlt_dec m 0); [lra|discriminate]. }
    apply normals_length in E as (Hl & -> & Hv). eexists. split; [reflexivity|]. split; [rewrite zip_with_length; lia|].
    intros i Hi. unfold at_ at 1. rewrite nth_lookup, lookup_zip_with.
    destruct (lookup_lt_is_Some_2 a i Hi) as [x Hx]. destruct (lookup_lt_is_Some_2 rv i ltac:(lia)) as [y Hy]. rewrite Hx, Hy. cbn.
    assert (Hy' : at_ rv i = y) by (unfold at_; by rewrite nth_lookup, Hy). assert (Hx' : at_ a i = x) by (unfold at_; by rewrite nth_lookup, Hx).
    rewrite Hv in Hy' by exact Hi. rewrite Hx', <- Hy'. unfold exact. lra.
Qed.

(** The documented effect, one multiplication inside of the subdomain and none outside, is what happens exactly when no degree of
    freedom belongs to two of the cells (for a multiplier other than 0, 1 and -1 and values other than zero). *)
Theorem C58_multiply_once V (z : nat -> R) m cells a k : SpaceOn V (length a) cells ->
  m <> 0 -> Rabs m <> 1 -> (forall i, (i < length a)%nat -> at_ a i <> 0) ->
  ((exists a', multiply_values exact V z m false (Some cells) a k = Ok (a', k) /\
     forall i, (i < length a)%nat -> (touched V cells i -> at_ a' i = m * at_ a i) /\ (~ touched V cells i -> at_ a' i = at_ a i)) <->
   forall i, (touches V cells i <= 1)%nat).
Proof.
  intros H Hm0 Hm1 Ha. destruct (C58_multiply V z m cells a k H) as (Hmul & _). destruct (Hmul false) as (a' & E & Hl & Hv).
  assert (Ht : forall i, touched V cells i <-> (0 < touches V cells i)%nat).
  { intros i. unfold touches. split.
    - intros (c & Hc & Hi). assert (Hf : c ∈ filter (fun c => i ∈ vs_dofs V c) cells) by (by apply elem_of_list_filter).
      destruct (filter _ cells); [by apply elem_of_nil in Hf|cbn; lia].
    - intros Hpos. destruct (filter (fun c => i ∈ vs_dofs V c) cells) as [|c l] eqn:Ef; [cbn in Hpos; lia|].
      assert (Hf : c ∈ filter (fun c => i ∈ vs_dofs V c) cells) by (rewrite Ef; left). apply elem_of_list_filter in Hf as [? ?]. by exists c. }
  split.
  - intros (b & Eb & Hb) i. rewrite E in Eb. injection Eb as <-. destruct (Nat.le_gt_cases (touches V cells i) 1) as [|Hgt]; [assumption|]. exfalso.
    assert (Hti : touched V cells i) by (apply Ht; lia). assert (Hi : (i < length a)%nat).
    { destruct Hti as (c & Hc & Hi). exact (proj2 (H c Hc) i Hi). }
    pose proof (proj1 (Hb i Hi) Hti) as E1. rewrite (Hv i Hi) in E1. apply Rmult_eq_reg_r in E1; [|by apply Ha].
    destruct (touches V cells i) as [|[|n]]; [lia|lia|]. cbn [Rpow_def.pow] in E1. assert (E2 : m * m ^ n = 1) by nra.
    change (m ^ S n = 1) in E2. pose proof (pow_R1 m (S n) E2) as [Hx|Hx]; [by apply Hm1|discriminate].
  - intros Hle. exists a'. split; [exact E|]. intros i Hi. rewrite (Hv i Hi). split; intros Hti.
    + apply Ht in Hti. specialize (Hle i). replace (touches V cells i) with 1%nat by lia. cbn. lra.
    + destruct (touches V cells i) eqn:En; [cbn; lra|]. exfalso. apply Hti, Ht. lia.
Qed.

(** ** Interpolation *)

Lemma put_row_app (pre post : list vec) x v : put_row (pre ++ x :: post) (length pre) v = Ok ((pre ++ [v]) ++ post).
Proof.
  unfold put_row. rewrite app_length. cbn [length]. destruct (Nat.ltb_spec (length pre) (length pre + S (length post))) as [_|]; [|lia].
  rewrite insert_app_r_alt, Nat.sub_diag by lia. cbn. by rewrite <- app_assoc.
Qed.
Section Interp.
Context (fl : R -> R) (V : vspace) (n gdim : nat) (a : list R).
(** The point of a particle. *)
Notation pt p := (take gdim (px p)).
Notation ev p := (fe_eval fl V n a (pt p)).

Lemma interpolate_from_ok pts : forall vs pre mid post, Forall2 (fun p v => ev p = Ok v) pts vs -> length mid = length pts ->
  interpolate_from fl V n gdim a pts (length pre) (pre ++ mid ++ post) = Ok (pre ++ vs ++ post).
Proof.
  induction pts as [|p pts IH]; intros vs pre mid post H Hl; inversion H as [|? v ? vs' Hv Hvs]; subst.
  - destruct mid; [reflexivity|discriminate].
  - destruct mid as [|x mid]; [discriminate|]. cbn [interpolate_from]. rewrite Hv. cbn [app]. rewrite put_row_app.
    replace (S (length pre)) with (length (pre ++ [v])) by (rewrite app_length; cbn; lia).
    rewrite (IH vs' (pre ++ [v]) mid post Hvs) by (cbn in Hl; lia). by rewrite <- app_assoc.
Qed.
Lemma interpolate_ok pts vs out : Forall2 (fun p v => ev p = Ok v) pts vs -> (length pts <= length out)%nat ->
  interpolate fl V n gdim a pts out = Ok (vs ++ drop (length pts) out).
Proof.
  intros H Hle. unfold interpolate. rewrite <- (take_drop (length pts) out) at 1.
  apply (interpolate_from_ok pts vs [] _ _ H). rewrite take_length. lia.
Qed.
Lemma interpolate_from_inv pts : forall ip out out', interpolate_from fl V n gdim a pts ip out = Ok out' ->
  exists vs, Forall2 (fun p v => ev p = Ok v) pts vs.
Proof.
  induction pts as [|p pts IH]; intros ip out out' E; [by exists []|]. cbn [interpolate_from] in E.
  destruct (ev p) as [v|] eqn:Ev; [|discriminate]. destruct (put_row out ip v) as [o1|]; [|discriminate].
  destruct (IH _ _ _ E) as (vs & Hvs). exists (v :: vs). by constructor.
Qed.

Context (z : nat -> R).
(** The rows after the multiplication by random numbers, and the number of numbers drawn. *)
Fixpoint rrows (k : nat) (vs : list vec) : list vec :=
  match vs with
  | [] => []
  | v :: r => if Reqb (norm fl v) 0 then v :: rrows k r else map (fun x => fl (x * fl (1 * z k))) v :: rrows (S k) r
  end.
Definition drawn (vs : list vec) : nat := length (filter (fun v => Reqb (norm fl v) 0 = false) vs).
Lemma drawn_cons v vs : drawn (v :: vs) = if Reqb (norm fl v) 0 then drawn vs else S (drawn vs).
Proof. unfold drawn. rewrite filter_cons. by destruct (Reqb (norm fl v) 0). Qed.
Lemma rrows_length k vs : length (rrows k vs) = length vs.
Proof. revert k. induction vs as [|v vs IH]; intros k; [reflexivity|]. cbn [rrows]. destruct (Reqb _ 0); cbn [length]; by rewrite IH. Qed.
Lemma rrows_lookup vs : forall k i v, vs !! i = Some v -> rrows k vs !! i =
  Some (if Reqb (norm fl v) 0 then v else map (fun x => fl (x * fl (1 * z (k + drawn (take i vs))%nat))) v).
Proof.
  induction vs as [|w vs IH]; intros k [|i] v H; try discriminate.
  - cbn in H. injection H as ->. cbn [rrows take]. change (drawn []) with 0%nat. rewrite Nat.add_0_r. by destruct (Reqb (norm fl v) 0).
  - cbn in H. cbn [rrows take]. rewrite drawn_cons. destruct (Reqb (norm fl w) 0); cbn [lookup list_lookup]; rewrite (IH _ _ _ H).
    + reflexivity.
    + by replace (S k + drawn (take i vs))%nat with (k + S (drawn (take i vs)))%nat by lia.
Qed.
Lemma interpolate_random_from_ok pts : forall vs pre mid post k, Forall2 (fun p v => ev p = Ok v) pts vs -> length mid = length pts ->
  a <> [] -> interpolate_random_from fl V z n gdim a pts (length pre) (pre ++ mid ++ post) k = Ok (pre ++ rrows k vs ++ post, (k + drawn vs)%nat).
Proof.
  induction pts as [|p pts IH]; intros vs pre mid post k H Hl Hne; inversion H as [|? v ? vs' Hv Hvs]; subst.
  - destruct mid; [|discriminate]. cbn. change (drawn []) with 0%nat. by rewrite Nat.add_0_r.
  - destruct mid as [|x mid]; [discriminate|]. cbn [interpolate_random_from rrows]. rewrite Hv, drawn_cons. cbn [app].
    destruct (Nat.eqb_spec (length a) 0) as [H0|_]; [by destruct a|].
    destruct (Reqb (norm fl v) 0); rewrite put_row_app;
      match goal with |- context [(pre ++ [?w]) ++ _] => replace (S (length pre)) with (length (pre ++ [w])) by (rewrite app_length; cbn; lia);
        rewrite (IH vs' (pre ++ [w]) mid post _ Hvs) by (try exact Hne; cbn in Hl; lia) end.
    + by rewrite <- app_assoc.
    + rewrite <- app_assoc. cbn [app]. do 2 f_equal. lia.
Qed.
Lemma interpolate_random_ok pts vs out k : Forall2 (fun p v => ev p = Ok v) pts vs -> (length pts <= length out)%nat -> a <> [] ->
  interpolate_random fl V z n gdim a pts out k = Ok (rrows k vs ++ drop (length pts) out, (k + drawn vs)%nat).
Proof.
  intros H Hle Hne. unfold interpolate_random. rewrite <- (take_drop (length pts) out) at 1.
  apply (interpolate_random_from_ok pts vs [] _ _ k H); [|exact Hne]. rewrite take_length. lia.
Qed.
Lemma interpolate_random_from_inv pts : forall ip out k out', interpolate_random_from fl V z n gdim a pts ip out k = Ok out' ->
  exists vs, Forall2 (fun p v => ev p = Ok v) pts vs.
Proof.
  induction pts as [|p pts IH]; intros ip out k out' E; [by exists []|]. cbn [interpolate_random_from] in E.
  destruct (ev p) as [v|] eqn:Ev; [|discriminate].
  assert (Hx : exists vs, Forall2 (fun p v => ev p = Ok v) pts vs).
  { destruct (Reqb (norm fl v) 0).
    - destruct (put_row out ip v) as [o1|]; [|discriminate]. exact (IH _ _ _ _ E).
    - destruct (length a =? 0)%nat; [discriminate|]. destruct (put_row out ip _) as [o1|]; [|discriminate]. exact (IH _ _ _ _ E). }
  destruct Hx as (vs & Hvs). exists (v :: vs). by constructor.
Qed.
End Interp.

(** *** The value of a field at a point *)

Lemma combine_acc n bs : forall vals s d, Forall (fun b => length b = n) bs -> length s = n ->
  let v := fold_left (fun s vb => vadd exact s (vscale exact (fst vb) (snd vb))) (zip vals bs) s in
  length v = n /\ comp v d = comp s d + Rsum (zip_with (fun x b => x * comp b d) vals bs).
Proof.
  induction bs as [|b bs IH]; intros [|x vals] s d Hb Hs; cbn [zip zip_with fold_left]; try (split; [exact Hs|]; unfold Rsum; cbn; lra).
  inversion_clear Hb as [|? ? Hb1 Hb2]. cbn [fst snd].
  destruct (IH vals (vadd exact s (vscale exact x b)) d Hb2) as [H1 H2].
  { rewrite vadd_length; rewrite ?vscale_length; lia. }
  split; [exact H1|]. change (zip_with pair vals bs) with (zip vals bs). rewrite H2, comp_vadd by (rewrite vscale_length; lia). rewrite comp_vscale, Rsum_cons. lra.
Qed.
Lemma eval_iff V n a x v : Proper V n (length a) -> fe_eval exact V n a x = Ok v <-> field_at V n a x v.
Proof.
  intros HP. unfold fe_eval, field_at. destruct (vs_locate V x) as [c|] eqn:Ec.
  2: { split; [discriminate|]. intros (_ & c & Hc & _). discriminate. }
  destruct (HP x c Ec) as [Hd Hb]. rewrite gather_ok by (apply list.Forall_forall; exact Hd).
  assert (Hlen : forall d, length (combine exact n (map (at_ a) (vs_dofs V c)) (vs_basis V c x)) = n /\
    comp (combine exact n (map (at_ a) (vs_dofs V c)) (vs_basis V c x)) d = value_in V a c x d).
  { intros d. unfold combine. destruct (combine_acc n (vs_basis V c x) (map (at_ a) (vs_dofs V c)) (replicate n 0) d Hb (replicate_length _ _)) as [H1 H2].
    split; [exact H1|]. rewrite H2. rewrite nth_lookup. replace (default 0 (replicate n 0 !! d)) with 0.
    2: { destruct (replicate n 0 !! d) eqn:E; [|reflexivity]. apply lookup_replicate in E as [-> _]. reflexivity. }
    unfold value_in. rewrite Rplus_0_l. f_equal. change (map (at_ a) ?l) with (at_ a <$> l). by rewrite zip_with_fmap_l. }
  split.
  - intros [= <-]. split; [exact (proj1 (Hlen 0%nat))|]. exists c. split; [reflexivity|]. intros d. exact (proj2 (Hlen d)).
  - intros (Hl & c' & [= <-] & Hv). f_equal. apply (nth_ext _ _ 0 0).
    + rewrite Hl. exact (proj1 (Hlen 0%nat)).
    + intros d _. rewrite (Hv d). exact (proj2 (Hlen d)).
Qed.
Lemma norm_zero v : norm exact v = 0 <-> zero_vec v.
Proof.
  unfold norm, exact at 1. rewrite vdot_exact.
  assert (Hd : 0 <= dot v v /\ (dot v v = 0 <-> zero_vec v)).
  { induction v as [|x v [IH1 IH2]]; cbn [dot].
    - split; [lra|]. split; [|reflexivity]. intros _ d. by destruct d.
    - split; [nra|]. split.
      + intros H. assert (x = 0) by nra. assert (Hv : zero_vec v) by (apply IH2; nra). intros [|d]; [assumption|apply Hv].
      + intros H. assert (x = 0) as -> by exact (H 0%nat). assert (Hv : zero_vec v) by (intros d; exact (H (S d))). apply IH2 in Hv. nra. }
  destruct Hd as [H1 H2]. rewrite <- H2. split.
  - intros H. by apply R_sqrt.sqrt_eq_0.
  - intros ->. apply R_sqrt.sqrt_0.
Qed.

(** *** C58: interpolation to points *)

(** With every point in the mesh and enough room, the field at point [i] is written to element [i] and nothing else changes;
    a call that returns had every point in the mesh. *)
Theorem C58_interpolate V n gdim a pts out : Proper V n (length a) -> (length pts <= length out)%nat ->
  ((forall p, p ∈ pts -> vs_locate V (take gdim (px p)) <> None) ->
   exists out', interpolate exact V n gdim a pts out = Ok out' /\ length out' = length out /\
     (forall i p, pts !! i = Some p -> exists v, out' !! i = Some v /\ field_at V n a (take gdim (px p)) v) /\
     forall i, (length pts <= i)%nat -> out' !! i = out !! i) /\
  (forall out', interpolate exact V n gdim a pts out = Ok out' -> forall p, p ∈ pts -> vs_locate V (take gdim (px p)) <> None).
Proof.
  intros HP Hle. split.
  - intros Hin. assert (Hvs : exists vs, Forall2 (fun p v => fe_eval exact V n a (take gdim (px p)) = Ok v) pts vs).
    { clear Hle. induction pts as [|p pts IH]; [by exists []|]. destruct IH as (vs & Hvs); [intros q Hq; apply Hin; by right|].
      assert (Hp := Hin p (elem_of_list_here _ _)). unfold fe_eval. destruct (vs_locate V (take gdim (px p))) as [c|] eqn:Ec; [|done].
      destruct (HP _ _ Ec) as [Hd _]. eexists (_ :: vs). constructor; [|exact Hvs]. cbn beta. rewrite Ec.
      rewrite gather_ok by (apply list.Forall_forall; exact Hd). reflexivity. }
    destruct Hvs as (vs & Hvs). exists (vs ++ drop (length pts) out). split; [exact (interpolate_ok _ _ _ _ _ _ _ _ Hvs Hle)|].
    pose proof (Forall2_length _ _ _ Hvs) as Hl. split; [rewrite app_length, drop_length; lia|]. split.
    + intros i p Hp. destruct (Forall2_lookup_l _ _ _ _ _ Hvs Hp) as (v & Hv & Ev). exists v.
      rewrite lookup_app_l by (by eapply lookup_lt_Some). split; [exact Hv|]. by apply eval_iff.
    + intros i Hi. rewrite lookup_app_r by lia. rewrite lookup_drop. f_equal. lia.
  - intros out' E p Hp Hn. apply interpolate_from_inv in E as (vs & Hvs). apply elem_of_list_lookup in Hp as [i Hi].
    destruct (Forall2_lookup_l _ _ _ _ _ Hvs Hi) as (v & _ & Ev). unfold fe_eval in Ev. rewrite Hn in Ev. discriminate.
Qed.

(** The random interpolation multiplies the field at each point where it is not zero by a random number of its own, the numbers
    being used in the order of the points; the field stays zero where it is zero. *)
Theorem C58_interpolate_random V (z : nat -> R) n gdim a pts out k : Proper V n (length a) -> (length pts <= length out)%nat -> a <> [] ->
  ((forall p, p ∈ pts -> vs_locate V (take gdim (px p)) <> None) ->
   exists out' vs, interpolate_random exact V z n gdim a pts out k = Ok (out', (k + nonzero vs)%nat) /\
     length out' = length out /\ Forall2 (fun p v => field_at V n a (take gdim (px p)) v) pts vs /\
     (forall i v, vs !! i = Some v -> exists w, out' !! i = Some w /\ length w = n /\
        (zero_vec v -> zero_vec w) /\
        (~ zero_vec v -> forall d, comp w d = z (k + nonzero (take i vs))%nat * comp v d)) /\
     forall i, (length pts <= i)%nat -> out' !! i = out !! i) /\
  (forall r, interpolate_random exact V z n gdim a pts out k = Ok r -> forall p, p ∈ pts -> vs_locate V (take gdim (px p)) <> None).
Proof.
  intros HP Hle Hne.
  assert (Hdr : forall vs, drawn exact vs = nonzero vs).
  { induction vs as [|v vs IH]; [reflexivity|]. rewrite drawn_cons. unfold nonzero in *. rewrite filter_cons.
    assert (Hv : zero_vec v <-> existsb (fun x => negb (Reqb x 0)) v <> true).
    { clear. induction v as [|x v IH]; cbn [existsb].
      - split; [done|]. intros _ d. by destruct d.
      - unfold Reqb at 1. destruct (Req_EM_T x 0) as [->|Hx]; cbn [negb orb].
        + rewrite <- IH. split; [intros H d; exact (H (S d))|]. intros H [|d]; [reflexivity|apply H].
        + split; [|done]. intros H. exfalso. exact (Hx (H 0%nat)). }
    rewrite <- norm_zero in Hv. unfold Reqb at 1. destruct (Req_EM_T (norm exact v) 0) as [E|E].
    - rewrite decide_False by (by apply Hv). exact IH.
    - destruct (decide _) as [_|Hn]; [cbn [length]; by rewrite IH|]. exfalso. apply E. by apply Hv. }
  split.
  - intros Hin. assert (Hvs : exists vs, Forall2 (fun p v => fe_eval exact V n a (take gdim (px p)) = Ok v) pts vs).
    { destruct (C58_interpolate V n gdim a pts out HP Hle) as [H _]. destruct (H Hin) as (o & E & _). by apply interpolate_from_inv in E. }
    destruct Hvs as (vs & Hvs). exists (rrows exact z k vs ++ drop (length pts) out), vs. rewrite <- Hdr.
    split; [exact (interpolate_random_ok _ _ _ _ _ _ _ _ _ _ Hvs Hle Hne)|]. pose proof (Forall2_length _ _ _ Hvs) as Hl.
    split; [rewrite app_length, drop_length, rrows_length; lia|]. split.
    { eapply Forall2_impl; [exact Hvs|]. intros p v Hv. cbn beta in Hv. by apply eval_iff. }
    split.
    + intros i v Hv. pose proof (lookup_lt_Some _ _ _ Hv) as Hi. rewrite lookup_app_l by (by rewrite rrows_length).
      rewrite (rrows_lookup exact z vs k i v Hv). rewrite Hdr.
      assert (Hlv : length v = n). { destruct (Forall2_lookup_r _ _ _ _ _ Hvs Hv) as (p & _ & Ev). apply eval_iff in Ev; [|exact HP]. exact (proj1 Ev). }
      unfold Reqb. destruct (Req_EM_T (norm exact v) 0) as [E|E].
      * exists v. split; [reflexivity|]. split; [exact Hlv|]. split; [done|]. intros Hn. exfalso. apply Hn. by apply norm_zero.
      * eexists. split; [reflexivity|]. split; [by rewrite map_length|]. split; [intros Hz; exfalso; apply E; by apply norm_zero|].
        intros _ d. set (m := z _). destruct (Nat.lt_ge_cases d (length v)) as [Hd|Hd].
        { change (comp ?l d) with (at_ l d). rewrite (at_map (fun x => exact (x * exact (1 * m)))) by exact Hd. unfold exact, at_. lra. }
        rewrite !nth_overflow by (rewrite ?map_length; exact Hd). lra.
    + intros i Hi. rewrite lookup_app_r by (rewrite rrows_length; lia). rewrite rrows_length, lookup_drop. f_equal. lia.
  - intros r E p Hp Hn. apply interpolate_random_from_inv in E as (vs & Hvs). apply elem_of_list_lookup in Hp as [i Hi].
    destruct (Forall2_lookup_l _ _ _ _ _ Hvs Hi) as (v & _ & Ev). unfold fe_eval in Ev. rewrite Hn in Ev. discriminate.
Qed.

(** *** C58: the field outside of the subdomain *)

(** "Outside of that subdomain, the field is set to zero": so it is in every cell that shares no degree of freedom with the
    subdomain. *)
Theorem C58_outside V n value cells a x c : Proper V n (length a) -> SpaceOn V (length a) cells -> vs_locate V x = Some c ->
  (forall i, i ∈ vs_dofs V c -> ~ touched V cells i) ->
  exists a' v, set_values V value (Some cells) a = Ok a' /\ field_at V n a' x v /\ zero_vec v.
Proof.
  intros HP HS Hc Hno. destruct (C58_set_values V value cells a HS) as ((a' & E & Hl & Ha) & _).
  rewrite <- Hl in HP. destruct (HP x c Hc) as [Hd Hb].
  assert (Hz : forall d, value_in V a' c x d = 0).
  { intros d. unfold value_in. assert (Hall : forall i, i ∈ vs_dofs V c -> at_ a' i = 0).
    { intros i Hi. apply (Ha i); [rewrite <- Hl; by apply Hd|by apply Hno]. }
    clear Hno Hd Hb. revert Hall. generalize (vs_basis V c x). induction (vs_dofs V c) as [|i l IH]; intros [|b bs] Hall; try reflexivity.
    cbn [zip_with]. rewrite Rsum_cons, IH by (intros j Hj; apply Hall; by right). rewrite Hall by left. lra. }
  exists a'. destruct (fe_eval exact V n a' x) as [v|] eqn:Ev.
  - apply (eval_iff V n a' x v HP) in Ev. exists v. split; [exact E|]. split; [exact Ev|]. destruct Ev as (_ & c' & Hc' & Hv).
    rewrite Hc in Hc'. injection Hc' as <-. intros d. by rewrite Hv.
  - exfalso. unfold fe_eval in Ev. rewrite Hc in Ev. rewrite gather_ok in Ev by (apply list.Forall_forall; exact Hd). discriminate.
Qed.

(** A space of continuous functions on the interval from 0 to 2 with two cells: the vertex at 1 belongs to both. *)
Definition line2 : vspace :=
  VSpace (fun c => [Z.to_nat c; S (Z.to_nat c)])
         (fun x => let r := comp x 0 in if Rltb r 0 then None else if Rltb 2 r then None else if Rltb r 1 then Some 0%Z else Some 1%Z)
         (fun c x => [[IZR (c + 1) - comp x 0]; [comp x 0 - IZR c]]).
(** There the field set to 3 in the first cell is 3/2 in the middle of the second, and multiplying over both cells by 2
    multiplies the middle vertex by 4. *)
Theorem C58_outside_refuted : exists V n value cells a a' x c v, Proper V n (length a) /\ SpaceOn V (length a) cells /\
  vs_locate V x = Some c /\ c ∉ cells /\ set_values V value (Some cells) a = Ok a' /\ field_at V n a' x v /\ ~ zero_vec v.
Proof.
  exists line2, 1%nat, 3, [0%Z], [0; 0; 0], [3; 3; 0], [3 / 2], 1%Z, [3 / 2].
  assert (Hx : vs_locate line2 [3 / 2] = Some 1%Z).
  { cbn. unfold Rltb. destruct (Rlt_dec (3 / 2) 0) as [H|_]; [exfalso; lra|]. destruct (Rlt_dec 2 (3 / 2)) as [H|_]; [exfalso; lra|].
    destruct (Rlt_dec (3 / 2) 1) as [H|_]; [exfalso; lra|]. reflexivity. }
  split; [|split; [|split; [exact Hx|split; [|split; [reflexivity|split]]]]].
  - intros x c. cbn [line2 vs_locate length]. destruct (Rltb _ 0); [discriminate|]. destruct (Rltb 2 _); [discriminate|].
    destruct (Rltb _ 1); intros [= <-]; (split; [|repeat constructor]); intros i.
    + change (vs_dofs _ _) with [0%nat; 1%nat]. rewrite !elem_of_cons, elem_of_nil. lia.
    + change (vs_dofs _ _) with [1%nat; 2%nat]. rewrite !elem_of_cons, elem_of_nil. lia.
  - intros c Hc. apply elem_of_list_singleton in Hc as ->. split.
    + change (vs_dofs line2 0) with [0%nat; 1%nat]. repeat constructor; rewrite ?elem_of_cons, elem_of_nil; lia.
    + intros i. change (vs_dofs line2 0) with [0%nat; 1%nat]. cbn [length]. rewrite !elem_of_cons, elem_of_nil. lia.
  - rewrite elem_of_list_singleton. lia.
  - split; [reflexivity|]. exists 1%Z. split; [exact Hx|]. intros d. unfold value_in. change (vs_dofs line2 1) with [1%nat; 2%nat].
    change (vs_basis line2 1 [3 / 2]) with [[IZR 2 - 3 / 2]; [3 / 2 - IZR 1]]. unfold Rsum, at_. destruct d as [|[|d]]; cbn; lra.
  - intros H. specialize (H 0%nat). cbn in H. lra.
Qed.
Example C58_example :
  set_values line2 3 (Some [0%Z]) [7; 8; 9] = Ok [3; 3; 0] /\
  multiply_values exact line2 (fun _ => 5) 2 true (Some [0%Z; 1%Z]) [1; 1; 1] 4 = Ok ([1 * 2; 1 * 2 * 2; 1 * 2], 4%nat) /\
  (exists a', set_gaussian_values exact line2 INR 1 (Some [0%Z; 1%Z]) [7; 8; 9] 4 = Ok (a', 6%nat) /\ at_ a' 0 = 4 /\ at_ a' 1 = 5 /\ at_ a' 2 = 5) /\
  set_gaussian_values exact line2 INR 1 (Some [0%Z; 1%Z]) [7] 4 = Raise ValueError.
Proof.
  assert (H0 : Rltb 1 0 = false) by (unfold Rltb; destruct (Rlt_dec 1 0); [lra|reflexivity]).
  split; [reflexivity|]. split; [reflexivity|]. split.
  - cbn [set_gaussian_values]. unfold normals_at. rewrite H0. exists [1 * INR 4; 1 * INR 5; 1 * INR 5]. split; [reflexivity|]. unfold at_. cbn [nth].
    rewrite !INR_IZR_INZ. change (Z.of_nat 4) with 4%Z. change (Z.of_nat 5) with 5%Z. repeat split; lra.
  - cbn [set_gaussian_values]. unfold normals_at. rewrite H0. reflexivity.
Qed.
Example C58_example_interpolate : let p x := Particle [x] [x] [0] 1 0 0 1 0 in
  exists v w, interpolate exact line2 1 1 [0; 0; 4] [p (1/2); p (3/2)] [[9]; [9]; [9]] = Ok [[v]; [w]; [9]] /\ v = 0 /\ w = 2.
Proof.
  intros p. unfold interpolate, interpolate_from, fe_eval, p. cbn [px take line2 vs_locate vs_dofs vs_basis nth].
  unfold Rltb. destruct (Rlt_dec (1 / 2) 0) as [H|_]; [exfalso; lra|]. destruct (Rlt_dec 2 (1 / 2)) as [H|_]; [exfalso; lra|].
  destruct (Rlt_dec (1 / 2) 1) as [_|H]; [|exfalso; lra]. destruct (Rlt_dec (3 / 2) 0) as [H|_]; [exfalso; lra|].
  destruct (Rlt_dec 2 (3 / 2)) as [H|_]; [exfalso; lra|]. destruct (Rlt_dec (3 / 2) 1) as [H|_]; [exfalso; lra|].
  cbn [IZR Z.add Z.to_nat Nat.add gather lookup list_lookup]. change (IZR (0 + 1)) with 1. change (IZR (1 + 1)) with 2.
  exists (0 + 0 * (1 - 1 / 2) + 0 * (1 / 2 - 0)), (0 + 0 * (2 - 3 / 2) + 4 * (3 / 2 - 1)). split; [reflexivity|]. split; lra.
Qed.

Print Assumptions C58_set_values.
Print Assumptions C58_set_gaussian.
Print Assumptions C58_multiply.
Print Assumptions C58_multiply_once.
Print Assumptions C58_interpolate.
Print Assumptions C58_interpolate_random.
Print Assumptions C58_outside.
Print Assumptions C58_outside_refuted.
