(** C60: the fields of the C++ movers. *)
From stdpp Require Import strings list_numbers.
From Verif Require Import SapModel MoverModel SapProofs MoverProofs SapSpec SapRefine StorageProps SapCpp SapCppProofs Vec VecProofs TrackModel TrajModel TrajProps.
From Verif Require Import CppTrackModel CppTrackProps MeshFieldModel MeshFieldProps DensityModel DensityProps.
From Verif Require Import BatchProofs BatchProps CppPassProps CppFieldModel.
From Verif Require Import SumProps InsideModel InsideProps FieldProps.
From Coq Require Import ZifyBool ZifyNat Lra.
Ltac Zify.zify_post_hook ::= Z.div_mod_to_equations.
Local Open Scope R_scope.

(** ** Interpolation *)

Lemma store_length x o l y : CppTrackModel.store x o l = Ok y -> length y = length x.
Proof.
  unfold CppTrackModel.store. destruct (length x <? o + length l)%nat eqn:E; [discriminate|]. intros [= <-].
  rewrite !app_length, take_length, drop_length. lia.
Qed.
Lemma store_at x o l y k : CppTrackModel.store x o l = Ok y ->
  at_ y k = if (o <=? k)%nat && (k <? o + length l)%nat then at_ l (k - o) else at_ x k.
Proof.
  unfold CppTrackModel.store. destruct (length x <? o + length l)%nat eqn:E; [discriminate|]. intros [= <-].
  assert (Ho : length (take o x) = o) by (rewrite take_length; lia). unfold at_.
  destruct (o <=? k)%nat eqn:E1; cbn [andb].
  - rewrite app_nth2 by lia. rewrite Ho. destruct (k <? o + length l)%nat eqn:E2.
    + by rewrite app_nth1 by lia.
    + rewrite app_nth2 by lia. rewrite !nth_lookup, lookup_drop. f_equal. f_equal. lia.
  - rewrite app_nth1 by lia. rewrite !nth_lookup. by rewrite lookup_take by lia.
Qed.

(** The cell of the particle is one of the mesh and has [d] degrees of freedom, all of them of the field. *)
Definition has_cell (V : vspace) (ncells : Z) (d : nat) (a : list R) (p : particle) : Prop :=
  (0 <= pcell p < ncells)%Z /\ length (vs_dofs V (pcell p)) = d /\ forall i, i ∈ vs_dofs V (pcell p) -> (i < length a)%nat.

Lemma gather_at a idx : (forall i, i ∈ idx -> (i < length a)%nat) -> gather a idx = Ok (map (at_ a) idx).
Proof.
  induction idx as [|i idx IH]; intros H; [done|]. cbn [gather map]. rewrite IH by (intros j Hj; apply H; by right).
  destruct (lookup_lt_is_Some_2 a i) as [x Hx]; [apply H; left|]. rewrite Hx. cbn. do 2 f_equal. unfold at_. by rewrite nth_lookup, Hx.
Qed.

(** C60: [interpolate_field_to_points] of the C++ code, for a space with [d] degrees of freedom per cell and an array with [n]
    columns: it stays inside the array exactly when the last row has room for [d] numbers, and then row [i] has the first [n] degrees
    of freedom of the cell of particle [i]; further ones of the last particle are in the rows behind it. *)
Theorem C60_interpolate V ncells n d a pts out : (forall p, p ∈ pts -> has_cell V ncells d a p) ->
  ((exists out', cpp_interpolate V ncells n a pts out = Ok out') <-> pts = [] \/ ((length pts - 1) * n + d <= length out)%nat) /\
  forall out', cpp_interpolate V ncells n a pts out = Ok out' -> length out' = length out /\
    (forall i p j, pts !! i = Some p -> (j < d)%nat -> (j < n)%nat \/ S i = length pts ->
       exists k, vs_dofs V (pcell p) !! j = Some k /\ at_ out' (i * n + j) = at_ a k) /\
    forall k, (forall i, (i < length pts)%nat -> ~ (i * n <= k < i * n + d)%nat) -> at_ out' k = at_ out k.
Proof.
  intros H. unfold cpp_interpolate.
  enough (Hgen : forall pts ip out, (forall p, p ∈ pts -> has_cell V ncells d a p) ->
    ((exists out', cpp_interpolate_from V ncells n a pts ip out = Ok out') <-> pts = [] \/ ((ip + length pts - 1) * n + d <= length out)%nat) /\
    forall out', cpp_interpolate_from V ncells n a pts ip out = Ok out' -> length out' = length out /\
    (forall i p j, pts !! i = Some p -> (j < d)%nat -> (j < n)%nat \/ S i = length pts ->
       exists k, vs_dofs V (pcell p) !! j = Some k /\ at_ out' ((ip + i) * n + j) = at_ a k) /\
    forall k, (forall i, (i < length pts)%nat -> ~ ((ip + i) * n <= k < (ip + i) * n + d)%nat) -> at_ out' k = at_ out k).
  { specialize (Hgen pts 0%nat out H). exact Hgen. }
  clear. intros pts. induction pts as [|p pts IH]; intros ip out H.
  - split; [split; [by left|intros _; by eexists]|]. cbn. intros out' [= <-]. split; [done|]. split; [done|]. done.
  - destruct (H p ltac:(left)) as (Hc & Hd & Ha).
    assert (Hp : forall q, q ∈ pts -> has_cell V ncells d a q) by (intros q Hq; apply H; by right).
    cbn [cpp_interpolate_from]. destruct ((pcell p <? 0)%Z || (ncells <=? pcell p)%Z) eqn:Ec; [lia|].
    rewrite (gather_at _ _ Ha). set (vals := map (at_ a) (vs_dofs V (pcell p))).
    assert (Hl : length vals = d) by (unfold vals; by rewrite map_length).
    destruct (CppTrackModel.store out (ip * n) vals) as [out1|e] eqn:Es.
    + pose proof (store_length _ _ _ _ Es) as Hl1. destruct (IH (S ip) out1 Hp) as [I1 I2].
      assert (Hroom : (ip * n + d <= length out)%nat).
      { unfold CppTrackModel.store in Es. rewrite Hl in Es. destruct (length out <? ip * n + d)%nat eqn:E; [discriminate|]. lia. }
      split.
      * rewrite I1, Hl1. cbn [length]. split.
        -- intros [->|Hr]; right; cbn [length]; [|nia]. replace (ip + 1 - 1)%nat with ip by lia. exact Hroom.
        -- intros [?|Hr]; [done|]. right. nia.
      * intros out' E. destruct (I2 out' E) as (J1 & J2 & J3). split; [lia|]. split.
        -- intros [|i] q j Hq Hj Hcase.
           ++ injection Hq as <-. destruct (lookup_lt_is_Some_2 (vs_dofs V (pcell p)) j) as [k Hk]; [lia|]. exists k. split; [done|].
              rewrite J3.
              ** rewrite (store_at _ _ _ _ _ Es), Hl, Nat.add_0_r. destruct ((ip * n <=? ip * n + j)%nat && (ip * n + j <? ip * n + d)%nat) eqn:Eb; [|lia].
                 replace (ip * n + j - ip * n)%nat with j by lia. unfold at_ at 1. rewrite nth_lookup. unfold vals.
                 change (map ?g ?l) with (g <$> l). by rewrite list_lookup_fmap, Hk.
              ** intros i Hi. cbn [length] in Hcase. rewrite Nat.add_0_r. destruct Hcase as [Hcase|Hcase]; [nia|lia].
           ++ cbn in Hq. destruct (J2 i q j Hq Hj) as (k & K1 & K2); [cbn [length] in Hcase; lia|]. exists k. split; [done|].
              by replace (ip + S i)%nat with (S ip + i)%nat by lia.
        -- intros k Hk. rewrite J3.
           ++ rewrite (store_at _ _ _ _ _ Es), Hl. specialize (Hk 0%nat ltac:(cbn; lia)). rewrite Nat.add_0_r in Hk.
              destruct ((ip * n <=? k)%nat && (k <? ip * n + d)%nat) eqn:Eb; [|done]. exfalso. apply Hk. lia.
           ++ intros i Hi. specialize (Hk (S i) ltac:(cbn; lia)). by replace (S ip + i)%nat with (ip + S i)%nat by lia.
    + assert (Hroom : (length out < ip * n + d)%nat).
      { unfold CppTrackModel.store in Es. rewrite Hl in Es. destruct (length out <? ip * n + d)%nat eqn:E; [lia|discriminate]. }
      split; [|discriminate]. split; [intros (? & ?); discriminate|]. intros [?|Hr]; [done|]. cbn [length] in Hr. nia.
Qed.

(** ** Fields that are constant on each cell *)

(** In each cell the [i]-th of the [n] basis functions is the [i]-th unit vector. *)
Definition per_cell (V : vspace) (n ndof : nat) : Prop := forall x c, vs_locate V x = Some c ->
  length (vs_dofs V c) = n /\ (forall i, i ∈ vs_dofs V c -> (i < ndof)%nat) /\ length (vs_basis V c x) = n /\
  forall i b, vs_basis V c x !! i = Some b -> length b = n /\ forall d, comp b d = if (d =? i)%nat then 1 else 0.

Lemma unit_sum a : forall dofs bs o d, length dofs = length bs ->
  (forall i b, bs !! i = Some b -> comp b d = if (d =? o + i)%nat then 1 else 0) -> (o <= d)%nat ->
  Rsum (zip_with (fun i b => at_ a i * comp b d) dofs bs) = nth (d - o) (map (at_ a) dofs) 0.
Proof.
  induction dofs as [|i dofs IH]; intros [|b bs] o d Hl Hb Ho; try discriminate.
  - cbn. by destruct (d - o)%nat.
  - cbn [zip_with map]. rewrite Rsum_cons. rewrite (Hb 0%nat b eq_refl). rewrite Nat.add_0_r. destruct (d =? o)%nat eqn:E.
    + assert (d = o) as -> by lia. rewrite Nat.sub_diag. cbn [nth]. replace (Rsum _) with 0; [lra|]. symmetry.
      assert (Hz : forall ds cs k, (0 < k)%nat -> (forall j c, cs !! j = Some c -> comp c o = if (o =? o + k + j)%nat then 1 else 0) ->
        Rsum (zip_with (fun i b => at_ a i * comp b o) ds cs) = 0).
      { induction ds as [|e ds IHd]; intros [|c cs] k Hk Hc; try done. cbn [zip_with]. rewrite Rsum_cons.
        rewrite (Hc 0%nat c eq_refl), (IHd cs (S k)); [|lia|].
        - destruct (o =? o + k + 0)%nat eqn:E1; [lia|]. lra.
        - intros j c' Hj. rewrite (Hc (S j) c' Hj). by replace (o + k + S j)%nat with (o + S k + j)%nat by lia. }
      apply (Hz dofs bs 1%nat); [lia|]. intros j c Hj. rewrite (Hb (S j) c Hj). by replace (o + S j)%nat with (o + 1 + j)%nat by lia.
    + rewrite (IH bs (S o) d); [|by injection Hl|intros j c Hj; rewrite (Hb (S j) c Hj); by replace (o + S j)%nat with (S o + j)%nat by lia|lia].
      replace (d - o)%nat with (S (d - S o)) by lia. cbn [nth]. lra.
Qed.
Lemma eval_cell V n a x c : per_cell V n (length a) -> vs_locate V x = Some c -> fe_eval exact V n a x = Ok (map (at_ a) (vs_dofs V c)).
Proof.
  intros HP Hc. destruct (HP x c Hc) as (H1 & H2 & H3 & H4).
  apply eval_iff.
  - intros y e He. destruct (HP y e He) as (K1 & K2 & K3 & K4). split; [exact K2|]. apply list.Forall_forall. intros b Hb.
    apply elem_of_list_lookup in Hb as [i Hi]. by destruct (K4 i b Hi).
  - split; [by rewrite map_length|]. exists c. split; [exact Hc|]. intros d. unfold value_in.
    rewrite (unit_sum a _ _ 0 d); [by rewrite Nat.sub_0_r|lia| |lia]. intros i b Hb. by destruct (H4 i b Hb) as [_ ->].
Qed.

Definition cell_vals (V : vspace) (a : list R) (p : particle) : vec := map (at_ a) (vs_dofs V (pcell p)).

Lemma cpp_interpolate_rows V ncells n a pts out : (forall p, p ∈ pts -> has_cell V ncells n a p) -> (length pts * n <= length out)%nat ->
  cpp_interpolate V ncells n a pts out = Ok (concat (map (cell_vals V a) pts) ++ drop (length pts * n) out).
Proof.
  intros H Hle. unfold cpp_interpolate.
  enough (Hgen : forall pts ip pre rest, (forall p, p ∈ pts -> has_cell V ncells n a p) -> length pre = (ip * n)%nat -> (length pts * n <= length rest)%nat ->
    cpp_interpolate_from V ncells n a pts ip (pre ++ rest) = Ok (pre ++ concat (map (cell_vals V a) pts) ++ drop (length pts * n) rest)).
  { exact (Hgen pts 0%nat [] out H eq_refl Hle). }
  clear. intros pts. induction pts as [|p pts IH]; intros ip pre rest H Hp Hr.
  - cbn. by rewrite drop_0.
  - destruct (H p ltac:(left)) as (Hc & Hd & Ha). cbn [cpp_interpolate_from length] in *.
    destruct ((pcell p <? 0)%Z || (ncells <=? pcell p)%Z) eqn:Ec; [lia|]. rewrite (gather_at _ _ Ha). fold (cell_vals V a p).
    assert (Hl : length (cell_vals V a p) = n) by (unfold cell_vals; by rewrite map_length).
    unfold CppTrackModel.store. rewrite Hl, app_length. destruct (length pre + length rest <? ip * n + n)%nat eqn:E; [nia|].
    rewrite take_app_alt by (symmetry; exact Hp). rewrite drop_app_ge by lia. replace (ip * n + n - length pre)%nat with n by lia.
    rewrite app_assoc. rewrite (IH (S ip) (pre ++ cell_vals V a p) (drop n rest)).
    + cbn [map concat]. rewrite drop_drop, <- !app_assoc. by replace (n + length pts * n)%nat with (S (length pts) * n)%nat by lia.
    + intros q Hq. apply H. by right.
    + rewrite app_length. lia.
    + rewrite drop_length. lia.
Qed.

(** The particle is in its cell, as the search of the mesh finds it. *)
Definition in_own_cell (V : vspace) (gdim : nat) (p : particle) : Prop := vs_locate V (take gdim (px p)) = Some (pcell p).

(** C60: for a field that is constant on each cell, the C++ function fills the rows of its array with what the Python function puts
    into the elements of its array. *)
Theorem C60_constant V ncells n gdim a pts out : per_cell V n (length a) -> (length pts <= length out)%nat -> Forall (fun v => length v = n) out ->
  (forall p, p ∈ pts -> in_own_cell V gdim p /\ (0 <= pcell p < ncells)%Z) ->
  exists out', interpolate exact V n gdim a pts out = Ok out' /\ cpp_interpolate V ncells n a pts (concat out) = Ok (concat out').
Proof.
  intros HP Hle Hout Hin.
  assert (Hcl : forall o : list vec, Forall (fun v => length v = n) o -> length (concat o) = (length o * n)%nat).
  { induction 1 as [|v o Hv _ IH]; [done|]. cbn [concat length]. rewrite app_length, IH. lia. }
  exists (map (cell_vals V a) pts ++ drop (length pts) out). split.
  - apply MeshFieldProps.interpolate_ok; [|exact Hle]. change (map (cell_vals V a) pts) with (cell_vals V a <$> pts). apply Forall2_fmap_r, Forall_Forall2_diag, list.Forall_forall.
    intros p Hp. destruct (Hin p Hp) as [H1 _]. by apply eval_cell.
  - rewrite cpp_interpolate_rows.
    + rewrite concat_app. do 2 f_equal. clear - Hout Hle. revert pts Hle. induction Hout as [|v o Hv Hout IH]; intros pts Hle.
      * destruct pts; [done|cbn in Hle; lia].
      * destruct pts as [|p pts]; [by rewrite !drop_0|]. cbn [length] in *. cbn [concat drop]. rewrite drop_app_ge by lia.
        rewrite Hv. replace (S (length pts) * n - n)%nat with (length pts * n)%nat by lia. apply IH. lia.
    + intros p Hp. destruct (Hin p Hp) as [H1 H2]. destruct (HP _ _ H1) as (K1 & K2 & _). by split.
    + rewrite Hcl by exact Hout. nia.
Qed.

(** For a field that is linear on each cell it copies the value at the first vertex of the cell: at the point 3/2 of the second
    cell of [line2] the field with values 0, 2, 4 at the vertices is 3, and the C++ function gives 2.  In an array with one row it
    writes behind the array. *)
Definition lp : particle := Particle [3 / 2] [3 / 2] [0] 1 0 1 1 0.
Theorem C60_linear_refuted : in_own_cell line2 1 lp /\
  interpolate exact line2 1 1 [0; 2; 4] [lp] [[0]; [0]] = Ok [[3]; [0]] /\
  cpp_interpolate line2 2 1 [0; 2; 4] [lp] [0; 0] = Ok [2; 4] /\
  cpp_interpolate line2 2 1 [0; 2; 4] [lp] [0] = Raise UndefinedBehaviour.
Proof.
  assert (Hx : in_own_cell line2 1 lp).
  { unfold in_own_cell. cbn. unfold Rltb. destruct (Rlt_dec (3 / 2) 0) as [H|_]; [exfalso; lra|]. destruct (Rlt_dec 2 (3 / 2)) as [H|_]; [exfalso; lra|].
    destruct (Rlt_dec (3 / 2) 1) as [H|_]; [exfalso; lra|]. reflexivity. }
  split; [exact Hx|]. split; [|split; reflexivity].
  unfold interpolate. cbn [interpolate_from]. unfold fe_eval. unfold in_own_cell in Hx. rewrite Hx.
  unfold put_row. cbn. change (Z.to_nat 1) with 1%nat. cbn. unfold combine. cbn. unfold exact.
  change (1 + 1)%Z with 2%Z. replace (0 + 2 * (2 - 3 / 2) + 4 * (3 / 2 - 1)) with 3 by lra. reflexivity.
Qed.

(** ** The mover *)

Section Fields.
Context (mv : cmover) (ncells : Z) (negE Eext : option (vspace * list R)) (solved ext : option bool).
Notation n := (m_dim mv).

(** The arrays of the particle object: a row for each particle of a segment, and zeros in the arrays of the external field and of zeros
    (Particle_Module.py lines 538-541 make them with [np.zeros]). *)
Definition carrays_of (L : Z) (f : cfields) : Prop := length (cf_negE f) = (Z.to_nat L * n)%nat /\
  cf_Eext f = replicate (Z.to_nat L * n) 0 /\ cf_zeroE f = replicate (Z.to_nat L * n) 0.
(** The field of a particle: minus the values of the negative field in the particle's cell; zero without such a field; none when the
    species is not to have it. *)
Definition cpp_field (p : particle) : option vec :=
  match negE, solved with
  | None, _ => Some (replicate n 0)
  | Some _, Some false => None
  | Some (V, a), _ => Some (map Ropp (cell_vals V a p))
  end.
(** The cell of the particle exists and has the degrees of freedom that the array has room for, when the field is applied. *)
Definition has_cells (p : particle) : Prop := solved <> Some false -> forall V a, negE = Some (V, a) -> has_cell V ncells n a p.
(** The C++ code reads through its null pointer when the solved field is switched off for the species and the external one is not. *)
Definition reads_null : Prop := negE <> None /\ solved = Some false /\ Eext <> None /\ ext <> Some false.

Lemma add_zeros k x M : (k <= length x)%nat -> (k <= M)%nat -> c_add exact k x (replicate M 0) = Ok x.
Proof.
  intros H1 H2. unfold c_add. rewrite replicate_length. destruct ((length x <? k)%nat || (M <? k)%nat) eqn:E; [lia|].
  rewrite take_replicate, Nat.min_l by lia. f_equal. rewrite <- (take_drop k x) at 3. f_equal.
  assert (Hl : length (take k x) = k) by (rewrite take_length; lia). revert Hl. generalize (take k x). clear.
  intros l. revert k. induction l as [|v l IH]; intros [|k] Hl; try discriminate; [done|]. cbn [replicate zip_with]. unfold exact at 1.
  rewrite Rplus_0_r. f_equal. apply IH. by injection Hl.
Qed.
Lemma rows_length (vs : list vec) k : Forall (fun v => length v = k) vs -> length (concat vs) = (length vs * k)%nat.
Proof. induction 1 as [|v vs Hv _ IH]; [done|]. cbn [concat length]. rewrite app_length, IH. lia. Qed.
Lemma rows_at (vs : list vec) k r j v : Forall (fun v => length v = k) vs -> vs !! j = Some v -> take k (drop (j * k) (concat vs ++ r)) = v.
Proof.
  intros H. revert j. induction H as [|w vs Hw H IH]; intros [|j] Hj; try discriminate; cbn in Hj.
  - injection Hj as ->. cbn [concat]. rewrite Nat.mul_0_l, drop_0, <- app_assoc. rewrite take_app_alt; [done|lia].
  - cbn [concat]. rewrite <- app_assoc. rewrite drop_app_ge by lia. replace (S j * k - length w)%nat with (j * k)%nat by lia. by apply IH.
Qed.
Lemma concat_opp (vs : list vec) : map (fun v => exact (v * -1)) (concat vs) = concat (map (map Ropp) vs).
Proof.
  induction vs as [|v vs IH]; [done|]. cbn [concat map]. rewrite map_app, IH. f_equal. apply map_ext. intros x. unfold exact. lra.
Qed.

Section Live.
Context (L : Z) (items : list particle) (Hin : forall p, p ∈ items -> has_cells p) (Hnull : ~ reads_null).

Definition cJ (f : cfields) : Prop := carrays_of L f /\ (negE <> None /\ solved = Some false -> cf_ptr f = None).

Lemma cprep_step f ps : (length ps <= Z.to_nat L)%nat -> (forall p, p ∈ ps -> p ∈ items) -> cJ f ->
  exists f1, cpp_prep exact mv ncells negE Eext solved ext f ps = Ok f1 /\ cJ f1 /\
    forall j p, ps !! Z.to_nat j = Some p -> (0 <= j)%Z ->
      cpp_row mv f1 j = Ok (cpp_field p) /\ doubles (cf_Eext f1) (Z.to_nat j * n) n = Ok (replicate n 0).
Proof using Hin Hnull.
  intros Hlen Hps [(A1 & A2 & A3) A4].
  assert (Hk : (length ps * n <= Z.to_nat L * n)%nat) by nia.
  assert (Hzero : forall j p, ps !! Z.to_nat j = Some p -> doubles (replicate (Z.to_nat L * n) 0) (Z.to_nat j * n) n = Ok (replicate n 0)).
  { intros j p Hp. apply lookup_lt_Some in Hp. unfold doubles. rewrite replicate_length.
    destruct (Z.to_nat L * n <? Z.to_nat j * n + n)%nat eqn:E; [nia|]. rewrite drop_replicate, take_replicate. by rewrite Nat.min_l by nia. }
  assert (Hsolved : exists f1, cpp_prep_solved exact mv ncells negE solved f ps = Ok f1 /\ cJ f1 /\ (~ (negE <> None /\ solved = Some false) -> cf_ptr f1 <> None) /\
    forall j p, ps !! Z.to_nat j = Some p -> (0 <= j)%Z -> cpp_row mv f1 j = Ok (cpp_field p)).
  { unfold cpp_prep_solved, cpp_field, cpp_row. destruct negE as [[V a]|] eqn:En.
    - destruct (decide (solved = Some false)) as [Hs|Hs].
      + assert (Ha : c_applies solved = false) by (by rewrite Hs). rewrite Ha. exists f. split; [done|]. split; [split; [by split|intros [_ H0]; by apply A4]|].
        split; [intros H; exfalso; apply H; done|]. intros j p _ _. rewrite A4 by done. by rewrite Hs.
      + assert (Ha : c_applies solved = true) by (destruct solved as [[]|]; done). rewrite Ha.
        assert (Hc : forall p, p ∈ ps -> has_cell V ncells n a p) by (intros p Hp; by apply (Hin p (Hps p Hp) Hs V a)).
        assert (Hrow : Forall (fun v => length v = n) (map (cell_vals V a) ps)).
        { apply list.Forall_forall. intros v Hv. apply elem_of_list_In, in_map_iff in Hv as (p & <- & Hp).
          destruct (Hc p ltac:(by apply elem_of_list_In)) as (_ & Hd & _). unfold cell_vals. by rewrite map_length. }
        assert (Hll : length (concat (map (cell_vals V a) ps)) = (length ps * n)%nat) by (by rewrite (rows_length _ n Hrow), map_length).
        unfold c_comps. rewrite cpp_interpolate_rows by (first [exact Hc|rewrite A1; lia]). unfold c_flip. rewrite app_length, drop_length, Hll, A1.
        destruct (_ <? length ps * n)%nat eqn:E; [lia|]. rewrite take_app_alt by (symmetry; exact Hll). rewrite drop_app_alt by (symmetry; exact Hll).
        rewrite concat_opp. eexists. split; [reflexivity|]. cbn [cf_negE cf_Eext cf_zeroE cf_ptr].
        assert (Hrow2 : Forall (fun v => length v = n) (map (map Ropp) (map (cell_vals V a) ps))).
        { apply list.Forall_forall. intros v Hv. apply elem_of_list_In, in_map_iff in Hv as (w & <- & Hw). rewrite map_length.
          rewrite list.Forall_forall in Hrow. apply Hrow. by apply elem_of_list_In. }
        assert (Hl2 : length (concat (map (map Ropp) (map (cell_vals V a) ps))) = (length ps * n)%nat) by (by rewrite (rows_length _ n Hrow2), !map_length).
        split; [split; [split; [|by split]|]|split; [done|]].
        * cbn [cf_negE]. rewrite app_length, drop_length, Hl2, A1. lia.
        * intros [_ H]. done.
        * intros j p Hp Hj. cbn [cf_ptr cf_negE]. unfold doubles. rewrite app_length, drop_length, Hl2, A1.
          pose proof (lookup_lt_Some _ _ _ Hp). unfold c_comps. match goal with |- context [if ?b then _ else _] => destruct b eqn:E2; [nia|] end.
          rewrite (rows_at _ n _ (Z.to_nat j) (map Ropp (cell_vals V a p)) Hrow2); [by destruct solved as [[]|]|].
          change (map ?g ?l) with (g <$> l). change (map (cell_vals V a) ps) with (cell_vals V a <$> ps). rewrite !list_lookup_fmap, Hp. done.
    - eexists. split; [reflexivity|]. cbn [cf_negE cf_Eext cf_zeroE cf_ptr]. split; [split; [done|]|split; [done|]].
      + intros [H _]. by exfalso; apply H.
      + intros j p Hp Hj. cbn [cf_ptr cf_zeroE]. unfold c_comps. rewrite A3, (Hzero j p Hp). done. }
  destruct Hsolved as (f1 & Ef & ((B1 & B2 & B3) & B4) & B5 & B6). unfold cpp_prep. rewrite Ef.
  assert (Hplain : exists f2, Ok f1 = Ok f2 /\ cJ f2 /\ forall j p, ps !! Z.to_nat j = Some p -> (0 <= j)%Z ->
      cpp_row mv f2 j = Ok (cpp_field p) /\ doubles (cf_Eext f2) (Z.to_nat j * n) n = Ok (replicate n 0)).
  { exists f1. split; [done|]. split; [by split|]. intros j p Hp Hj. split; [by apply B6|]. rewrite B2. by apply (Hzero j p). }
  destruct Eext as [X|] eqn:Ex; [|exact Hplain]. destruct (c_applies ext) eqn:Ea; [|exact Hplain].
  assert (Hon : ext <> Some false) by (intros He; rewrite He in Ea; discriminate).
  assert (Hp : cf_ptr f1 <> None). { apply B5. intros [H1 H2]. apply Hnull. split; [done|]. by rewrite Ex. }
  destruct f1 as [a1 a2 a3 [[]|]]; cbn [cf_ptr cf_negE cf_Eext cf_zeroE] in *; [| |done]; subst a2 a3; unfold c_comps.
  - rewrite add_zeros by lia. exact Hplain.
  - rewrite add_zeros by (rewrite ?replicate_length; lia). exact Hplain.
Qed.
End Live.

Context (sn : string) (step : Z) (time dt qom : R) (maxc : Z) (cm : cmesh) (cbcs : Z -> option (cbcfun (K:=option traj))) (E1 Eext1 : vec).
Notation hk := (cpp_hooks exact mv sn step time dt qom maxc cm cbcs E1 Eext1 (fun p => Ok (cpp_field p, replicate n 0))).
Notation gmove := (cpp_charged_bmover exact mv ncells negE Eext solved ext sn step time dt qom maxc cm cbcs E1 Eext1).

(** C60: a pass of a C++ mover for charged particles is the pass over the particles one by one that gives each of them the values of
    the field in its own cell.  The external field has no effect. *)
Theorem C60_fields L k s xs c f : (2 <= L < 4294967296)%Z -> CReach L k s -> (Z.of_nat k + 2 < 4294967296)%Z -> CStores s xs ->
  carrays_of L f -> (forall p, p ∈ xs -> has_cells p) -> ~ reads_null ->
  exists f', carrays_of L f' /\
    gmove s c f = match guarded_mover (cpp_ops particle) hk s c with Ok (s', c') => Ok (s', c', f') | Raise e => Raise e end.
Proof.
  intros HL HR Hk Hs Hf Hin Hnull. unfold cpp_charged_bmover, guarded_mover.
  assert (Hc : get_number_of_items s = Z.of_nat (length xs)) by exact (proj1 Hs). rewrite Hc.
  destruct (Z.of_nat (length xs) =? 0)%Z eqn:E0; [by exists f|].
  assert (Hne : xs <> []) by (intros ->; done).
  destruct (creach_live L HL k s xs HR Hk Hs) as (cu & nin & nout & HLive & Hni & Hno).
  set (f0 := CFields (cf_negE f) (cf_Eext f) (cf_zeroE f) None).
  assert (HJ0 : cJ L f0) by (by split).
  assert (Hpiece : forall i ps, pieces L xs !! i = Some ps -> (length ps <= Z.to_nat L)%nat /\ forall p, p ∈ ps -> p ∈ xs).
  { intros i ps Hps. unfold pieces in Hps. change (map ?g ?l) with (g <$> l) in Hps. rewrite list_lookup_fmap in Hps.
    destruct (seq _ _ !! i) as [j|]; [|discriminate]. injection Hps as <-. split; [rewrite take_length; lia|].
    intros p Hp. apply elem_of_take in Hp as (u & Hu & _). apply (elem_of_list_lookup_2 _ (j * Z.to_nat L + u)). by rewrite lookup_drop in Hu. }
  pose proof (bmover_same_ops L (Z.of_nat k + 1) ltac:(lia) (cpp_ops particle)
    (fun s => cpp_next_in L ltac:(lia) (Z.of_nat k + 1) s ltac:(lia)) (fun s => cpp_next_out L ltac:(lia) (Z.of_nat k + 1) s ltac:(lia))
    (cpp_prep exact mv ncells negE Eext solved ext)
    (cpp_hooks_at exact mv sn step time dt qom maxc cm cbcs E1 Eext1) hk s xs cu nin nout c f0 (fun _ => cJ L) HLive Hne Hni Hno) as HB.
  specialize (HB (cpp_init_inout L ltac:(lia) s xs cu nin nout HLive) HJ0).
  assert (HJs : forall (i : Z) g g1 ps, pieces L xs !! Z.to_nat i = Some ps -> (0 <= i)%Z -> cJ L g -> cpp_prep exact mv ncells negE Eext solved ext g ps = Ok g1 -> cJ L g1 /\
    forall j p, ps !! Z.to_nat j = Some p -> (0 <= j)%Z -> same_at (cpp_hooks_at exact mv sn step time dt qom maxc cm cbcs E1 Eext1) hk g1 j (i * L + j)%Z p).
  { intros i g g1 ps Hps Hi Hg Eg. destruct (Hpiece _ _ Hps) as [P1 P2].
    destruct (cprep_step L xs Hin Hnull g ps P1 P2 Hg) as (g2 & Eg2 & Hg2 & Hrow). rewrite Eg in Eg2. injection Eg2 as <-. split; [exact Hg2|].
    intros j p Hp Hj. destruct (Hrow j p Hp Hj) as [R1 R2]. split; [|done]. intros c0. cbn [adv cpp_hooks_at cpp_hooks]. unfold c_comps. by rewrite R1, R2. }
  specialize (HB HJs).
  assert (Hok : forall cs g, (forall ps, ps ∈ cs -> ps ∈ pieces L xs) -> cJ L g -> exists g', preps (cpp_prep exact mv ncells negE Eext solved ext) g cs = Ok g').
  { induction cs as [|ps cs IH]; intros g Hcs Hg; [by eexists|]. cbn [preps].
    assert (Hps : ps ∈ pieces L xs) by (apply Hcs; left). apply elem_of_list_lookup in Hps as [i Hps]. destruct (Hpiece _ _ Hps) as [P1 P2].
    destruct (cprep_step L xs Hin Hnull g ps P1 P2 Hg) as (g2 & -> & Hg2 & _). apply IH; [|exact Hg2]. intros qs Hq. apply Hcs. by right. }
  destruct (Hok (pieces L xs) f0 ltac:(done) HJ0) as (f' & Ep). rewrite Ep in HB. destruct HB as [[HJ' _] HB]. by exists f'.
Qed.

(** With the solved field switched off for the species and an external field that is not, the C++ mover has no defined result. *)
Theorem C60_null L k s xs c f r : (2 <= L < 4294967296)%Z -> CReach L k s -> (Z.of_nat k + 2 < 4294967296)%Z -> CStores s xs -> xs <> [] ->
  reads_null -> gmove s c f <> Ok r.
Proof.
  intros HL HR Hk Hs Hne (H1 & H2 & H3 & H4) E. unfold cpp_charged_bmover in E.
  assert (Hc : get_number_of_items s = Z.of_nat (length xs)) by exact (proj1 Hs). rewrite Hc in E.
  destruct (Z.of_nat (length xs) =? 0)%Z eqn:E0; [destruct xs; done|].
  destruct (creach_live L HL k s xs HR Hk Hs) as (cu & nin & nout & HLive & Hni & Hno). destruct r as [[s' c'] f'].
  apply (bmover_preps_ops L (Z.of_nat k + 1) ltac:(lia) (cpp_ops particle)
    (fun s => cpp_next_in L ltac:(lia) (Z.of_nat k + 1) s ltac:(lia)) (fun s => cpp_next_out L ltac:(lia) (Z.of_nat k + 1) s ltac:(lia))
    _ _ s xs cu nin nout c _ s' c' f' HLive Hne Hni Hno (cpp_init_inout L ltac:(lia) s xs cu nin nout HLive)) in E.
  assert (Hp : exists ps r, pieces L xs = ps :: r).
  { unfold pieces. destruct (Z.to_nat ((Z.of_nat (length xs) - 1) / L + 1)) as [|q] eqn:Eq; [nia|]. cbn [seq map]. by eexists _, _. }
  destruct Hp as (ps & r & Hp). rewrite Hp in E. cbn [preps] in E. unfold cpp_prep, cpp_prep_solved in E.
  destruct negE as [[V a]|]; [|done]. rewrite H2 in E. cbn [c_applies] in E. destruct Eext; [|done]. destruct ext as [[]|]; [|done|]; discriminate.
Qed.
End Fields.

(** ** The same pass in Python and in C++ *)

(** Both succeed with the same, or both fail. *)
Definition same_res {A} (r1 r2 : res A) : Prop := match r1, r2 with Ok x, Ok y => x = y | Raise _, Raise _ => True | _, _ => False end.

Section Recorders.
Context {fl : R -> R} {K : Type} (cbcs : Z -> option (cbcfun (K:=K))) (r1 r2 : K -> Z -> particle -> R -> res K) (I : K -> Prop).
Context (Hr : forall k fi p t, I k -> same_res (r1 k fi p t) (r2 k fi p t) /\ forall k', r1 k fi p t = Ok k' -> I k').
Context (Hb : forall v b k p mf dx f n q k', cbcs v = Some b -> I k -> b k p mf dx f n = Ok (q, k') -> I k').

Lemma put_scratch_sized mv g p s s' x : put_scratch fl mv g p s = Ok (s', x) -> Sized s -> Sized s'.
Proof.
  unfold put_scratch. intros E [H1 H2]. cbv zeta in E.
  destruct (CppTrackModel.store (s_pcoord s) _ _) as [a1|] eqn:E1; [|discriminate].
  destruct (CppTrackModel.store a1 _ _) as [a2|] eqn:E2; [|discriminate].
  destruct (doubles a2 0 _) as [e|]; [|discriminate]. destruct (doubles a2 (m_put mv) _) as [b|]; [|discriminate].
  destruct (CppTrackModel.store (s_dx s) _ _) as [d|] eqn:E3; [|discriminate].
  destruct (doubles a2 (m_read mv) g) as [y|]; [|discriminate]. injection E as <- _.
  split; cbn; [by rewrite (store_length _ _ _ _ E2), (store_length _ _ _ _ E1)|by rewrite (store_length _ _ _ _ E3)].
Qed.
Lemma marker_rel mv cm fi mf dx f nn t p k : I k ->
  same_res (cpp_on_marker cbcs r1 mv cm fi mf dx f nn t p k) (cpp_on_marker cbcs r2 mv cm fi mf dx f nn t p k) /\
  forall q k', cpp_on_marker cbcs r1 mv cm fi mf dx f nn t p k = Ok (q, k') -> I k'.
Proof using Hr Hb.
  intros Hk. unfold cpp_on_marker. cbv zeta. destruct (c_marker cm mf =? 0)%Z; [split; [done|]; intros q k' [= _ <-]; done|].
  assert (H : exists o1 o2, (if is_traj p then r1 k fi p t else Ok k) = o1 /\ (if is_traj p then r2 k fi p t else Ok k) = o2 /\ same_res o1 o2 /\ forall k', o1 = Ok k' -> I k').
  { destruct (is_traj p); eexists _, _; (split; [reflexivity|]; split; [reflexivity|]); [by apply Hr|]. split; [done|]. intros k' [= <-]. done. }
  destruct H as (o1 & o2 & -> & -> & Ho & HI). destruct o1 as [k1|], o2 as [k2|]; try done. cbn in Ho. subst k2.
  destruct (cbcs (c_marker cm mf)) as [b|] eqn:Eb; [|done]. split; [by destruct (b k1 p mf dx f nn) as [|]|]. intros q k' E. exact (Hb _ _ _ _ _ _ _ _ _ _ Eb (HI k1 eq_refl) E).
Qed.
Lemma loop_rel mv cm maxc fi fuel : forall ci ml cnt tS dtR p s k, I k -> Sized s ->
  same_res (cpp_loop fl cbcs r1 fuel mv cm maxc fi ci ml cnt tS dtR p s k) (cpp_loop fl cbcs r2 fuel mv cm maxc fi ci ml cnt tS dtR p s k) /\
  forall q c' s' k', cpp_loop fl cbcs r1 fuel mv cm maxc fi ci ml cnt tS dtR p s k = Ok (q, c', s', k') -> I k' /\ Sized s'.
Proof using Hr Hb.
  induction fuel as [|fuel IH]; intros ci ml cnt tS dtR p s k Hk Hs; [done|]. cbn [cpp_loop]. cbv zeta.
  destruct (c_cell cm ci) as [cc|]; [|done]. destruct (is_inside_vertices _ _ _ _ _) as [[]|]; [| |done].
  { split; [done|]. intros q c' s' k' [= _ _ <- <-]. done. }
  destruct (maxc <? cnt + 1)%Z; [done|]. destruct (put_scratch fl mv (c_gdim cm) p s) as [[s1 x0]|] eqn:Es; [|done].
  assert (Hs1 : Sized s1) by (eapply put_scratch_sized; eauto).
  destruct (get_vertex_coordinates _ _ _) as [vco|]; [|done]. destruct (cpp_find_facet _ _ _ _ _ _) as [[[cf f] nn]|]; [|done].
  destruct (cf =? NO_FACET)%Z; [done|]. destruct (c_get (c_fids cc) cf) as [mf|]; [|done]. destruct (same_facet mf ml); [done|].
  match goal with |- context [cpp_on_marker cbcs r1 mv cm fi mf ?dx f nn ?t ?p1 k] => pose proof (marker_rel mv cm fi mf dx f nn t p1 k Hk) as [Hm HI];
    destruct (cpp_on_marker cbcs r1 mv cm fi mf dx f nn t p1 k) as [[p2 k2]|], (cpp_on_marker cbcs r2 mv cm fi mf dx f nn t p1 k) as [[p3 k3]|]; try (exfalso; exact Hm) end; [|done].
  cbn in Hm. injection Hm as <- <-. assert (Hk2 : I k2) by (by eapply HI). destruct (c_get (c_nbrs cc) cf) as [cn|]; [|done].
  destruct (cn =? NO_CELL)%Z; [destruct (is_deleted_cpp p2)|].
  - split; [done|]. intros q c' s' k' [= _ _ <- <-]. done.
  - by apply IH.
  - by apply IH.
Qed.
Lemma advance_rel mv a cm maxc fi time dt qmdt E p s k : I k -> Sized s ->
  same_res (cpp_advance_charged fl cbcs r1 mv a cm maxc fi time dt qmdt E p s k) (cpp_advance_charged fl cbcs r2 mv a cm maxc fi time dt qmdt E p s k) /\
  forall q s' k', cpp_advance_charged fl cbcs r1 mv a cm maxc fi time dt qmdt E p s k = Ok (q, s', k') -> I k' /\ Sized s'.
Proof using Hr Hb.
  intros Hk Hs. unfold cpp_advance_charged, cpp_track. set (p1 := free_move _ _ _).
  destruct (loop_rel mv cm maxc fi (track_fuel maxc) (pcell p1) NO_FACET 0 (fl (time - dt)) dt p1 s k Hk Hs) as [H HI].
  destruct (cpp_loop fl cbcs r1 _ _ _ _ _ _ _ _ _ _ _ _ _) as [[[[q1 c1] s1] k1]|], (cpp_loop fl cbcs r2 _ _ _ _ _ _ _ _ _ _ _ _ _) as [[[[q2 c2] s2] k2]|]; try (exfalso; exact H); [|done].
  cbn in H. injection H as <- <- <- <-. split; [done|]. intros q s' k' [= _ <- <-]. by eapply HI.
Qed.
End Recorders.

Section Same.
Context (mv : cmover) (ncells : Z) (negE : option (vspace * list R)) (solved pext : option bool).
Context (sn : string) (step : Z) (time dt qom : R) (maxc : Z) (m : mesh) (cm : cmesh) (cbcs : Z -> option (cbcfun (K:=option traj))) (E1 Eext1 : vec).
Notation n := (m_dim mv).
Context (Hm : SameMesh m cm) (Hmv : mv ∈ [ChargedX; ChargedXY; ChargedR]) (Hg : (gdim m <= n)%nat) (Hk : KeepsShape cbcs).

(** What makes the records of crossings the same: one coordinate, so that the first component of the field is all of it, or no
    trajectories at all. *)
Definition same_records (T : option traj) : Prop := (n = 1%nat /\ length E1 = 1%nat /\ length Eext1 = 1%nat) \/
  (T = None /\ forall v b p mf dx f nn q k', cbcs v = Some b -> b None p mf dx f nn = Ok (q, k') -> k' = None).
Definition shaped (p : particle) : Prop := length (px p) = n /\ length (pu p) = n.

(** The recorder of the Python mover. *)
Definition irec (Es : option vec) (k : option traj) (fi : Z) (p : particle) (t : R) : res (option traj) :=
  match Es with None => Raise TypeError | Some e => record_datum k sn p fi step t e (replicate n 0) true end.
Lemma irec_same Es k fi p t : (forall e, Es = Some e -> length e = n) -> same_records k ->
  same_res (cpp_record sn step E1 Eext1 Es (replicate n 0) k fi p t) (irec Es k fi p t) /\
  forall k', cpp_record sn step E1 Eext1 Es (replicate n 0) k fi p t = Ok k' -> same_records k'.
Proof.
  intros HE HI. unfold cpp_record, irec. destruct Es as [e|]; [|done]. specialize (HE e eq_refl). destruct HI as [(H1 & H2 & H3)|[-> H]].
  - assert (Heq : take 1 e ++ drop 1 E1 = e /\ take 1 (replicate n 0) ++ drop 1 Eext1 = replicate n 0).
    { rewrite !take_ge by (rewrite ?replicate_length; lia). rewrite !drop_ge by lia. by rewrite !app_nil_r. }
    destruct Heq as [-> ->]. split; [by destruct (record_datum _ _ _ _ _ _ _ _ _)|]. intros k' _. by left.
  - cbn [record_datum]. split; [done|]. intros k' [= <-]. by right.
Qed.
Lemma same_bc T v b k p mf dx f nn q k' : same_records T -> cbcs v = Some b -> same_records k -> b k p mf dx f nn = Ok (q, k') -> same_records k'.
Proof.
  intros _ Hv [H|[-> H]] E; [by left|]. rewrite (H _ _ _ _ _ _ _ _ _ Hv E). by right.
Qed.

Notation phk g := (each_hooks exact n negE None solved pext sn step time dt qom maxc m (py_bcs cbcs) false g (fun i _ => [])).
Notation chk Es := (cpp_hooks exact mv sn step time dt qom maxc cm cbcs E1 Eext1 (fun p => Ok (Es p, replicate n 0))).

Lemma seq_sim g (Es : particle -> option vec) h xs :
  (forall p, p ∈ xs -> shaped p) -> (forall p, p ∈ xs -> select_E exact n (option_map (fun _ => g) negE) None solved pext p = Ok (Es p)) ->
  (forall p e, p ∈ xs -> Es p = Some e -> length e = n) ->
  forall i kept ch c sc T, usr c = T -> Sized sc -> same_records T ->
  match seq_pass (each_hooks exact n negE None solved pext sn step time dt qom maxc m (py_bcs cbcs) false g h) i kept ch c xs, seq_pass (chk Es) i kept ch (sc, T) xs with
  | Ok (ys, c'), Ok (ys', (sc', T')) => ys = ys' /\ usr c' = T' /\ Sized sc' /\ same_records T'
  | Raise _, Raise _ => True
  | _, _ => False
  end.
Proof using All.
  intros Hsh Hsel HEl. induction xs as [|p xs IH]; intros i kept ch c sc T Hu Hsc HT; [cbn; done|]. cbn [seq_pass].
  assert (Hp : p ∈ p :: xs) by left.
  set (o1 := adv (each_hooks _ _ _ _ _ _ _ _ _ _ _ _ _ _ _ _ _) c i p). set (o2 := adv (chk Es) (sc, T) i p).
  assert (Ho : match o1, o2 with Ok (q, c1), Ok (q', (s1, T1)) => q = q' /\ usr c1 = T1 /\ Sized s1 /\ same_records T1 | Raise _, Raise _ => True | _, _ => False end).
  { subst o1 o2. cbn [adv each_hooks charged_hooks cpp_hooks fst snd option_map]. rewrite (Hsel p Hp). destruct (Hsh p Hp) as [S1 S2].
    assert (HE : forall e, Es p = Some e -> length e = n) by (intros e; by apply HEl).
    pose proof (C19_charged cbcs (irec (Es p)) m cm mv maxc i time dt (exact (qom * dt)) (Es p) false p c sc Hm Hmv Hg Hk Hsc S1 S2 HE) as H19.
    destruct (advance_rel (fl:=exact) cbcs (cpp_record sn step E1 Eext1 (Es p) (replicate n 0)) (irec (Es p)) same_records
      ltac:(intros k fi q t HkT; by apply irec_same) ltac:(intros v b k q mf dx f nn q' k' Hv HkT E; exact (same_bc T v b k q mf dx f nn q' k' HT Hv HkT E))
      mv false cm maxc i time dt (exact (qom * dt)) (Es p) p sc T HT Hsc) as [Hrel HI].
    set (A := advance_charged exact (py_bcs cbcs) (py_recd (irec (Es p))) false m maxc i time dt (exact (qom * dt)) (Es p) p c) in H19.
    assert (Hconv : advance_charged exact (py_bcs cbcs) (rec_crossing_charged sn step n (Es p) None pext p) false m maxc i time dt (exact (qom * dt)) (Es p) p c = A).
    { unfold A. destruct (Es p); reflexivity. }
    rewrite Hconv. rewrite Hu in H19. clear Hconv. clearbody A. unfold SameOutcome in H19.
    set (B := cpp_advance_charged exact cbcs (irec (Es p)) mv false cm maxc i time dt (exact (qom * dt)) (Es p) p sc T) in H19, Hrel.
    clearbody B. set (D := cpp_advance_charged exact cbcs (cpp_record sn step E1 Eext1 (Es p) (replicate n 0)) mv false cm maxc i time dt (exact (qom * dt)) (Es p) p sc T) in *.
    clearbody D. destruct A as [[q c1]|], B as [[[q' s1] T1]|]; try (exfalso; exact H19).
    - destruct H19 as [<- <-]. destruct D as [[[q2 s2] T2]|]; [|exfalso; exact Hrel].
      cbn in Hrel. injection Hrel as -> -> ->. destruct (HI _ _ _ eq_refl) as [HI1 HI2]. exact (conj eq_refl (conj eq_refl (conj HI2 HI1))).
    - destruct D as [[[q2 s2] T2]|]; [exact Hrel|exact I]. }
  clearbody o1 o2. destruct o1 as [[q c1]|], o2 as [[q' [s1 T1]]|]; try (exfalso; exact Ho); [|done]. destruct Ho as (<- & Hu1 & Hs1 & HT1).
  assert (IH' := IH ltac:(intros p' Hp'; apply Hsh; by right) ltac:(intros p' Hp'; apply Hsel; by right) ltac:(intros p' e Hp'; apply HEl; by right)). clear IH.
  cbn [deleted each_hooks cpp_hooks on_drop on_keep].
  change (cpp_is_dropped q) with (is_deleted q). destruct (is_deleted q).
  - unfold drop_particle, cpp_drop. cbn [fst snd]. rewrite Hu1. destruct T1 as [t1|].
    + destruct (is_traj p).
      * unfold c_comps. destruct (remove_particleId _ _ _ _ _ _ _ _ _) as [t2|]; [|done]. apply IH'; [done..|]. destruct HT1 as [H|[H _]]; [by left|discriminate].
      * by apply IH'.
    + by apply IH'.
  - unfold keep_particle, cpp_keep. cbn [fst snd]. rewrite Hu1. destruct T1 as [t1|].
    + destruct (is_traj q); [destruct ch|]; cbn [andb].
      * destruct (update_particleId _ _ _ _) as [t2|]; [|done]. apply IH'; [done..|]. destruct HT1 as [H|[H _]]; [by left|discriminate].
      * by apply IH'.
      * by apply IH'.
    + by apply IH'.
Qed.
End Same.

(** C60: the whole pass.  For a field that is constant on each cell and particles in their own cells, the C++ mover, with any external
    field, leaves the particles and trajectories that the Python mover without an external field leaves, or both fail. *)
Theorem C60_same mv ncells gd negE Eext solved ext pext z sn step time dt qom maxc m cm cbcs E1 Eext1 L k s1 s2 xs c1 sc f1 f2 :
  (2 <= L < 4294967296)%Z -> Reachable L s1 -> Stores s1 xs -> CReach L k s2 -> (Z.of_nat k + 2 < 4294967296)%Z -> CStores s2 xs ->
  SameMesh m cm -> mv ∈ [ChargedX; ChargedXY; ChargedR] -> (gdim m <= m_dim mv)%nat -> KeepsShape cbcs -> Sized sc ->
  same_records mv cbcs E1 Eext1 (usr c1) -> (forall p, p ∈ xs -> shaped mv p) ->
  (forall V a, negE = Some (V, a) -> per_cell V (m_dim mv) (length a) /\ forall p, p ∈ xs -> in_own_cell V gd p /\ (0 <= pcell p < ncells)%Z) ->
  arrays_of L f1 -> carrays_of mv L f2 -> ~ reads_null negE Eext solved ext ->
  match cpp_charged_bmover exact mv ncells negE Eext solved ext sn step time dt qom maxc cm cbcs E1 Eext1 s2 (sc, usr c1) f2 with
  | Ok (s2', (sc', T'), f2') => exists s1' c1' f1' ys,
      charged_guarded_bmover exact z (m_dim mv) gd negE None solved pext sn step time dt qom maxc m (py_bcs cbcs) false s1 c1 f1 = Ok (s1', c1', f1') /\
      Stores s1' ys /\ CStores s2' ys /\ usr c1' = T' /\ Sized sc' /\ carrays_of mv L f2'
  | Raise _ => exists e, charged_guarded_bmover exact z (m_dim mv) gd negE None solved pext sn step time dt qom maxc m (py_bcs cbcs) false s1 c1 f1 = Raise e
  end.
Proof.
  intros HL HR1 Hs1 HR2 Hk2 Hs2 Hm Hmv Hg Hk Hsc Hrec Hsh Hf Hf1 Hf2 Hnull.
  assert (Hin : forall p, p ∈ xs -> has_cells mv ncells negE solved p).
  { intros p Hp _ V a En. destruct (Hf V a En) as [HP Hin]. destruct (Hin p Hp) as [H1 H2]. destruct (HP _ _ H1) as (K1 & K2 & _). by split. }
  destruct (C60_fields mv ncells negE Eext solved ext sn step time dt qom maxc cm cbcs E1 Eext1 L k s2 xs (sc, usr c1) f2 HL HR2 Hk2 Hs2 Hf2 Hin Hnull) as (f2' & Hf2' & ->).
  set (g := value exact (m_dim mv) gd negE). set (h := fun (i : Z) (_ : particle) => random_value exact z (m_dim mv) gd None (sf_rng f1) xs (Z.to_nat i)).
  assert (Hval : forall p V a, p ∈ xs -> negE = Some (V, a) -> fe_eval exact V (m_dim mv) a (take gd (px p)) = Ok (cell_vals V a p)).
  { intros p V a Hp En. destruct (Hf V a En) as [HP Hi]. destruct (Hi p Hp) as [H1 _]. exact (eval_cell _ _ _ _ _ HP H1). }
  assert (Hgp : forall p V a, p ∈ xs -> negE = Some (V, a) -> g p = cell_vals V a p).
  { intros p V a Hp En. symmetry. apply value_unique. exists V, a. split; [exact En|]. by apply Hval. }
  assert (Hsel : forall p, p ∈ xs -> select_E exact (m_dim mv) (option_map (fun _ => g) negE) None solved pext p = Ok (cpp_field mv negE solved p)).
  { intros p Hp. unfold select_E, cpp_field. destruct negE as [[V a]|] eqn:En; [|done]. cbn [option_map]. rewrite (Hgp p V a Hp eq_refl).
    assert (Hopp : map (fun x => exact (x * -1)) (cell_vals V a p) = map Ropp (cell_vals V a p)) by (apply map_ext; intros x; unfold exact; lra).
    rewrite Hopp. by destruct solved as [[]|]. }
  assert (HEl : forall p e, p ∈ xs -> cpp_field mv negE solved p = Some e -> length e = m_dim mv).
  { intros p e Hp. unfold cpp_field. destruct negE as [[V a]|] eqn:En; [|intros [= <-]; apply replicate_length].
    destruct (Hf V a eq_refl) as [HP Hi]. destruct (Hi p Hp) as [H1 _]. destruct (HP _ _ H1) as (K1 & _).
    destruct solved as [[]|]; [|discriminate|]; intros [= <-]; rewrite map_length; unfold cell_vals; by rewrite map_length. }
  pose proof (seq_sim mv ncells negE solved pext sn step time dt qom maxc m cm cbcs E1 Eext1 Hm Hmv Hg Hk g (cpp_field mv negE solved) h xs Hsh Hsel HEl 0 [] false c1 sc (usr c1)
    eq_refl Hsc Hrec) as Hsim.
  pose proof (C04_cpp_pass_is_sequential L k s2 xs (cpp_hooks exact mv sn step time dt qom maxc cm cbcs E1 Eext1 (fun p => Ok (cpp_field mv negE solved p, replicate (m_dim mv) 0)))
    (sc, usr c1) HL HR2 Hk2 Hs2) as HC.
  pose proof (C04_pass_is_sequential L s1 xs (each_hooks exact (m_dim mv) negE None solved pext sn step time dt qom maxc m (py_bcs cbcs) false g h) c1 ltac:(lia) HR1 Hs1) as HP.
  pose proof (C59_fields exact z (m_dim mv) gd negE None solved pext sn step time dt qom maxc m (py_bcs cbcs) false L s1 xs c1 f1 ltac:(lia) HR1 Hs1 Hf1 ltac:(discriminate)) as H59.
  fold g in H59. fold h in H59.
  destruct (seq_pass (cpp_hooks _ _ _ _ _ _ _ _ _ _ _ _ _) 0 [] false (sc, usr c1) xs) as [[ys [sc' T']]|e].
  - destruct HC as (s2' & -> & Hst2 & _). destruct (seq_pass _ 0 [] false c1 xs) as [[ys1 c1']|]; [|exfalso; exact Hsim].
    destruct Hsim as (-> & <- & Hsc' & _). destruct HP as (s1' & EP & Hst1 & _).
    destruct (proj2 (H59 s1' c1')) as (f1' & Ef1).
    { split; [|exact EP]. intros p Hp. split; [|intros [H _]; by exfalso; apply H]. intros [Hn _]. destruct negE as [[V a]|] eqn:En; [|by exfalso; apply Hn].
      exists (cell_vals V a p), V, a. split; [reflexivity|]. by apply Hval. }
    exists s1', c1', f1', ys. split; [exact Ef1|]. split; [exact Hst1|]. split; [exact Hst2|]. split; [reflexivity|]. split; [exact Hsc'|exact Hf2'].
  - rewrite HC. destruct (seq_pass _ 0 [] false c1 xs) as [[ys1 c1']|e1]; [exfalso; exact Hsim|].
    destruct (charged_guarded_bmover _ _ _ _ _ _ _ _ _ _ _ _ _ _ _ _ _ s1 c1 f1) as [[[s1' c1'] f1']|e2]; [|by exists e2].
    exfalso. destruct (proj1 (H59 s1' c1') ltac:(by exists f1')) as [_ EP]. rewrite HP in EP. discriminate.
Qed.

(** The fields of the recorded points. *)
Definition recorded (T : traj) (sn : string) : list (option (vec * vec)) := map (option_map (fun d => (d_E d, d_Eext d))) (concat (map e_data (t_sp T sn))).
(** C60: of the fields, only the first component is recorded at a crossing: in the plane the second component is what the arrays
    happened to contain, whatever the field [u] is. *)
Theorem C60_record_refuted u y z y' z' : exists (T T1 T2 : traj) sn p,
  irec ChargedXY sn 1 (Some [3; u]) (Some T) 0 p 2 = Ok (Some T1) /\ recorded T1 sn = [Some ([3; u], [0; 0])] /\
  cpp_record sn 1 [y; z] [y'; z'] (Some [3; u]) [0; 0] (Some T) 0 p 2 = Ok (Some T2) /\ recorded T2 sn = [Some ([3; z], [0; z'])].
Proof.
  eexists (Traj 1 None (fun _ => [Entry 0 7 0 [None]])), _, _, "e"%string, (thrown [1; 1] [0; 0]).
  split; [reflexivity|]. split; [reflexivity|]. split; reflexivity.
Qed.

(** *** A concrete case *)

(** The triangle as the only cell, and a field that is constant on it. *)
Definition const2 : vspace := VSpace (fun _ => [0; 1]%nat) (fun x => Some 0%Z) (fun _ _ => [[1; 0]; [0; 1]]).
Lemma const2_per_cell : per_cell const2 2 2.
Proof.
  intros x c [= <-]. split; [done|]. split; [intros i Hi; cbn in Hi; rewrite !elem_of_cons, elem_of_nil in Hi; lia|]. split; [done|].
  intros [|[|i]] b Hb; [| |by destruct i]; injection Hb as <-; (split; [done|]); intros [|[|d]]; try reflexivity; by destruct d.
Qed.
Lemma tri_in y : 0 <= y -> y <= 1 -> is_inside_vertices 2 2 tri_verts [0; 1; 2]%nat [1; y] = Ok true.
Proof.
  intros Hy1 Hy2. destruct (C37_inside 2 tri_verts [0; 1; 2]%nat [1; y] ltac:(lia) eq_refl) as [H|(b & -> & Hb)]; [|done|].
  - intros v Hv. cbn. rewrite !elem_of_cons, elem_of_nil in Hv. lia.
  - f_equal. apply Hb. apply hull3. exists (3/4 - y / 3), (1/4), (y / 3). split; [lra|]. split; [lra|]. split; [lra|]. split; [lra|].
    intros i Hi. destruct i as [|[|i]]; [| |lia]; unfold mesh_vertex, co; cbn; lra.
Qed.
Definition tp (y w : R) (id : Z) : particle := Particle [1; y] [0; 0] [0; w] 1 0 0 id 0.
Definition tp3 : list particle := [tp 1 0 1; tp (1/2) (1/4) 2; tp 1 (-1/4) 3].
Definition no_bcs : Z -> option (cbcfun (K:=option traj)) := fun _ => None.
Definition moved (y w e : R) (id : Z) : particle := Particle [1 + (0 + 1 * 1 * - 0) * 1; y + (w + 1 * 1 * - e) * 1] [1; y] [0 + 1 * 1 * - 0; w + 1 * 1 * - e] 1 0 0 id 0.
Lemma tri_adv E1 X1 y w e id c i : 0 <= y + (w - e) <= 1 ->
  adv (cpp_hooks exact ChargedXY "e" 0 1 1 1 10 tri_cmesh no_bcs E1 X1 (fun p => Ok (cpp_field ChargedXY (Some (const2, [0; e])) None p, replicate 2 0))) c i (tp y w id) =
  Ok (moved y w e id, c).
Proof.
  intros H. cbn [adv cpp_hooks cpp_field]. unfold cpp_advance_charged. cbn [cell_vals const2 vs_dofs]. unfold cpp_track, track_fuel.
  set (p := free_move exact 1 _). assert (Ep : p = moved y w e id) by reflexivity. rewrite Ep. clear p Ep. cbn [pcell moved cpp_loop]. cbv zeta.
  change (c_cell tri_cmesh 0) with (Ok (CCell [0; 1; 2]%nat [3/5; 4/5; 0; -1; 0; 0; 0; -1; 0] [0; 1; 2]%Z [-1; -1; -1]%Z)). cbn iota beta.
  change (c_tdim tri_cmesh) with 2%nat. change (c_gdim tri_cmesh) with 2%nat. change (c_coords tri_cmesh) with tri_verts. cbn [c_verts m_dim px moved take].
  replace (1 + (0 + 1 * 1 * - 0) * 1) with 1 at 1 by lra. rewrite tri_in by lra. cbn. by destruct c.
Qed.
(** Three particles in segments of two, in a field of -1/2 and with an external field: each is accelerated by the field of its cell
    alone. *)
Example C60_example X1 X2 : exists s s' c' f', CReach 2 3 s /\ CStores s tp3 /\
  cpp_charged_bmover exact ChargedXY 1 (Some (const2, [0; 1/2])) (Some (const2, [7; 8])) None None "e" 0 1 1 1 10 tri_cmesh no_bcs X1 X2 s (zeros, None)
    (CFields [1; 2; 3; 4] (replicate 4 0) (replicate 4 0) None) = Ok (s', c', f') /\
  exists ys, CStores s' ys /\ map puid ys = [1; 2; 3]%Z /\ map pu ys = [[0; -1/2]; [0; -1/4]; [0; -3/4]] /\ map px ys = [[1; 1/2]; [1; 1/4]; [1; 1/4]].
Proof.
  set (after := fun s x => match c_step true s (Push x) with Ok (s', _) => s' | Raise _ => s end : sap particle).
  set (s1 := after (c_init 2) (tp 1 0 1)). set (s2 := after s1 (tp (1/2) (1/4) 2)). set (s3 := after s2 (tp 1 (-1/4) 3)).
  assert (HR : CReach 2 3 s3).
  { apply (cr_op 2 2 true s2 (Push (tp 1 (-1/4) 3)) s3 (OPos 0 2)); [|discriminate|reflexivity].
    apply (cr_op 2 1 true s1 (Push (tp (1/2) (1/4) 2)) s2 (OPos 1 1)); [|discriminate|reflexivity].
    apply (cr_op 2 0 true (c_init 2) (Push (tp 1 0 1)) s1 (OPos 0 0)); [apply cr_new|discriminate|reflexivity]. }
  assert (Hs : CStores s3 tp3).
  { split; [reflexivity|]. intros [|[|[|k]]] x Hx; try discriminate; injection Hx as <-; reflexivity. }
  clearbody s3. clear after s1 s2.
  set (hk := cpp_hooks exact ChargedXY "e" 0 1 1 1 10 tri_cmesh no_bcs X1 X2 (fun p => Ok (cpp_field ChargedXY (Some (const2, [0; 1/2])) None p, replicate 2 0))).
  destruct (C60_fields ChargedXY 1 (Some (const2, [0; 1/2])) (Some (const2, [7; 8])) None None "e" 0 1 1 1 10 tri_cmesh no_bcs X1 X2 2 3 s3 tp3 (zeros, None)
    (CFields [1; 2; 3; 4] (replicate 4 0) (replicate 4 0) None) ltac:(lia) HR ltac:(lia) Hs ltac:(done)) as (f' & _ & Ef).
  { intros p Hp _ V a [= <- <-]. split; [|split; [done|]].
    - unfold tp3 in Hp. rewrite !elem_of_cons, elem_of_nil in Hp. destruct Hp as [->|[->|[->|[]]]]; cbn; lia.
    - intros i Hi. cbn in Hi. rewrite !elem_of_cons, elem_of_nil in Hi. cbn. lia. }
  { intros (_ & H & _). discriminate. }
  pose proof (C04_cpp_pass_is_sequential 2 3 s3 tp3 hk (zeros, None) ltac:(lia) HR ltac:(lia) Hs) as H.
  assert (Hsp : seq_pass hk 0 [] false (zeros, None) tp3 = Ok ([moved 1 0 (1/2) 1; moved (1/2) (1/4) (1/2) 2; moved 1 (-1/4) (1/2) 3], (zeros, None))).
  { unfold tp3. do 3 (erewrite seq_keep; [|apply tri_adv; lra|reflexivity|reflexivity]). reflexivity. }
  rewrite Hsp in H. destruct H as (s' & E & Hst & _). fold hk in Ef. change (replicate (m_dim ChargedXY) 0) with (replicate 2 0) in Ef. fold hk in Ef. rewrite E in Ef.
  exists s3, s', (zeros, None), f'. split; [exact HR|]. split; [exact Hs|]. split; [exact Ef|]. eexists. split; [exact Hst|]. split; [reflexivity|].
  split; cbn [map pu px moved]; repeat f_equal; lra.
Qed.
(** By C60_same the Python mover does the same to these particles. *)
Example C60_same_example s1 rs f1 : push_all (sap_init 2) tp3 = Ok (s1, rs) -> arrays_of 2 f1 ->
  exists s1' c1' f1' ys, charged_guarded_bmover exact INR 2 2 (Some (const2, [0; 1/2])) None None None "e" 0 1 1 1 10 tri_mesh (py_bcs no_bcs) false s1 (TCtx [0; 0] None) f1
    = Ok (s1', c1', f1') /\ Stores s1' ys /\ map pu ys = [[0; -1/2]; [0; -1/4]; [0; -3/4]].
Proof.
  intros Ep Hf1. destruct (C60_example [0; 0] [0; 0]) as (s & s' & c' & f' & HR & Hs & E & ys & Hy & _ & Hu & _).
  destruct (C01_push_keeps_place 2 tp3) as (s0 & Ep0 & Hs1); [lia|]. rewrite Ep in Ep0. injection Ep0 as <- _.
  assert (HR1 : Reachable 2 s1) by exact (push_all_reach 2 tp3 _ _ _ (r_new 2) Ep).
  assert (Hin : forall p, p ∈ tp3 -> shaped ChargedXY p /\ pcell p = 0%Z).
  { intros p Hp. unfold tp3 in Hp. rewrite !elem_of_cons, elem_of_nil in Hp. destruct Hp as [->|[->|[->|[]]]]; (split; [split; reflexivity|reflexivity]). }
  pose proof (C60_same ChargedXY 1 2 (Some (const2, [0; 1/2])) (Some (const2, [7; 8])) None None None INR "e" 0 1 1 1 10 tri_mesh tri_cmesh no_bcs [0; 0] [0; 0] 2 3 s1 s tp3
    (TCtx [0; 0] None) zeros f1 (CFields [1; 2; 3; 4] (replicate 4 0) (replicate 4 0) None) ltac:(lia) HR1 Hs1 HR ltac:(lia) Hs tri_same
    ltac:(right; left) ltac:(cbn; lia) ltac:(discriminate) ltac:(split; reflexivity)) as H.
  cbn [usr] in H. rewrite E in H. destruct c' as [sc' T'].
  destruct H as (s1' & c1' & f1' & ys' & E1 & Hy1 & Hy2 & _); [right; split; [reflexivity|]; discriminate|intros p Hp; apply (Hin p Hp)| |exact Hf1|split; [reflexivity|split; reflexivity]|intros (_ & H & _); discriminate|].
  - intros V a [= <- <-]. split; [exact const2_per_cell|]. intros p Hp. destruct (Hin p Hp) as [_ Hc]. unfold in_own_cell. rewrite Hc. cbn. split; [reflexivity|lia].
  - exists s1', c1', f1', ys'. split; [exact E1|]. split; [exact Hy1|]. rewrite <- (cstores_inj _ _ _ Hy Hy2). exact Hu.
Qed.
(** The array of a segment with two of them and with one of them; and a pass without a result. *)
Example C60_constant_example : cpp_interpolate const2 1 2 [0; 1/2] (take 2 tp3) [7; 7; 7; 7] = Ok [0; 1/2; 0; 1/2] /\
  cpp_interpolate const2 1 2 [0; 1/2] (take 1 tp3) [7; 7; 7; 7] = Ok [0; 1/2; 7; 7].
Proof. split; reflexivity. Qed.
Example C60_null_example s r : CReach 2 3 s -> CStores s tp3 ->
  cpp_charged_bmover exact ChargedXY 1 (Some (const2, [0; 1/2])) (Some (const2, [7; 8])) (Some false) None "e" 0 1 1 1 10 tri_cmesh no_bcs [0; 0] [0; 0] s (zeros, None)
    (CFields [1; 2; 3; 4] (replicate 4 0) (replicate 4 0) None) <> Ok r.
Proof.
  intros HR Hs. apply (C60_null _ _ _ _ _ _ _ _ _ _ _ _ _ _ _ _ 2 3 s tp3); [lia|exact HR|lia|exact Hs|discriminate|].
  split; [discriminate|]. split; [reflexivity|]. split; discriminate.
Qed.

Print Assumptions C60_interpolate.
Print Assumptions C60_constant.
Print Assumptions C60_linear_refuted.
Print Assumptions C60_fields.
Print Assumptions C60_null.
Print Assumptions C60_same.
Print Assumptions C60_record_refuted.
