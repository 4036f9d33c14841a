(** C37, floating point: the first stage of the orientation predicates.

    [orient2d_filter] and [orient3d_filter] (InsideModel.v) return before the exact stage of Shewchuk's predicates.  When they answer, the answer has
    the sign of the exact determinant, unless differences of coordinates are so small that products underflow. *)
From Flocq Require Import Core Relative Plus_error.
From Verif Require Import Vec VecProofs Rounding InsideModel InsideProps.
Open Scope R_scope.

(** ** Relative errors *)

(** [y] is [x] up to a factor between [q] and [1/q]. *)
Definition Within (q x y : R) : Prop := exists p, y = x * p /\ q <= p /\ p * q <= 1.

Lemma within_err q x y : 0 < q <= 1 -> Within q x y -> q * Rabs (y - x) <= (1 - q) * Rabs y.
Proof.
  intros Hq (p & -> & H1 & H2). replace (x * p - x) with (x * (p - 1)) by ring. rewrite !Rabs_mult, (Rabs_right p) by lra.
  pose proof (Rabs_pos x). assert (K : q * Rabs (p - 1) <= (1 - q) * p).
  { unfold Rabs. destruct (Rcase_abs (p - 1)); [nra|]. assert ((2 * q - 1) * p <= q); [|nra].
    destruct (Rle_dec (2 * q - 1) 0); [nra|]. apply (Rmult_le_reg_l q); [lra|]. nra. }
  nra.
Qed.
Lemma within_ge q x y : 0 < q -> Within q x y -> q * Rabs x <= Rabs y.
Proof. intros Hq (p & -> & H1 & H2). rewrite Rabs_mult, (Rabs_right p) by lra. pose proof (Rabs_pos x). nra. Qed.
Lemma within_le q x y : 0 < q -> Within q x y -> q * Rabs y <= Rabs x.
Proof. intros Hq (p & -> & H1 & H2). rewrite Rabs_mult, (Rabs_right p) by lra. pose proof (Rabs_pos x). nra. Qed.
Lemma within_sign q x y : 0 < q -> Within q x y -> (0 < y <-> 0 < x) /\ (y < 0 <-> x < 0).
Proof. intros Hq (p & -> & H1 & H2). split; split; intros H; nra. Qed.
Lemma within_mul q r x x' y y' : 0 < q -> 0 < r -> Within q x x' -> Within r y y' -> Within (q * r) (x * y) (x' * y').
Proof.
  intros Hq Hr (p & -> & H1 & H2) (s & -> & H3 & H4). exists (p * s). split; [ring|]. split; [nra|].
  replace (p * s * (q * r)) with ((p * q) * (s * r)) by ring. assert (0 <= p * q) by nra. assert (0 <= s * r) by nra. nra.
Qed.
Lemma within_trans q r x y z : 0 < q -> 0 < r -> Within q x y -> Within r y z -> Within (q * r) x z.
Proof.
  intros Hq Hr (p & -> & H1 & H2) (s & -> & H3 & H4). exists (p * s). split; [ring|]. split; [nra|].
  replace (p * s * (q * r)) with ((p * q) * (s * r)) by ring. assert (0 <= p * q) by nra. assert (0 <= s * r) by nra. nra.
Qed.

(** [y] is [x] with a relative error of at most [e]. *)
Definition Near (e x y : R) : Prop := Rabs (y - x) <= e * Rabs x.
Lemma near_within e x y : 0 <= e < 1 -> Near e x y -> Within (1 - e) x y.
Proof.
  unfold Near. intros He H. destruct (Req_dec x 0) as [->|Hx].
  - exists 1. rewrite Rabs_R0, Rmult_0_r, Rminus_0_r in H. split; [|lra]. destruct (Req_dec y 0) as [|Hy]; [lra|]. apply Rabs_pos_lt in Hy. lra.
  - exists (y / x). split; [field; assumption|]. assert (K : Rabs (y / x - 1) <= e).
    { replace (y / x - 1) with ((y - x) * / x) by (field; assumption). rewrite Rabs_mult, Rabs_inv. pose proof (Rabs_pos_lt x Hx) as Hp.
      apply (Rmult_le_reg_r (Rabs x)); [assumption|]. rewrite Rmult_assoc, Rinv_l by lra. lra. }
    revert K. unfold Rabs. destruct (Rcase_abs (y / x - 1)); intros K; split; nra.
Qed.
Lemma near_le e x y : Near e x y -> Rabs y <= (1 + e) * Rabs x.
Proof. unfold Near. intros H. replace y with (x + (y - x)) at 1 by ring. pose proof (Rabs_triang x (y - x)). lra. Qed.

(** ** The two error bounds are large enough *)
Lemma bound_2d e : 0 < e <= 1/1000 -> let h := 1 - e in 1 - h ^ 3 < h ^ 6 * ((3 + 16 * e) * e).
Proof.
  intros He h. assert (H3 : 1 - 3 * e + 3 * e ^ 2 - e ^ 3 = h ^ 3) by (unfold h; ring). assert (H6 : 1 - 6 * e <= h ^ 6).
  { replace (h ^ 6) with ((h ^ 3) ^ 2) by ring. rewrite <- H3. nra. }
  assert (K : 1 - h ^ 3 < (1 - 6 * e) * ((3 + 16 * e) * e)).
  { rewrite <- H3. assert (0 < e * e) by nra. nra. }
  assert (0 < (3 + 16 * e) * e) by nra. nra.
Qed.
Lemma bound_3d e : 0 < e <= 1/1000 -> let h := 1 - e in h ^ 4 * ((1 + e) ^ 3 - 1) + (1 - h ^ 4) < h ^ 10 * ((7 + 56 * e) * e).
Proof.
  intros He h. assert (H2 : h ^ 2 = 1 - 2 * e + e ^ 2) by (unfold h; ring). assert (H4 : h ^ 4 = 1 - 4 * e + 6 * e ^ 2 - 4 * e ^ 3 + e ^ 4) by (unfold h; ring).
  assert (P2 : 0 < e ^ 2) by (simpl; nra). assert (P3 : 0 < e ^ 3) by (simpl; nra). assert (P3' : e ^ 3 <= e ^ 2 / 1000) by (simpl; nra).
  assert (P4 : 0 < e ^ 4 <= e ^ 3 / 1000) by (simpl; simpl in P3; nra). assert (P2' : e ^ 2 <= e / 1000) by (simpl; nra).
  assert (L4 : 1 - 4 * e <= h ^ 4) by lra. assert (U4 : h ^ 4 <= 1 - 4 * e + 6 * e ^ 2) by lra. assert (L2 : 1 - 2 * e <= h ^ 2) by lra.
  assert (L10 : 1 - 10 * e <= h ^ 10).
  { replace (h ^ 10) with (h ^ 4 * h ^ 4 * h ^ 2) by ring. assert (A : 1 - 8 * e <= h ^ 4 * h ^ 4) by nra. nra. }
  assert (0 < (7 + 56 * e) * e) by nra.
  assert (K : h ^ 4 * ((1 + e) ^ 3 - 1) + (1 - h ^ 4) < (1 - 10 * e) * ((7 + 56 * e) * e)); [|nra].
  replace ((1 + e) ^ 3 - 1) with (3 * e + 3 * e ^ 2 + e ^ 3) by ring.
  assert (Q : h ^ 4 * (3 * e + 3 * e ^ 2 + e ^ 3) <= (1 - 4 * e + 6 * e ^ 2) * (3 * e + 3 * e ^ 2 + e ^ 3)) by (apply Rmult_le_compat_r; [lra|exact U4]).
  replace ((1 - 4 * e + 6 * e ^ 2) * (3 * e + 3 * e ^ 2 + e ^ 3)) with (3 * e - 9 * e ^ 2 + 7 * e ^ 3 + (14 + 6 * e) * e ^ 4) in Q by ring.
  replace ((1 - 10 * e) * ((7 + 56 * e) * e)) with (7 * e - 14 * e ^ 2 - 560 * e ^ 3) by ring.
  assert ((14 + 6 * e) * e ^ 4 <= 15 * e ^ 4) by nra. lra.
Qed.

Section Sign.
Context (e : R) (He : 0 < e <= 1/1000).
Let h := 1 - e.
Lemma Hh : 0 < h <= 1. Proof using He. unfold h. lra. Qed.
Lemma hpow n : 0 < h ^ n <= 1.
Proof using He. pose proof Hh. induction n as [|n IH]; [simpl; lra|]. rewrite <- tech_pow_Rmult. nra. Qed.

(** *** Two dimensions: the products have the same sign and the difference passes the test. *)
Lemma same_sign_2d L R dl dr det S' err : Within (h ^ 3) L dl -> Within (h ^ 3) R dr -> Within h (dl - dr) det -> Within h (dl + dr) S' ->
  Within h ((3 + 16 * e) * e * S') err -> 0 < dl -> 0 < dr -> err <= det -> 0 < det /\ 0 < L - R.
Proof using He.
  intros HL HR HD HS HE Pl Pr Hc. pose proof Hh as Hh. pose proof (hpow 3) as Hq.
  pose proof (within_err _ _ _ Hq HL) as E1. pose proof (within_err _ _ _ Hq HR) as E2.
  pose proof (within_ge _ _ _ (proj1 Hh) HS) as E3. pose proof (within_ge _ _ _ (proj1 Hh) HE) as E4. pose proof (within_le _ _ _ (proj1 Hh) HD) as E5.
  assert (PS : 0 < S') by (apply (within_sign _ _ _ (proj1 Hh) HS); lra).
  assert (PA : 0 < (3 + 16 * e) * e) by nra. assert (PE : 0 < err) by (apply (within_sign _ _ _ (proj1 Hh) HE); nra).
  assert (PD : 0 < det) by lra. assert (PX : 0 < dl - dr) by (apply (within_sign _ _ _ (proj1 Hh) HD); exact PD). split; [exact PD|].
  rewrite (Rabs_right dl) in E1 by lra. rewrite (Rabs_right dr) in E2 by lra. rewrite (Rabs_right S'), (Rabs_right (dl + dr)) in E3 by lra.
  rewrite (Rabs_right err), (Rabs_right (_ * S')) in E4 by nra. rewrite (Rabs_right det), (Rabs_right (dl - dr)) in E5 by lra.
  pose proof (bound_2d e He) as B. cbv zeta in B. fold h in B. set (A := (3 + 16 * e) * e) in *. set (S := dl + dr) in *.
  assert (F : h ^ 3 * A * S <= dl - dr).
  { apply Rle_trans with (h * det); [|exact E5]. replace (h ^ 3 * A * S) with (h * (h * (A * (h * S)))) by ring. apply Rmult_le_compat_l; [lra|].
    apply Rle_trans with err; [|exact Hc]. apply Rle_trans with (h * (A * S')); [|exact E4]. apply Rmult_le_compat_l; [lra|]. apply Rmult_le_compat_l; [lra|exact E3]. }
  assert (G : h ^ 3 * (dl - dr) - (1 - h ^ 3) * S <= h ^ 3 * (L - R)).
  { pose proof (Rle_abs (dl - L)). assert (R - dr <= Rabs (dr - R)) by (rewrite <- (Rabs_Ropp (dr - R)); replace (- (dr - R)) with (R - dr) by ring; apply Rle_abs).
    unfold S. assert (h ^ 3 * (dl - L) <= (1 - h ^ 3) * dl) by nra. assert (h ^ 3 * (R - dr) <= (1 - h ^ 3) * dr) by nra. nra. }
  assert (K : h ^ 3 * (h ^ 3 * A * S) - (1 - h ^ 3) * S = (h ^ 6 * A - (1 - h ^ 3)) * S) by ring.
  assert (PSS : 0 < S) by (unfold S; lra). assert (M : 0 < (h ^ 6 * A - (1 - h ^ 3)) * S) by (apply Rmult_lt_0_compat; lra).
  assert (h ^ 3 * (h ^ 3 * A * S) <= h ^ 3 * (dl - dr)) by (apply Rmult_le_compat_l; lra).
  assert (N : 0 < h ^ 3 * (L - R)) by lra. destruct (Rlt_or_le 0 (L - R)) as [|N']; [assumption|]. exfalso. nra.
Qed.

(** *** Three dimensions *)

(** One of the three terms of the determinant: the error of the rounded product, before and after. *)
Lemma term_err z x y w t : Near e (x - y) w -> Near e (z * w) t ->
  Rabs (t - z * (x - y)) <= ((1 + e) ^ 2 - 1) * (Rabs z * (Rabs x + Rabs y)) /\ Rabs t <= (1 + e) ^ 2 * (Rabs z * (Rabs x + Rabs y)).
Proof using He.
  intros H1 H2. pose proof (near_le _ _ _ H1) as L1. pose proof (near_le _ _ _ H2) as L2. unfold Near in H1, H2. rewrite Rabs_mult in H2, L2.
  assert (X : Rabs (x - y) <= Rabs x + Rabs y) by (pose proof (Rabs_triang x (- y)) as X; rewrite Rabs_Ropp in X; exact X).
  pose proof (Rabs_pos z) as Pz. set (D := Rabs x + Rabs y) in *. assert (W : Rabs w <= (1 + e) * D) by nra. split.
  - replace (t - z * (x - y)) with ((t - z * w) + z * (w - (x - y))) by ring.
    pose proof (Rabs_triang (t - z * w) (z * (w - (x - y)))) as T. rewrite Rabs_mult in T.
    assert (T1 : Rabs (t - z * w) <= e * ((1 + e) * (Rabs z * D))) by (apply Rle_trans with (1 := H2); apply Rmult_le_compat_l; [lra|]; nra).
    assert (T2 : Rabs z * Rabs (w - (x - y)) <= e * (Rabs z * D)).
    { replace (e * (Rabs z * D)) with (Rabs z * (e * D)) by ring. apply Rmult_le_compat_l; [exact Pz|]. apply Rle_trans with (1 := H1). apply Rmult_le_compat_l; [lra|exact X]. }
    replace (((1 + e) ^ 2 - 1) * (Rabs z * D)) with (e * ((1 + e) * (Rabs z * D)) + e * (Rabs z * D)) by ring. lra.
  - apply Rle_trans with (1 := L2). replace ((1 + e) ^ 2 * (Rabs z * D)) with ((1 + e) * (Rabs z * ((1 + e) * D))) by ring.
    apply Rmult_le_compat_l; [lra|]. apply Rmult_le_compat_l; [exact Pz|exact W].
Qed.
(** The same term with the coordinates before rounding. *)
Lemma term_exact T1 T2 z x y : Within (h ^ 4) T1 (z * x) -> Within (h ^ 4) T2 (z * y) ->
  h ^ 4 * Rabs (z * (x - y) - (T1 - T2)) <= (1 - h ^ 4) * (Rabs z * (Rabs x + Rabs y)).
Proof using He.
  intros H1 H2. pose proof (within_err _ _ _ (hpow 4) H1) as E1. pose proof (within_err _ _ _ (hpow 4) H2) as E2. rewrite (Rabs_mult z x) in E1. rewrite (Rabs_mult z y) in E2.
  replace (z * (x - y) - (T1 - T2)) with ((z * x - T1) + - (z * y - T2)) by ring. pose proof (Rabs_triang (z * x - T1) (- (z * y - T2))) as T. rewrite Rabs_Ropp in T.
  pose proof (hpow 4). nra.
Qed.
(** One term of the permanent. *)
Lemma term_perm z x y s t : Within h (Rabs x + Rabs y) s -> Within h (s * Rabs z) t -> h ^ 2 * (Rabs z * (Rabs x + Rabs y)) <= t.
Proof using He.
  intros H1 H2. pose proof Hh as Hh. destruct H1 as (p & -> & P1 & P2). destruct H2 as (r & -> & R1 & R2).
  pose proof (Rabs_pos x). pose proof (Rabs_pos y). pose proof (Rabs_pos z). replace ((Rabs x + Rabs y) * p * Rabs z * r) with ((p * r) * (Rabs z * (Rabs x + Rabs y))) by ring.
  apply Rmult_le_compat_r; [nra|]. simpl. nra.
Qed.

Lemma sum_sign s D det : 0 < det -> Within h s det -> Rabs (s - D) < Rabs s -> 0 < D.
Proof using He.
  intros H1 H2 H3. pose proof Hh. assert (0 < s) by (apply (within_sign h s det); [lra|exact H2|exact H1]). rewrite (Rabs_right s) in H3 by lra.
  pose proof (Rle_abs (s - D)). lra.
Qed.
Lemma total_sign_3d t1 t2 t3 t12 D X1 X2 X3 P1 P2 P3 perm err det :
  0 <= P1 -> 0 <= P2 -> 0 <= P3 ->
  Rabs (t1 - X1) <= ((1 + e) ^ 2 - 1) * P1 -> Rabs (t2 - X2) <= ((1 + e) ^ 2 - 1) * P2 -> Rabs (t3 - X3) <= ((1 + e) ^ 2 - 1) * P3 ->
  Rabs t1 <= (1 + e) ^ 2 * P1 -> Rabs t2 <= (1 + e) ^ 2 * P2 -> Near e (t1 + t2) t12 -> Within h (t12 + t3) det ->
  h ^ 4 * Rabs (X1 + X2 + X3 - D) <= (1 - h ^ 4) * (P1 + P2 + P3) -> h ^ 4 * (P1 + P2 + P3) <= perm -> Within h ((7 + 56 * e) * e * perm) err ->
  err < Rabs det -> (0 < det <-> 0 < D) /\ (det < 0 <-> D < 0).
Proof using He.
  intros N1 N2 N3 E1 E2 E3 B1 B2 H12 Hdet HX Hp Herr Hc. pose proof Hh as Hh. pose proof (hpow 4) as H4. pose proof (bound_3d e He) as B. cbv zeta in B. fold h in B.
  set (P := P1 + P2 + P3) in *. assert (NP : 0 <= P) by (unfold P; lra). set (A := (7 + 56 * e) * e) in *. assert (PA : 0 < A) by (unfold A; nra).
  assert (S1 : Rabs (t12 + t3 - (X1 + X2 + X3)) <= ((1 + e) ^ 3 - 1) * P).
  { unfold Near in H12. pose proof (Rabs_triang t1 t2) as T12.
    replace (t12 + t3 - (X1 + X2 + X3)) with ((t12 - (t1 + t2)) + ((t1 - X1) + ((t2 - X2) + (t3 - X3)))) by ring.
    pose proof (Rabs_triang (t12 - (t1 + t2)) ((t1 - X1) + ((t2 - X2) + (t3 - X3)))). pose proof (Rabs_triang (t1 - X1) ((t2 - X2) + (t3 - X3))).
    pose proof (Rabs_triang (t2 - X2) (t3 - X3)).
    assert (Rabs (t12 - (t1 + t2)) <= e * ((1 + e) ^ 2 * (P1 + P2))).
    { apply Rle_trans with (1 := H12). apply Rmult_le_compat_l; [lra|]. lra. }
    replace (((1 + e) ^ 3 - 1) * P) with (e * ((1 + e) ^ 2 * (P1 + P2)) + ((1 + e) ^ 2 - 1) * P + e * ((1 + e) ^ 2 * P3)) by (unfold P; ring).
    assert (0 <= e * ((1 + e) ^ 2 * P3)) by (apply Rmult_le_pos; [lra|]; apply Rmult_le_pos; [apply pow_le; lra|lra]). unfold P in *. lra. }
  set (s := t12 + t3) in *.
  assert (S2 : h ^ 4 * Rabs (s - D) <= (h ^ 4 * ((1 + e) ^ 3 - 1) + (1 - h ^ 4)) * P).
  { replace (s - D) with ((s - (X1 + X2 + X3)) + (X1 + X2 + X3 - D)) by ring. pose proof (Rabs_triang (s - (X1 + X2 + X3)) (X1 + X2 + X3 - D)). nra. }
  assert (S3 : h ^ 6 * A * P <= h * err /\ 0 <= err).
  { destruct Herr as (r & -> & R1 & R2). assert (Np : 0 <= perm) by (apply Rle_trans with (2 := Hp); apply Rmult_le_pos; lra). assert (NA : 0 <= A * perm) by (apply Rmult_le_pos; lra).
    split; [|apply Rmult_le_pos; lra].
    replace (h ^ 6 * A * P) with (h * (A * (h ^ 4 * P) * h)) by ring. apply Rmult_le_compat_l; [lra|].
    apply Rle_trans with (A * perm * h); [|apply Rmult_le_compat_l; lra]. apply Rmult_le_compat_r; [lra|]. apply Rmult_le_compat_l; [lra|exact Hp]. }
  pose proof (within_le _ _ _ (proj1 Hh) Hdet) as S4.
  assert (S5 : Rabs (s - D) < Rabs s).
  { apply (Rmult_lt_reg_l (h ^ 4)); [lra|]. apply Rle_lt_trans with (1 := S2). apply Rle_lt_trans with (h ^ 10 * A * P); [nra|].
    replace (h ^ 10 * A * P) with (h ^ 4 * (h ^ 6 * A * P)) by ring. apply Rmult_lt_compat_l; [lra|]. nra. }
  assert (Hn : det <> 0) by (intros ->; rewrite Rabs_R0 in Hc; lra).
  assert (Hneg : det < 0 -> D < 0).
  { intros Hd. assert (0 < - D); [|lra]. apply (sum_sign (- s) (- D) (- det)); [lra| |].
    - destruct Hdet as (p & E & Q). exists p. split; [rewrite E; ring|exact Q].
    - rewrite Rabs_Ropp. replace (- s - - D) with (- (s - D)) by ring. rewrite Rabs_Ropp. exact S5. }
  assert (Hpos : 0 < det -> 0 < D) by (intros Hd; exact (sum_sign s D det Hd Hdet S5)).
  split; split; intros H; try (by auto); destruct (Rtotal_order det 0) as [?|[?|?]]; auto; try lra; specialize (Hneg ltac:(lra)) || specialize (Hpos ltac:(lra)); lra.
Qed.
End Sign.

(** ** Double precision *)
Notation fmt := (generic_format radix2 (FLT_exp (-1074) 53)).
Notation pw := (bpow radix2).
Definition u53 : R := pw (-53).

(** 0, or not below 2^k in size. *)
Definition Far (k : Z) (x : R) : Prop := x = 0 \/ pw k <= Rabs x.

Lemma u53_small : 0 < u53 <= 1/1000.
Proof. unfold u53. split; [apply bpow_gt_0|]. apply Rle_trans with (pw (-10)); [apply bpow_le; lia|]. change (pw (-10)) with (/ 1024). lra. Qed.
Lemma b64_fmt x : fmt (b64 x).
Proof. apply generic_format_round; [apply FLT_exp_valid; unfold Prec_gt_0; lia|apply valid_rnd_N]. Qed.
Lemma b64_fix x : fmt x -> b64 x = x.
Proof. intros H. apply round_generic; [apply valid_rnd_N|exact H]. Qed.
Lemma b64_near x : Far (-1022) x -> Near u53 x (b64 x).
Proof.
  intros [->|H].
  - unfold Near. rewrite (rnd_0 b64_rounding), Rminus_0_r, Rabs_R0. lra.
  - unfold Near, b64. pose proof (relative_error_N_FLT radix2 (-1074) 53 ltac:(unfold Prec_gt_0; lia) (fun x => negb (Z.even x)) x H) as K.
    replace u53 with (/ 2 * pw (-53 + 1)); [exact K|]. unfold u53. change (/2) with (pw (-1)). rewrite <- bpow_plus. reflexivity.
Qed.
Lemma b64_plus_near x y : fmt x -> fmt y -> Near u53 (x + y) (b64 (x + y)).
Proof.
  intros Hx Hy. destruct (Rle_or_lt (pw (-1022)) (Rabs (x + y))) as [H|H]; [apply b64_near; by right|].
  unfold Near. rewrite b64_fix; [|].
  - replace (x + y - (x + y)) with 0 by ring. rewrite Rabs_R0. apply Rmult_le_pos; [pose proof u53_small; lra|apply Rabs_pos].
  - apply FLT_format_plus_small; [unfold Prec_gt_0; lia|exact Hx|exact Hy|]. apply Rlt_le. apply Rlt_le_trans with (1 := H). apply bpow_le. lia.
Qed.
Lemma b64_minus_near x y : fmt x -> fmt y -> Near u53 (x - y) (b64 (x - y)).
Proof. intros Hx Hy. apply (b64_plus_near x (- y) Hx). by apply generic_format_opp. Qed.
Lemma far_mono k l x : (l <= k)%Z -> Far k x -> Far l x.
Proof. intros H [->|K]; [by left|right]. apply Rle_trans with (2 := K). by apply bpow_le. Qed.
Lemma far_b64 k x : (-1074 <= k)%Z -> Far k x -> Far k (b64 x).
Proof.
  intros Hk [->|H]; [left; apply (rnd_0 b64_rounding)|right]. unfold b64. apply abs_round_ge_generic; [apply FLT_exp_valid; unfold Prec_gt_0; lia|apply valid_rnd_N| |exact H].
  apply generic_format_bpow. unfold FLT_exp. lia.
Qed.
Lemma far_mul k l x y : Far k x -> Far l y -> Far (k + l) (x * y).
Proof.
  intros [->|H] [->|K]; [left; ring|left; ring|left; ring|right]. rewrite Rabs_mult, bpow_plus. apply Rmult_le_compat; try assumption; apply bpow_ge_0.
Qed.
(** The difference of two numbers is 0 or not below the last place of the larger. *)
Lemma far_minus k x y : fmt x -> fmt y -> Far k x -> Far k y -> Far (k - 52) (x - y).
Proof.
  assert (I : forall x, fmt x -> Far k x -> exists m : Z, x = IZR m * pw (k - 52)).
  { clear x y. intros x F [->|H]; [exists 0%Z; ring|].
    assert (G : generic_format radix2 (FIX_exp (k - 52)) x).
    { apply (generic_inclusion_ge radix2 (FLT_exp (-1074) 53) (FIX_exp (k - 52)) k); [|exact H|exact F]. intros e He. unfold FIX_exp, FLT_exp. lia. }
    apply FIX_format_generic in G as [[m ex] -> E]. cbn in E. subst ex. exists m. reflexivity. }
  intros Fx Fy Hx Hy. destruct (I x Fx Hx) as (m & ->). destruct (I y Fy Hy) as (n & ->). rewrite <- Rmult_minus_distr_r, <- minus_IZR.
  destruct (decide (m - n = 0)%Z) as [->|Hn]; [left; ring|right]. rewrite Rabs_mult, (Rabs_right (pw _)) by (apply Rle_ge, bpow_ge_0). rewrite <- abs_IZR.
  assert (1 <= IZR (Z.abs (m - n))) by (apply IZR_le; lia). pose proof (bpow_ge_0 radix2 (k - 52)). nra.
Qed.
Lemma ccw_const : ccwerrboundA b64 u53 = (3 + 16 * u53) * u53.
Proof.
  unfold ccwerrboundA.
  assert (E1 : b64 (16 * u53) = 16 * u53).
  { apply b64_fix. replace (16 * u53) with (pw (-49)). { apply generic_format_bpow. unfold FLT_exp. lia. }
    unfold u53. change 16 with (pw 4). rewrite <- bpow_plus. reflexivity. }
  assert (E2 : b64 (3 + 16 * u53) = 3 + 16 * u53).
  { apply b64_fix. apply generic_format_FLT. exists (Float radix2 (3 * 2 ^ 49 + 1) (-49)).
    - unfold F2R. cbn [Fnum Fexp]. rewrite plus_IZR, mult_IZR. change (IZR (2 ^ 49)) with (pw 49). rewrite Rmult_plus_distr_r, Rmult_assoc, <- bpow_plus.
      cbn [Z.add]. change (pw (49 + -49)) with 1. unfold u53. change 16 with (pw 4). rewrite <- bpow_plus. change (pw (4 + -53)) with (pw (-49)). ring.
    - cbn [Fnum]. change (radix2 ^ 53)%Z with (2 ^ 53)%Z. lia.
    - cbn [Fexp]. lia. }
  rewrite E1, E2. apply b64_fix. apply generic_format_FLT. exists (Float radix2 (3 * 2 ^ 49 + 1) (-102)).
  - unfold F2R. cbn [Fnum Fexp]. rewrite plus_IZR, mult_IZR. change (IZR (2 ^ 49)) with (pw 49). change (-102)%Z with (-49 + -53)%Z. rewrite bpow_plus.
    replace (16 * u53) with (pw (-49)) by (unfold u53; change 16 with (pw 4); rewrite <- bpow_plus; reflexivity). unfold u53.
    replace ((3 * pw 49 + 1) * (pw (-49) * pw (-53))) with ((3 * (pw 49 * pw (-49)) + pw (-49)) * pw (-53)) by ring.
    rewrite <- bpow_plus. change (pw (49 + -49)) with 1. ring.
  - cbn [Fnum]. change (radix2 ^ 53)%Z with (2 ^ 53)%Z. lia.
  - cbn [Fexp]. lia.
Qed.
Lemma o3d_const : o3derrboundA b64 u53 = (7 + 56 * u53) * u53.
Proof.
  unfold o3derrboundA. assert (Q : 56 * u53 = 7 * pw (-50)).
  { unfold u53. replace (pw (-50)) with (8 * pw (-53)); [ring|]. change 8 with (pw 3). rewrite <- bpow_plus. reflexivity. }
  assert (E1 : b64 (56 * u53) = 56 * u53).
  { apply b64_fix. rewrite Q. apply generic_format_FLT. exists (Float radix2 7 (-50)); [reflexivity|cbn [Fnum]; change (radix2 ^ 53)%Z with (2 ^ 53)%Z; lia|cbn [Fexp]; lia]. }
  assert (E0 : forall k, IZR (7 * (2 ^ 50 + 1)) * pw (-50 + k) = (7 + 56 * u53) * pw k).
  { intros k. rewrite Q, mult_IZR, plus_IZR. change (IZR (2 ^ 50)) with (pw 50). rewrite bpow_plus.
    replace (7 * (pw 50 + 1) * (pw (-50) * pw k)) with ((7 * (pw 50 * pw (-50)) + 7 * pw (-50)) * pw k) by ring. rewrite <- bpow_plus. change (pw (50 + -50)) with 1. ring. }
  assert (E2 : b64 (7 + 56 * u53) = 7 + 56 * u53).
  { apply b64_fix. apply generic_format_FLT. exists (Float radix2 (7 * (2 ^ 50 + 1)) (-50)).
    - unfold F2R. cbn [Fnum Fexp]. pose proof (E0 0%Z) as E. change (pw 0) with 1 in E. rewrite Rmult_1_r in E. rewrite <- E. reflexivity.
    - cbn [Fnum]. change (radix2 ^ 53)%Z with (2 ^ 53)%Z. lia.
    - cbn [Fexp]. lia. }
  rewrite E1, E2. apply b64_fix. apply generic_format_FLT. exists (Float radix2 (7 * (2 ^ 50 + 1)) (-103)).
  - unfold F2R. cbn [Fnum Fexp]. unfold u53 at 2. rewrite <- E0. reflexivity.
  - cbn [Fnum]. change (radix2 ^ 53)%Z with (2 ^ 53)%Z. lia.
  - cbn [Fexp]. lia.
Qed.

Notation hh := (1 - u53).
Lemma near_hh x y : Near u53 x y -> Within hh x y.
Proof. apply near_within. pose proof u53_small. lra. Qed.
Lemma prod_within k u v : (-511 <= k)%Z -> Far k u -> Far k v -> Within (hh ^ 3) (u * v) (b64 (b64 u * b64 v)).
Proof.
  intros Hk Hu Hv. pose proof u53_small as U. replace (hh ^ 3) with (hh * hh * hh) by ring.
  apply within_trans with (b64 u * b64 v); [nra|lra| |].
  - apply within_mul; [lra|lra| |]; apply near_hh, b64_near; apply (far_mono k); (lia || assumption).
  - apply near_hh, b64_near. apply (far_mono (k + k)); [lia|]. apply far_mul; apply far_b64; (lia || assumption).
Qed.
Lemma within_opp q x y : Within q x y -> Within q (- x) (- y).
Proof. intros (p & -> & H). exists p. split; [ring|exact H]. Qed.
Lemma leq_spec x y : leq x y = true <-> x <= y.
Proof. unfold leq. destruct (Rltb y x) eqn:E; cbn; [apply Rltb_true in E|apply Rltb_false in E]; split; intros; try discriminate; try lra; reflexivity. Qed.

(** The error bound of the sum of two numbers of the same sign. *)
Lemma err_within k S : (-960 <= k)%Z -> Far k S -> Within hh ((3 + 16 * u53) * u53 * S) (b64 (ccwerrboundA b64 u53 * S)).
Proof.
  intros Hk HS. rewrite ccw_const. apply near_hh, b64_near. apply (far_mono (-53 + k)); [lia|]. apply far_mul; [|exact HS].
  right. pose proof u53_small as U. rewrite Rabs_right by nra. change (pw (-53)) with u53. nra.
Qed.

Theorem C37_filter_2d a b c d :
  Far (-480) (co a 0 - co c 0) -> Far (-480) (co b 1 - co c 1) -> Far (-480) (co a 1 - co c 1) -> Far (-480) (co b 0 - co c 0) ->
  orient2d_filter b64 u53 a b c = Some d -> (0 < d <-> 0 < orient2d a b c) /\ (d < 0 <-> orient2d a b c < 0).
Proof.
  intros F1 F2 F3 F4. unfold orient2d_filter. cbv zeta. unfold orient2d.
  pose proof (prod_within (-480) _ _ ltac:(lia) F1 F2) as WL. pose proof (prod_within (-480) _ _ ltac:(lia) F3 F4) as WR.
  assert (FL : Far (-960) (b64 (b64 (co a 0 - co c 0) * b64 (co b 1 - co c 1)))).
  { apply far_b64; [lia|]. apply (far_mul (-480) (-480)); apply far_b64; (lia || assumption). }
  assert (FR : Far (-960) (b64 (b64 (co a 1 - co c 1) * b64 (co b 0 - co c 0)))).
  { apply far_b64; [lia|]. apply (far_mul (-480) (-480)); apply far_b64; (lia || assumption). }
  assert (GL : fmt (b64 (b64 (co a 0 - co c 0) * b64 (co b 1 - co c 1)))) by apply b64_fmt.
  assert (GR : fmt (b64 (b64 (co a 1 - co c 1) * b64 (co b 0 - co c 0)))) by apply b64_fmt.
  revert WL WR FL FR GL GR. generalize ((co a 0 - co c 0) * (co b 1 - co c 1)) ((co a 1 - co c 1) * (co b 0 - co c 0)).
  generalize (b64 (b64 (co a 0 - co c 0) * b64 (co b 1 - co c 1))) (b64 (b64 (co a 1 - co c 1) * b64 (co b 0 - co c 0))).
  intros dl dr L R WL WR FL FR GL GR. clear F1 F2 F3 F4 a b c. pose proof u53_small as U. pose proof (hpow u53 U 3) as H3.
  pose proof (within_sign _ _ _ (proj1 H3) WL) as [SL1 SL2]. pose proof (within_sign _ _ _ (proj1 H3) WR) as [SR1 SR2].
  pose proof (near_hh _ _ (b64_minus_near dl dr GL GR)) as WD. pose proof (within_sign hh _ _ ltac:(lra) WD) as [SD1 SD2].
  assert (Pos : forall x, Far (-960) x -> 0 < x -> pw (-960) <= x) by (intros x [->|H] Hx; [lra|]; rewrite Rabs_right in H by lra; exact H).
  destruct (Rltb 0 dl) eqn:E1; [apply Rltb_true in E1|apply Rltb_false in E1; destruct (Rltb dl 0) eqn:E2; [apply Rltb_true in E2|apply Rltb_false in E2]].
  - destruct (leq dr 0) eqn:E3.
    + apply leq_spec in E3. intros [= <-]. rewrite SD1, SD2. assert (0 < L) by tauto. assert (R <= 0) by (destruct (Rle_or_lt R 0); [assumption|exfalso; lra]). split; split; lra.
    + assert (P : 0 < dr) by (destruct (Rle_or_lt dr 0) as [H|H]; [apply leq_spec in H; congruence|exact H]).
      pose proof (near_hh _ _ (b64_plus_near dl dr GL GR)) as WS.
      assert (FS : Far (-960) (b64 (dl + dr))).
      { apply far_b64; [lia|]. right. rewrite Rabs_right by lra. pose proof (Pos dl FL E1). lra. }
      pose proof (err_within (-960) _ ltac:(lia) FS) as WE. destruct (_ || _) eqn:E45; [|discriminate]. intros [= <-]. apply orb_prop in E45 as [E4|E5].
      * apply leq_spec in E4. destruct (same_sign_2d u53 U L R dl dr _ _ _ WL WR WD WS WE E1 P E4). split; split; lra.
      * apply leq_spec in E5. assert (WD' : Within hh (dr - dl) (- b64 (dl - dr))) by (replace (dr - dl) with (- (dl - dr)) by ring; by apply within_opp).
        rewrite Rplus_comm in WS at 1. destruct (same_sign_2d u53 U R L dr dl _ _ _ WR WL WD' WS WE P E1 E5). split; split; lra.
  - destruct (leq 0 dr) eqn:E3.
    + apply leq_spec in E3. intros [= <-]. rewrite SD1, SD2. assert (L < 0) by tauto. assert (0 <= R) by (destruct (Rle_or_lt 0 R); [assumption|exfalso; lra]). split; split; lra.
    + assert (P : dr < 0) by (destruct (Rle_or_lt 0 dr) as [H|H]; [apply leq_spec in H; congruence|exact H]).
      assert (GL' : fmt (- dl)) by (by apply generic_format_opp). assert (GR' : fmt (- dr)) by (by apply generic_format_opp).
      pose proof (near_hh _ _ (b64_plus_near (- dl) (- dr) GL' GR')) as WS. change (- dl + - dr) with (- dl - dr) in WS at 2.
      assert (FS : Far (-960) (b64 (- dl - dr))).
      { apply far_b64; [lia|]. right. rewrite Rabs_right by lra. destruct FL as [->|FL]; [lra|]. rewrite Rabs_left in FL by lra. lra. }
      pose proof (err_within (-960) _ ltac:(lia) FS) as WE. pose proof (within_opp _ _ _ WL) as WL'. pose proof (within_opp _ _ _ WR) as WR'.
      destruct (_ || _) eqn:E45; [|discriminate]. intros [= <-]. apply orb_prop in E45 as [E4|E5].
      * apply leq_spec in E4. assert (WD' : Within hh (- dr - - dl) (b64 (dl - dr))) by (replace (- dr - - dl) with (dl - dr) by ring; exact WD).
        rewrite Rplus_comm in WS at 1. destruct (same_sign_2d u53 U (- R) (- L) (- dr) (- dl) _ _ _ WR' WL' WD' WS WE ltac:(lra) ltac:(lra) E4). split; split; lra.
      * apply leq_spec in E5. assert (WD' : Within hh (- dl - - dr) (- b64 (dl - dr))) by (replace (- dl - - dr) with (- (dl - dr)) by ring; by apply within_opp).
        destruct (same_sign_2d u53 U (- L) (- R) (- dl) (- dr) _ _ _ WL' WR' WD' WS WE ltac:(lra) ltac:(lra) E5). split; split; lra.
  - intros [= <-]. rewrite SD1, SD2. assert (dl = 0) by lra. assert (L = 0).
    { destruct (Rtotal_order L 0) as [H'|[H'|H']]; [|assumption|]; exfalso; [apply SL2 in H'|apply SL1 in H']; lra. }
    subst. split; split; intros; [apply Ropp_lt_cancel|..]; try lra.
    all: destruct (Rtotal_order R 0) as [H'|[H'|H']]; try lra; exfalso; first [apply SR2 in H' | apply SR1 in H' | idtac]; try lra.
Qed.

(** The products of three differences. *)
Lemma triple_within k z u v : (-511 <= k)%Z -> Far k z -> Far k u -> Far k v -> Within (hh ^ 4) (z * (u * v)) (b64 z * b64 (b64 u * b64 v)).
Proof.
  intros Hk Hz Hu Hv. pose proof u53_small as U. replace (hh ^ 4) with (hh * hh ^ 3) by ring. apply within_mul; [lra|apply (hpow u53 U)| |by apply (prod_within k)].
  apply near_hh, b64_near. by apply (far_mono k); [lia|].
Qed.
Lemma prod_far k u v : (-500 <= k)%Z -> Far k u -> Far k v -> Far (k + k) (b64 (b64 u * b64 v)).
Proof. intros Hk Hu Hv. apply far_b64; [lia|]. apply far_mul; apply far_b64; (lia || assumption). Qed.
Lemma far_abs_plus k x y : Far k x -> Far k y -> Far k (Rabs x + Rabs y).
Proof.
  intros Hx Hy. pose proof (Rabs_pos x). pose proof (Rabs_pos y). destruct Hx as [->|Hx].
  - rewrite Rabs_R0, Rplus_0_l. destruct Hy as [->|Hy]; [left; apply Rabs_R0|right]. rewrite Rabs_Rabsolu. exact Hy.
  - right. rewrite Rabs_right by lra. lra.
Qed.
Lemma far_plus_pos k x y : 0 <= x -> 0 <= y -> Far k x -> Far k y -> Far k (x + y).
Proof. intros H1 H2 Hx Hy. pose proof (far_abs_plus k x y Hx Hy) as H. rewrite !Rabs_right in H by lra. exact H. Qed.
Lemma far_abs k x : Far k x -> Far k (Rabs x).
Proof. intros [->|H]; [left; apply Rabs_R0|right; rewrite Rabs_Rabsolu; exact H]. Qed.
Lemma b64_nonneg x : 0 <= x -> 0 <= b64 x.
Proof. intros H. apply (rnd_ge b64_rounding x 0); [lia|exact H]. Qed.
Lemma fmt_abs x : fmt x -> fmt (Rabs x).
Proof. apply generic_format_abs. Qed.

Theorem C37_filter_3d a b c d r :
  (forall p i, p ∈ [a; b; c] -> (i < 3)%nat -> Far (-320) (co p i - co d i)) ->
  orient3d_filter b64 u53 a b c d = Some r -> (0 < r <-> 0 < orient3d a b c d) /\ (r < 0 <-> orient3d a b c d < 0).
Proof.
  intros HF. pose proof u53_small as U.
  assert (Fa : forall i, (i < 3)%nat -> Far (-320) (co a i - co d i)) by (intros i; apply HF; rewrite !elem_of_cons; tauto).
  assert (Fb : forall i, (i < 3)%nat -> Far (-320) (co b i - co d i)) by (intros i; apply HF; rewrite !elem_of_cons; tauto).
  assert (Fc : forall i, (i < 3)%nat -> Far (-320) (co c i - co d i)) by (intros i; apply HF; rewrite !elem_of_cons; tauto). clear HF.
  pose proof (Fa 0%nat ltac:(lia)) as A0. pose proof (Fa 1%nat ltac:(lia)) as A1. pose proof (Fa 2%nat ltac:(lia)) as A2.
  pose proof (Fb 0%nat ltac:(lia)) as B0. pose proof (Fb 1%nat ltac:(lia)) as B1. pose proof (Fb 2%nat ltac:(lia)) as B2.
  pose proof (Fc 0%nat ltac:(lia)) as C0. pose proof (Fc 1%nat ltac:(lia)) as C1. pose proof (Fc 2%nat ltac:(lia)) as C2. clear Fa Fb Fc.
  unfold orient3d_filter, orient3d. cbv zeta. revert A0 A1 A2 B0 B1 B2 C0 C1 C2.
  generalize (co a 0 - co d 0) (co a 1 - co d 1) (co a 2 - co d 2) (co b 0 - co d 0) (co b 1 - co d 1) (co b 2 - co d 2) (co c 0 - co d 0) (co c 1 - co d 1) (co c 2 - co d 2).
  clear a b c d. intros ax ay az bx by' bz cx cy cz A0 A1 A2 B0 B1 B2 C0 C1 C2 HF.
  (* one of the three terms: the rounded product of [z] with [u * v - s * w] *)
  assert (T : forall z u v s w, Far (-320) z -> Far (-320) u -> Far (-320) v -> Far (-320) s -> Far (-320) w ->
    let x := b64 (b64 u * b64 v) in let y := b64 (b64 s * b64 w) in let t := b64 (b64 z * b64 (x - y)) in let P := Rabs (b64 z) * (Rabs x + Rabs y) in
    let p := b64 (b64 (Rabs x + Rabs y) * Rabs (b64 z)) in
    Rabs (t - b64 z * (x - y)) <= ((1 + u53) ^ 2 - 1) * P /\ Rabs t <= (1 + u53) ^ 2 * P /\
    hh ^ 4 * Rabs (b64 z * (x - y) - (z * (u * v) - z * (s * w))) <= (1 - hh ^ 4) * P /\ hh ^ 2 * P <= p /\ 0 <= P /\ 0 <= p /\ Far (-960) p).
  { clear - U. intros z u v s w Hz Hu Hv Hs Hw x y t P p.
    assert (Fx : Far (-640) x) by exact (prod_far (-320) u v ltac:(lia) Hu Hv). assert (Fy : Far (-640) y) by exact (prod_far (-320) s w ltac:(lia) Hs Hw).
    assert (Gx : fmt x) by apply b64_fmt. assert (Gy : fmt y) by apply b64_fmt. pose proof (b64_minus_near x y Gx Gy) as N1.
    assert (Fm : Far (-692) (b64 (x - y))) by (apply far_b64; [lia|]; exact (far_minus (-640) x y Gx Gy Fx Fy)).
    assert (Fz : Far (-320) (b64 z)) by (apply far_b64; [lia|exact Hz]).
    assert (N2 : Near u53 (b64 z * b64 (x - y)) t) by (apply b64_near; apply (far_mono (-320 + -692)); [lia|]; by apply far_mul).
    destruct (term_err u53 U (b64 z) x y _ t N1 N2) as [E1 E2]. split; [exact E1|]. split; [exact E2|].
    split; [apply (term_exact u53 U); apply (triple_within (-320)); (lia || assumption)|].
    assert (F2 : Far (-640) (b64 (Rabs x + Rabs y))) by (apply far_b64; [lia|]; by apply far_abs_plus).
    assert (Fp : Far (-960) (b64 (Rabs x + Rabs y) * Rabs (b64 z))) by (apply (far_mul (-640) (-320)); [exact F2|by apply far_abs]).
    pose proof (Rabs_pos x). pose proof (Rabs_pos y). pose proof (Rabs_pos (b64 z)).
    split.
    - apply (term_perm u53 U (b64 z) x y (b64 (Rabs x + Rabs y)) p).
      + apply near_hh, b64_plus_near; by apply fmt_abs.
      + apply near_hh, b64_near. by apply (far_mono (-960)); [lia|].
    - split; [apply Rmult_le_pos; lra|]. split; [apply b64_nonneg; apply Rmult_le_pos; [apply b64_nonneg; lra|lra]|]. apply far_b64; [lia|exact Fp]. }
  pose proof (T az bx cy cx by' A2 B0 C1 C0 B1) as T1. pose proof (T bz cx ay ax cy B2 C0 A1 A0 C1) as T2. pose proof (T cz ax by' bx ay C2 A0 B1 B0 A1) as T3. clear T. cbv zeta in T1, T2, T3.
  set (x1 := b64 (b64 bx * b64 cy)) in *. set (y1 := b64 (b64 cx * b64 by')) in *. set (x2 := b64 (b64 cx * b64 ay)) in *. set (y2 := b64 (b64 ax * b64 cy)) in *.
  set (x3 := b64 (b64 ax * b64 by')) in *. set (y3 := b64 (b64 bx * b64 ay)) in *.
  set (t1 := b64 (b64 az * b64 (x1 - y1))) in *. set (t2 := b64 (b64 bz * b64 (x2 - y2))) in *. set (t3 := b64 (b64 cz * b64 (x3 - y3))) in *.
  set (p1 := b64 (b64 (Rabs x1 + Rabs y1) * Rabs (b64 az))) in *. set (p2 := b64 (b64 (Rabs x2 + Rabs y2) * Rabs (b64 bz))) in *.
  set (p3 := b64 (b64 (Rabs x3 + Rabs y3) * Rabs (b64 cz))) in *.
  destruct T1 as (E1 & M1 & X1 & Q1 & N1 & O1 & F1). destruct T2 as (E2 & M2 & X2 & Q2 & N2 & O2 & F2). destruct T3 as (E3 & M3 & X3 & Q3 & N3 & O3 & F3).
  set (P1 := Rabs (b64 az) * (Rabs x1 + Rabs y1)) in *. set (P2 := Rabs (b64 bz) * (Rabs x2 + Rabs y2)) in *. set (P3 := Rabs (b64 cz) * (Rabs x3 + Rabs y3)) in *.
  assert (G12 : Near u53 (t1 + t2) (b64 (t1 + t2))) by (apply b64_plus_near; apply b64_fmt).
  assert (Gd : Within hh (b64 (t1 + t2) + t3) (b64 (b64 (t1 + t2) + t3))) by (apply near_hh, b64_plus_near; apply b64_fmt).
  assert (Fq : Far (-960) (p1 + p2)) by (by apply far_plus_pos).
  assert (Oq : 0 <= b64 (p1 + p2)) by (apply b64_nonneg; lra).
  assert (Fr : Far (-960) (b64 (b64 (p1 + p2) + p3))) by (apply far_b64; [lia|]; apply far_plus_pos; [exact Oq|exact O3|apply far_b64; [lia|exact Fq]|exact F3]).
  assert (Hperm : hh ^ 4 * (P1 + P2 + P3) <= b64 (b64 (p1 + p2) + p3)).
  { assert (W1 : Within hh (p1 + p2) (b64 (p1 + p2))) by (apply near_hh, b64_plus_near; apply b64_fmt).
    assert (W2 : Within hh (b64 (p1 + p2) + p3) (b64 (b64 (p1 + p2) + p3))) by (apply near_hh, b64_plus_near; apply b64_fmt).
    apply within_ge in W1; [|lra]. apply within_ge in W2; [|lra]. rewrite !Rabs_right in W1 by lra. rewrite (Rabs_right (b64 (p1 + p2) + p3)) in W2 by lra.
    rewrite Rabs_right in W2 by (apply Rle_ge, b64_nonneg; lra). apply Rle_trans with (2 := W2).
    replace (hh ^ 4 * (P1 + P2 + P3)) with (hh * (hh * (hh ^ 2 * P1 + hh ^ 2 * P2) + hh ^ 2 * (hh * P3))) by ring. apply Rmult_le_compat_l; [lra|].
    assert (hh ^ 2 * (hh * P3) <= hh ^ 2 * P3) by (apply Rmult_le_compat_l; [apply pow_le; lra|]; nra).
    assert (hh * (hh ^ 2 * P1 + hh ^ 2 * P2) <= hh * (p1 + p2)) by (apply Rmult_le_compat_l; lra). lra. }
  assert (Herr : Within hh ((7 + 56 * u53) * u53 * b64 (b64 (p1 + p2) + p3)) (b64 (o3derrboundA b64 u53 * b64 (b64 (p1 + p2) + p3)))).
  { rewrite o3d_const. apply near_hh, b64_near. apply (far_mono (-53 + -960)); [lia|]. apply far_mul; [|exact Fr].
    right. rewrite Rabs_right by nra. change (pw (-53)) with u53. nra. }
  set (perm := b64 (b64 (p1 + p2) + p3)) in *. set (err := b64 (o3derrboundA b64 u53 * perm)) in *. set (det := b64 (b64 (t1 + t2) + t3)) in *.
  destruct (_ || _) eqn:Ec; [|discriminate]. injection HF as <-.
  assert (Hc : err < Rabs det).
  { apply orb_prop in Ec as [Ec|Ec]; apply Rltb_true in Ec; [pose proof (Rle_abs det); lra|]. pose proof (Rle_abs (- det)) as H. rewrite Rabs_Ropp in H. lra. }
  match goal with |- (_ <-> 0 < ?D) /\ _ => set (D0 := D) end.
  apply (total_sign_3d u53 U t1 t2 t3 (b64 (t1 + t2)) D0 (b64 az * (x1 - y1)) (b64 bz * (x2 - y2)) (b64 cz * (x3 - y3)) P1 P2 P3 perm err det); try assumption.
  replace (b64 az * (x1 - y1) + b64 bz * (x2 - y2) + b64 cz * (x3 - y3) - D0) with
    ((b64 az * (x1 - y1) - (az * (bx * cy) - az * (cx * by'))) + ((b64 bz * (x2 - y2) - (bz * (cx * ay) - bz * (ax * cy))) + (b64 cz * (x3 - y3) - (cz * (ax * by') - cz * (bx * ay))))) by (unfold D0; ring).
  match goal with |- _ * Rabs (?p + (?q + ?s)) <= _ => pose proof (Rabs_triang p (q + s)) as R1; pose proof (Rabs_triang q s) as R2 end.
  pose proof (hpow u53 U 4) as H4. replace ((1 - hh ^ 4) * (P1 + P2 + P3)) with ((1 - hh ^ 4) * P1 + ((1 - hh ^ 4) * P2 + (1 - hh ^ 4) * P3)) by ring.
  eapply Rle_trans; [apply Rmult_le_compat_l; [lra|]; eapply Rle_trans; [exact R1|apply Rplus_le_compat_l; exact R2]|]. rewrite !Rmult_plus_distr_l. lra.
Qed.

(** ** The test in floating point *)
Definition SameSign (x y : R) : Prop := (0 < x <-> 0 < y) /\ (x < 0 <-> y < 0).
Lemma sign_rltb_pos x y : SameSign x y -> Rltb 0 x = Rltb 0 y.
Proof. intros [H _]. apply eq_true_iff_eq. rewrite !Rltb_true. exact H. Qed.
Lemma sign_rltb_neg x y : SameSign x y -> Rltb x 0 = Rltb y 0.
Proof. intros [_ H]. apply eq_true_iff_eq. rewrite !Rltb_true. exact H. Qed.
Lemma sign_nonneg x y : SameSign x y -> nonneg x = nonneg y.
Proof. intros H. unfold nonneg. by rewrite (sign_rltb_neg x y H). Qed.
Lemma sign_nonpos x y : SameSign x y -> nonpos x = nonpos y.
Proof. intros H. unfold nonpos. by rewrite (sign_rltb_pos x y H). Qed.
Lemma sign_zero x y : SameSign x y -> zero x = zero y.
Proof. intros [H1 H2]. unfold zero, Reqb. destruct (Req_EM_T x 0), (Req_EM_T y 0); try reflexivity; exfalso; lra. Qed.
Lemma by_2d o p0 p1 p2 x : (forall a b c, a ∈ [x; p0; p1; p2] -> b ∈ [x; p0; p1; p2] -> c ∈ [x; p0; p1; p2] -> SameSign (o a b c) (orient2d a b c)) ->
  inside_2d_by o p0 p1 p2 x = inside_2d_by orient2d p0 p1 p2 x.
Proof.
  intros H. assert (E : forall a b c, a ∈ [x; p0; p1; p2] /\ b ∈ [x; p0; p1; p2] /\ c ∈ [x; p0; p1; p2] -> SameSign (o a b c) (orient2d a b c)) by (intros a b c (?&?&?); by apply H).
  assert (E0 : SameSign (o p0 p1 p2) (orient2d p0 p1 p2)) by (apply E; rewrite !elem_of_cons; tauto).
  assert (E1 : SameSign (o p1 p2 x) (orient2d p1 p2 x)) by (apply E; rewrite !elem_of_cons; tauto).
  assert (E2 : SameSign (o p2 p0 x) (orient2d p2 p0 x)) by (apply E; rewrite !elem_of_cons; tauto).
  assert (E3 : SameSign (o p0 p1 x) (orient2d p0 p1 x)) by (apply E; rewrite !elem_of_cons; tauto).
  unfold inside_2d_by. cbv zeta. rewrite (sign_rltb_pos _ _ E0), (sign_rltb_neg _ _ E0), (sign_nonneg _ _ E1), (sign_nonneg _ _ E2), (sign_nonneg _ _ E3),
    (sign_nonpos _ _ E1), (sign_nonpos _ _ E2), (sign_nonpos _ _ E3), (sign_zero _ _ E1), (sign_zero _ _ E2), (sign_zero _ _ E3). reflexivity.
Qed.
Lemma by_3d o p0 p1 p2 p3 x : (forall a b c d, a ∈ [x; p0; p1; p2; p3] -> b ∈ [x; p0; p1; p2; p3] -> c ∈ [x; p0; p1; p2; p3] -> d ∈ [x; p0; p1; p2; p3] -> SameSign (o a b c d) (orient3d a b c d)) ->
  inside_3d_by o p0 p1 p2 p3 x = inside_3d_by orient3d p0 p1 p2 p3 x.
Proof.
  intros H. assert (E : forall a b c d, a ∈ [x; p0; p1; p2; p3] /\ b ∈ [x; p0; p1; p2; p3] /\ c ∈ [x; p0; p1; p2; p3] /\ d ∈ [x; p0; p1; p2; p3] -> SameSign (o a b c d) (orient3d a b c d)) by (intros a b c d (?&?&?&?); by apply H).
  assert (E0 : SameSign (o p0 p1 p2 p3) (orient3d p0 p1 p2 p3)) by (apply E; rewrite !elem_of_cons; tauto).
  assert (E1 : SameSign (o p0 p1 p2 x) (orient3d p0 p1 p2 x)) by (apply E; rewrite !elem_of_cons; tauto).
  assert (E2 : SameSign (o p0 p3 p1 x) (orient3d p0 p3 p1 x)) by (apply E; rewrite !elem_of_cons; tauto).
  assert (E3 : SameSign (o p0 p2 p3 x) (orient3d p0 p2 p3 x)) by (apply E; rewrite !elem_of_cons; tauto).
  assert (E4 : SameSign (o p1 p3 p2 x) (orient3d p1 p3 p2 x)) by (apply E; rewrite !elem_of_cons; tauto).
  unfold inside_3d_by. cbv zeta. rewrite (sign_rltb_pos _ _ E0), (sign_rltb_neg _ _ E0), (sign_nonneg _ _ E1), (sign_nonneg _ _ E2), (sign_nonneg _ _ E3), (sign_nonneg _ _ E4),
    (sign_nonpos _ _ E1), (sign_nonpos _ _ E2), (sign_nonpos _ _ E3), (sign_nonpos _ _ E4). reflexivity.
Qed.

(** If the exact stage returns the right sign, then the floating-point test gives the answer of the exact test whenever no two coordinates involved
    differ by less than 2^-320 without being equal. *)
Theorem C37_double adapt2 adapt3 g coords vs x : (1 <= g <= 3)%nat -> length vs = S g -> (forall v, v ∈ vs -> ((v + 1) * g <= length coords)%nat) ->
  (forall p q i, p ∈ x :: map (mesh_vertex g coords) vs -> q ∈ x :: map (mesh_vertex g coords) vs -> (i < g)%nat -> Far (-320) (co p i - co q i)) ->
  (forall a b c, SameSign (adapt2 a b c) (orient2d a b c)) -> (forall a b c d, SameSign (adapt3 a b c d) (orient3d a b c d)) ->
  is_inside_double b64 u53 adapt2 adapt3 g g coords vs x = is_inside_vertices g g coords vs x.
Proof.
  intros Hg Hl Hv HF H2 H3.
  assert (Hvx : forall i v, vs !! i = Some v -> vertex coords g vs i = Ok (mesh_vertex g coords v)).
  { intros i v Hi. apply vertex_ok; [done|]. apply Hv. by eapply elem_of_list_lookup_2. }
  unfold is_inside_double, is_inside_vertices. destruct g as [|[|[|[|g]]]]; [lia| | | |lia].
  - reflexivity.
  - destruct vs as [|a [|b [|c [|? ?]]]]; try discriminate. cbn [is_inside_by]. rewrite (Hvx 0%nat a), (Hvx 1%nat b), (Hvx 2%nat c) by reflexivity.
    f_equal. apply by_2d. intros p q r Hp Hq Hr. unfold orient2d_double. destruct (orient2d_filter _ _ p q r) as [d|] eqn:E; [|apply H2].
    apply (C37_filter_2d p q r d); [..|exact E]; apply (far_mono (-320)); try lia; apply HF; (assumption || lia).
  - destruct vs as [|a [|b [|c [|d [|? ?]]]]]; try discriminate. cbn [is_inside_by]. rewrite (Hvx 0%nat a), (Hvx 1%nat b), (Hvx 2%nat c), (Hvx 3%nat d) by reflexivity.
    apply by_3d. intros p q r s Hp Hq Hr Hs. unfold orient3d_double. destruct (orient3d_filter _ _ p q r s) as [t|] eqn:E; [|apply H3].
    apply (C37_filter_3d p q r s t); [|exact E]. intros y i Hy Hi. apply HF; [|exact Hs|exact Hi]. rewrite !elem_of_cons, elem_of_nil in Hy. destruct Hy as [->|[->|[->|[]]]]; assumption.
Qed.

(** Without the condition on the differences the floating-point test can be wrong, whatever the exact stage does: the determinants of a triangle with
    legs of 2^-600 underflow, and a point outside of it is found to be inside. *)
Lemma tiny_square : b64 (pw (-600) * pw (-600)) = 0 /\ b64 (- (pw (-600) * pw (-600))) = 0.
Proof.
  assert (E : b64 (pw (-600) * pw (-600)) = 0).
  { rewrite <- bpow_plus. unfold b64. apply (round_N_small_pos radix2 _ _ _ (-1199)); [|unfold FLT_exp; lia]. split; [apply bpow_le; lia|apply bpow_lt; lia]. }
  split; [exact E|]. unfold b64 in *. rewrite round_NE_opp, E. ring.
Qed.
Theorem C37_underflow_refuted : exists coords vs x, length vs = 3%nat /\ (forall v, v ∈ vs -> ((v + 1) * 2 <= length coords)%nat) /\
  ~ Hull 2 (map (mesh_vertex 2 coords) vs) x /\ forall adapt2 adapt3, is_inside_double b64 u53 adapt2 adapt3 2 2 coords vs x = Ok true.
Proof.
  set (w := pw (-600)). exists [0; 0; w; 0; 0; w], [0; 1; 2]%nat, [w; w]. split; [reflexivity|]. split.
  { intros v Hv. cbn. rewrite !elem_of_cons, elem_of_nil in Hv. lia. }
  assert (Pw : 0 < w) by apply bpow_gt_0. destruct tiny_square as [T1 T2]. fold w in T1, T2.
  assert (Z0 : b64 0 = 0) by apply (rnd_0 b64_rounding).
  assert (Zw : b64 w = w) by (apply b64_fix, generic_format_bpow; unfold FLT_exp; lia).
  assert (Zn : b64 (- w) = - w) by (apply b64_fix, generic_format_opp, generic_format_bpow; unfold FLT_exp; lia).
  clearbody w. split.
  - intros H. apply hull3 in H as (s & t & u & Hs & Ht & Hu & E & HC). pose proof (HC 0%nat ltac:(lia)) as E0. pose proof (HC 1%nat ltac:(lia)) as E1.
    unfold mesh_vertex, co in E0, E1. cbn in E0, E1.
    nra.
  - intros adapt2 adapt3. 
    assert (F : forall a b c x y z t, co a 0 - co c 0 = x -> co b 1 - co c 1 = y -> co a 1 - co c 1 = z -> co b 0 - co c 0 = t ->
      b64 (b64 x * b64 y) = 0 -> b64 (b64 z * b64 t) = 0 -> orient2d_double b64 u53 adapt2 a b c = 0).
    { intros a b c x y z t <- <- <- <- H1 H2. unfold orient2d_double, orient2d_filter. cbv zeta. rewrite H1, H2.
      replace (Rltb 0 0) with false by (symmetry; apply Rltb_false; lra). rewrite Rminus_0_r. exact Z0. }
    unfold is_inside_double. cbn [is_inside_by].
    assert (V0 : vertex [0; 0; w; 0; 0; w] 2 [0; 1; 2]%nat 0 = Ok [0; 0]) by reflexivity. assert (V1 : vertex [0; 0; w; 0; 0; w] 2 [0; 1; 2]%nat 1 = Ok [w; 0]) by reflexivity.
    assert (V2 : vertex [0; 0; w; 0; 0; w] 2 [0; 1; 2]%nat 2 = Ok [0; w]) by reflexivity. rewrite V0, V1, V2. f_equal. unfold inside_2d_by. cbv zeta.
    rewrite (F [0; 0] [w; 0] [0; w] 0 (- w) (- w) w); [|unfold co; cbn [nth]; ring..| |]; rewrite ?Z0, ?Zw, ?Zn; [|by replace (0 * - w) with 0 by ring|by replace (- w * w) with (- (w * w)) by ring].
    replace (Rltb 0 0) with false by (symmetry; apply Rltb_false; lra).
    rewrite (F [w; 0] [0; w] [w; w] 0 0 (- w) (- w)); [|unfold co; cbn [nth]; ring..| |]; rewrite ?Z0, ?Zw, ?Zn; [|by replace (0 * 0) with 0 by ring|by replace (- w * - w) with (w * w) by ring].
    assert (C : collides_1d w 0 w = true /\ collides_1d 0 w w = true).
    { split; apply collides_true; [right|left]; lra. }
    destruct C as [C1 C2]. change (co [w; 0] 0) with w. change (co [0; w] 0) with 0. change (co [w; w] 0) with w. change (co [w; 0] 1) with 0. change (co [0; w] 1) with w.
    change (co [w; w] 1) with w. rewrite C1, C2. replace (zero 0) with true by (unfold zero, Reqb; destruct (Req_EM_T 0 0); [reflexivity|lra]).
    rewrite orb_true_iff. left. rewrite orb_true_iff. right. reflexivity.
Qed.

(** Example: the first stage decides, and the test finds (1,1) in the triangle (0,0), (4,0), (0,4). *)
Example C37_filter_example : orient2d_filter b64 u53 [3; 1] [1; 4] [0; 0] = Some 11.
Proof.
  assert (Hi : forall z x, (Z.abs z <= 2 ^ 53)%Z -> x = IZR z -> b64 x = IZR z) by (intros z x Hz ->; by apply (rnd_int _ b64_rounding)).
  unfold orient2d_filter, co. cbn [nth]. cbv zeta.
  rewrite (Hi 3%Z (3 - 0)), (Hi 4%Z (4 - 0)), (Hi 1%Z (1 - 0)) by (lia || lra). rewrite (Hi 12%Z (3 * 4)), (Hi 1%Z (1 * 1)) by (lia || lra).
  rewrite (Hi 11%Z (12 - 1)), (Hi 13%Z (12 + 1)) by (lia || lra).
  replace (Rltb 0 12) with true by (symmetry; apply Rltb_true; lra). replace (leq 1 0) with false by (symmetry; apply not_true_iff_false; rewrite leq_spec; lra).
  replace (leq _ 11) with true; [reflexivity|]. symmetry. apply leq_spec. apply (rnd_le b64_rounding); [lia|]. rewrite ccw_const. pose proof u53_small. nra.
Qed.
Example C37_double_example : is_inside_double b64 u53 orient2d orient3d 2 2 [0; 0; 4; 0; 0; 4] [0; 2; 1]%nat [2; 2] = Ok true.
Proof.
  rewrite C37_double; [exact (proj1 C37_example)|lia|reflexivity| | |intros; split; tauto|intros; split; tauto].
  - intros v Hv. cbn. rewrite !elem_of_cons, elem_of_nil in Hv. lia.
  - intros p q i Hp Hq Hi. unfold mesh_vertex in Hp, Hq. cbn in Hp, Hq. rewrite !elem_of_cons, elem_of_nil in Hp, Hq.
    assert (K : forall x, x = 0 \/ 1 <= Rabs x -> Far (-320) x).
    { intros x [->|H]; [by left|right]. apply Rle_trans with (2 := H). change 1 with (pw 0). apply bpow_le. lia. }
    apply K. unfold co. destruct i as [|[|i]]; [| |lia]; destruct Hp as [->|[->|[->|[->|[]]]]]; destruct Hq as [->|[->|[->|[->|[]]]]]; cbn [nth];
      first [left; lra | right; unfold Rabs; destruct (Rcase_abs _); lra].
Qed.

Print Assumptions C37_filter_2d.
Print Assumptions C37_filter_3d.
Print Assumptions C37_double.
Print Assumptions C37_underflow_refuted.
