(** C37: the point-in-cell test. *)
From Verif Require Import Vec VecProofs TrackModel Geometry InsideModel.

(** ** What is meant *)

(** The sum of a list, and the convex hull of some points, in the first [g] coordinates. *)
Definition tot (l : list R) : R := fold_right Rplus 0 l.
Definition Hull (g : nat) (pts : list vec) (x : vec) : Prop :=
  exists ws, length ws = length pts /\ Forall (fun w => 0 <= w) ws /\ tot ws = 1 /\
    forall i, (i < g)%nat -> co x i = tot (zip_with (fun w p => w * co p i) ws pts).

(** The order of the points does not matter. *)
Lemma hull_perm g ps qs x : ps ≡ₚ qs -> Hull g ps x -> Hull g qs x.
Proof.
  intros HP. enough (H : forall ws : list R, length ws = length ps -> exists ws', ws' ≡ₚ ws /\ length ws' = length qs /\
    forall i, tot (zip_with (fun w p => w * co p i) ws' qs) = tot (zip_with (fun w p => w * co p i) ws ps)).
  { intros (ws & Hl & Hp & Ht & Hc). destruct (H ws Hl) as (ws' & Hw & Hl' & He). exists ws'. split; [exact Hl'|]. split; [by rewrite Hw|]. split.
    - rewrite <- Ht. clear - Hw. induction Hw; unfold tot in *; cbn [fold_right] in *; lra.
    - intros i Hi. by rewrite He, Hc. }
  induction HP as [|p ps qs HP IH|p q ps|ps qs rs HP1 IH1 HP2 IH2]; intros ws Hl.
  - exists []. destruct ws; [|discriminate]. done.
  - destruct ws as [|w ws]; [discriminate|]. destruct (IH ws) as (ws' & Hw & Hl' & He); [by injection Hl|].
    exists (w :: ws'). split; [by constructor|]. split; [cbn; by rewrite Hl'|]. intros i. cbn. by rewrite He.
  - destruct ws as [|w [|v ws]]; [discriminate..|]. exists (v :: w :: ws). split; [by constructor|]. split; [exact Hl|]. intros i. unfold tot. cbn [zip_with fold_right]. lra.
  - destruct (IH1 ws Hl) as (w1 & Hw1 & Hl1 & He1). destruct (IH2 w1 Hl1) as (w2 & Hw2 & Hl2 & He2).
    exists w2. split; [by rewrite Hw2|]. split; [exact Hl2|]. intros i. by rewrite He2, He1.
Qed.

(** ** Small facts *)
Lemma nonneg_true x : nonneg x = true <-> 0 <= x.
Proof. unfold nonneg. rewrite negb_true_iff. apply Rltb_false. Qed.
Lemma nonpos_true x : nonpos x = true <-> x <= 0.
Proof. unfold nonpos. rewrite negb_true_iff. apply Rltb_false. Qed.
Lemma leq_true a b : leq a b = true <-> a <= b.
Proof. unfold leq. rewrite negb_true_iff. apply Rltb_false. Qed.
Lemma zero_true x : zero x = true <-> x = 0.
Proof. apply Reqb_true. Qed.
Lemma collides_true a b x : collides_1d a b x = true <-> a <= x <= b \/ b <= x <= a.
Proof.
  unfold collides_1d. destruct (Rltb b a) eqn:E; rewrite andb_true_iff, !leq_true.
  - apply Rltb_true in E. split; [tauto|lra].
  - apply Rltb_false in E. split; [tauto|lra].
Qed.
Lemma lt2 (P : nat -> Prop) : (forall i, (i < 2)%nat -> P i) <-> P 0%nat /\ P 1%nat.
Proof. split; [intros H; split; apply H; lia|]. intros [H0 H1] [|[|i]] Hi; [done|done|lia]. Qed.
Lemma lt3 (P : nat -> Prop) : (forall i, (i < 3)%nat -> P i) <-> P 0%nat /\ P 1%nat /\ P 2%nat.
Proof. split; [intros H; repeat split; apply H; lia|]. intros (H0 & H1 & H2) [|[|[|i]]] Hi; [done|done|done|lia]. Qed.

(** Hulls of two, three and four points. *)
Lemma hull2 g a b x : Hull g [a; b] x <-> exists s t, 0 <= s /\ 0 <= t /\ s + t = 1 /\ forall i, (i < g)%nat -> co x i = s * co a i + t * co b i.
Proof.
  split.
  - intros (ws & Hl & Hp & Ht & Hc). destruct ws as [|s [|t [|? ?]]]; try discriminate.
    inversion_clear Hp as [|?? Hs Hp']. inversion_clear Hp' as [|?? Ht' _]. cbn in Ht. exists s, t. split; [done|]. split; [done|]. split; [lra|].
    intros i Hi. rewrite (Hc i Hi). cbn. ring.
  - intros (s & t & Hs & Ht & H1 & Hc). exists [s; t]. split; [done|]. split; [repeat (apply Forall_cons_2; [assumption|]); apply Forall_nil_2|]. split; [cbn; lra|].
    intros i Hi. rewrite (Hc i Hi). cbn. ring.
Qed.
Lemma hull3 g a b c x : Hull g [a; b; c] x <->
  exists s t u, 0 <= s /\ 0 <= t /\ 0 <= u /\ s + t + u = 1 /\ forall i, (i < g)%nat -> co x i = s * co a i + t * co b i + u * co c i.
Proof.
  split.
  - intros (ws & Hl & Hp & Ht & Hc). destruct ws as [|s [|t [|u [|? ?]]]]; try discriminate.
    inversion_clear Hp as [|?? Hs Hp']. inversion_clear Hp' as [|?? Ht' Hp]. inversion_clear Hp as [|?? Hu _]. cbn in Ht.
    exists s, t, u. split; [done|]. split; [done|]. split; [done|]. split; [lra|]. intros i Hi. rewrite (Hc i Hi). cbn. ring.
  - intros (s & t & u & Hs & Ht & Hu & H1 & Hc). exists [s; t; u]. split; [done|]. split; [repeat (apply Forall_cons_2; [assumption|]); apply Forall_nil_2|]. split; [cbn; lra|].
    intros i Hi. rewrite (Hc i Hi). cbn. ring.
Qed.
Lemma hull4 g a b c d x : Hull g [a; b; c; d] x <->
  exists s t u v, 0 <= s /\ 0 <= t /\ 0 <= u /\ 0 <= v /\ s + t + u + v = 1 /\
    forall i, (i < g)%nat -> co x i = s * co a i + t * co b i + u * co c i + v * co d i.
Proof.
  split.
  - intros (ws & Hl & Hp & Ht & Hc). destruct ws as [|s [|t [|u [|v [|? ?]]]]]; try discriminate.
    inversion_clear Hp as [|?? Hs Hp']. inversion_clear Hp' as [|?? Ht' Hp]. inversion_clear Hp as [|?? Hu Hp']. inversion_clear Hp' as [|?? Hv _]. cbn in Ht.
    exists s, t, u, v. split; [done|]. split; [done|]. split; [done|]. split; [done|]. split; [lra|]. intros i Hi. rewrite (Hc i Hi). cbn. ring.
  - intros (s & t & u & v & Hs & Ht & Hu & Hv & H1 & Hc). exists [s; t; u; v]. split; [done|]. split; [repeat (apply Forall_cons_2; [assumption|]); apply Forall_nil_2|]. split; [cbn; lra|].
    intros i Hi. rewrite (Hc i Hi). cbn. ring.
Qed.

(** ** One dimension *)
Lemma inside_1d_ok p0 p1 x : inside_1d (co p0 0) (co p1 0) (co x 0) = true <-> Hull 1 [p0; p1] x.
Proof.
  rewrite hull2. change (collides_1d (co p0 0) (co p1 0) (co x 0) = true <-> exists s t, 0 <= s /\ 0 <= t /\ s + t = 1 /\ forall i, (i < 1)%nat -> co x i = s * co p0 i + t * co p1 i).
  rewrite collides_true. split.
  - intros H. destruct (Req_dec (co p0 0) (co p1 0)) as [E|E].
    + exists 1, 0. split; [lra|]. split; [lra|]. split; [lra|]. intros [|i] Hi; [lra|lia].
    + set (a := co p0 0) in *. set (b := co p1 0) in *. set (y := co x 0) in *.
      exists ((b - y) / (b - a)), ((y - a) / (b - a)).
      assert (Hab : b - a <> 0) by lra.
      assert (Hpos : forall u, (0 <= u /\ 0 < b - a) \/ (u <= 0 /\ b - a < 0) -> 0 <= u / (b - a)).
      { intros u [[H1 H2]|[H1 H2]].
        - apply Rmult_le_pos; [lra|]. apply Rlt_le, Rinv_0_lt_compat. lra.
        - replace (u / (b - a)) with ((- u) / (- (b - a))) by (field; lra). apply Rmult_le_pos; [lra|]. apply Rlt_le, Rinv_0_lt_compat. lra. }
      split; [apply Hpos; lra|]. split; [apply Hpos; lra|]. split; [field; lra|]. intros [|i] Hi; [|lia]. fold a b y. field. lra.
  - intros (s & t & Hs & Ht & H1 & Hc). specialize (Hc 0%nat ltac:(lia)). rewrite Hc. replace s with (1 - t) by lra.
    destruct (Rle_dec (co p0 0) (co p1 0)); [left|right]; split; nra.
Qed.

(** ** Two dimensions *)
Lemma orient2d_hull p0 p1 p2 x s t u : s + t + u = 1 -> (forall i, (i < 2)%nat -> co x i = s * co p0 i + t * co p1 i + u * co p2 i) ->
  orient2d p1 p2 x = s * orient2d p0 p1 p2 /\ orient2d p2 p0 x = t * orient2d p0 p1 p2 /\ orient2d p0 p1 x = u * orient2d p0 p1 p2.
Proof.
  intros H1 Hc. unfold orient2d. rewrite (Hc 0%nat), (Hc 1%nat) by lia. replace u with (1 - s - t) by lra. repeat split; ring.
Qed.
(** Cramer's rule: the weights of a point. *)
Lemma cramer2d p0 p1 p2 x : orient2d p0 p1 p2 <> 0 ->
  let r := orient2d p0 p1 p2 in
  orient2d p1 p2 x / r + orient2d p2 p0 x / r + orient2d p0 p1 x / r = 1 /\
  forall i, (i < 2)%nat -> co x i = orient2d p1 p2 x / r * co p0 i + orient2d p2 p0 x / r * co p1 i + orient2d p0 p1 x / r * co p2 i.
Proof.
  intros Hr r. split.
  - replace 1 with (r / r) by (field; exact Hr). unfold Rdiv. rewrite <- !Rmult_plus_distr_r. f_equal. unfold r, orient2d. ring.
  - intros i Hi. apply (Rmult_eq_reg_r r); [|exact Hr].
    replace ((orient2d p1 p2 x / r * co p0 i + orient2d p2 p0 x / r * co p1 i + orient2d p0 p1 x / r * co p2 i) * r)
      with (orient2d p1 p2 x * co p0 i + orient2d p2 p0 x * co p1 i + orient2d p0 p1 x * co p2 i) by (field; exact Hr).
    unfold r, orient2d. destruct i as [|[|i]]; [ring|ring|lia].
Qed.
Lemma div_sign a r : r <> 0 -> (0 < r -> 0 <= a) -> (r < 0 -> a <= 0) -> 0 <= a / r.
Proof.
  intros Hr H1 H2. destruct (Rtotal_order r 0) as [H|[H|H]]; [|lra|].
  - replace (a / r) with ((- a) / (- r)) by (field; lra). apply Rmult_le_pos; [specialize (H2 H); lra|]. apply Rlt_le, Rinv_0_lt_compat. lra.
  - apply Rmult_le_pos; [by apply H1|]. apply Rlt_le, Rinv_0_lt_compat. lra.
Qed.

(** The point [x] on the line through [a] and [b], within their bounding box, is on the segment. *)
Lemma segment_test a b x : orient2d a b x = 0 -> collides_1d (co a 0) (co b 0) (co x 0) = true -> collides_1d (co a 1) (co b 1) (co x 1) = true ->
  Hull 2 [a; b] x.
Proof.
  rewrite !collides_true. unfold orient2d. intros Ho H0 H1. apply hull2.
  set (a0 := co a 0) in *. set (a1 := co a 1) in *. set (b0 := co b 0) in *. set (b1 := co b 1) in *. set (x0 := co x 0) in *. set (x1 := co x 1) in *.
  destruct (Req_dec a0 b0) as [E0|E0].
  - destruct (Req_dec a1 b1) as [E1|E1].
    + exists 1, 0. split; [lra|]. split; [lra|]. split; [lra|]. apply lt2. fold a0 a1 b0 b1 x0 x1. lra.
    + exists ((b1 - x1) / (b1 - a1)), ((x1 - a1) / (b1 - a1)). split; [apply div_sign; lra|]. split; [apply div_sign; lra|]. split; [field; lra|].
      apply lt2. fold a0 a1 b0 b1 x0 x1. split; [|field; lra]. assert (x0 = a0) by lra. assert (b0 = a0) by lra. replace b0 with a0. replace x0 with a0. field. lra.
  - exists ((b0 - x0) / (b0 - a0)), ((x0 - a0) / (b0 - a0)). split; [apply div_sign; lra|]. split; [apply div_sign; lra|]. split; [field; lra|].
    apply lt2. fold a0 a1 b0 b1 x0 x1. split; [field; lra|]. apply (Rmult_eq_reg_r (b0 - a0)); [|lra].
    replace (((b0 - x0) / (b0 - a0) * a1 + (x0 - a0) / (b0 - a0) * b1) * (b0 - a0)) with ((b0 - x0) * a1 + (x0 - a0) * b1) by (field; lra). lra.
Qed.
Lemma segment_test_conv a b x : Hull 2 [a; b] x ->
  zero (orient2d a b x) && collides_1d (co a 0) (co b 0) (co x 0) && collides_1d (co a 1) (co b 1) (co x 1) = true.
Proof.
  intros H. apply hull2 in H as (s & t & Hs & Ht & H1 & Hc). apply lt2 in Hc as [C0 C1].
  rewrite !andb_true_iff, zero_true, !collides_true. unfold orient2d. rewrite C0, C1. replace s with (1 - t) by lra.
  split; [split|].
  - ring.
  - destruct (Rle_dec (co a 0) (co b 0)); [left|right]; split; nra.
  - destruct (Rle_dec (co a 1) (co b 1)); [left|right]; split; nra.
Qed.
Lemma line_param p0 p1 p2 : orient2d p0 p1 p2 = 0 ->
  (forall i, (i < 2)%nat -> co p0 i = co p1 i) \/ exists m, forall i, (i < 2)%nat -> co p2 i = (1 - m) * co p0 i + m * co p1 i.
Proof.
  unfold orient2d. intros H. destruct (Req_dec (co p0 0) (co p1 0)) as [E0|E0].
  - destruct (Req_dec (co p0 1) (co p1 1)) as [E1|E1]; [left; by apply lt2|]. right.
    exists ((co p2 1 - co p0 1) / (co p1 1 - co p0 1)). apply lt2. split; [|field; lra].
    rewrite E0 in H. rewrite E0. assert (Hx : (co p1 0 - co p2 0) * (co p1 1 - co p0 1) = 0) by lra.
    apply Rmult_integral in Hx as [Hx|Hx]; [|lra]. replace (co p2 0) with (co p1 0) by lra. field. lra.
  - right. exists ((co p2 0 - co p0 0) / (co p1 0 - co p0 0)). apply lt2. split; [field; lra|].
    apply (Rmult_eq_reg_r (co p1 0 - co p0 0)); [|lra].
    replace (((1 - (co p2 0 - co p0 0) / (co p1 0 - co p0 0)) * co p0 1 + (co p2 0 - co p0 0) / (co p1 0 - co p0 0) * co p1 1) * (co p1 0 - co p0 0))
      with ((co p1 0 - co p2 0) * co p0 1 + (co p2 0 - co p0 0) * co p1 1) by (field; lra). lra.
Qed.
(** Of three points on a line, one is between the others. *)
Lemma middle p0 p1 p2 : orient2d p0 p1 p2 = 0 -> Hull 2 [p0; p1] p2 \/ Hull 2 [p1; p2] p0 \/ Hull 2 [p2; p0] p1.
Proof.
  intros H. destruct (line_param p0 p1 p2 H) as [He|[m Hm]].
  - right. left. apply hull2. exists 1, 0. split; [lra|]. split; [lra|]. split; [lra|]. intros i Hi. rewrite (He i Hi). ring.
  - destruct (Rlt_dec m 0) as [Hn|Hn]; [|destruct (Rle_dec m 1) as [Hl|Hl]].
    + right. left. apply hull2. exists (- m / (1 - m)), (1 / (1 - m)). split; [apply div_sign; lra|]. split; [apply div_sign; lra|]. split; [field; lra|].
      intros i Hi. rewrite (Hm i Hi). field. lra.
    + left. apply hull2. exists (1 - m), m. split; [lra|]. split; [lra|]. split; [lra|]. exact Hm.
    + right. right. apply hull2. exists (1 / m), ((m - 1) / m). split; [apply div_sign; lra|]. split; [apply div_sign; lra|]. split; [field; lra|].
      intros i Hi. rewrite (Hm i Hi). field. lra.
Qed.
Lemma hull_drop g a b c x : Hull g [a; b; c] x -> Hull g [a; b] c -> Hull g [a; b] x.
Proof.
  intros H1 H2. apply hull3 in H1 as (s & t & u & Hs & Ht & Hu & H1 & Hc). apply hull2 in H2 as (m & n & Hm & Hn & H2 & Hd).
  apply hull2. exists (s + u * m), (t + u * n). split; [nra|]. split; [nra|]. split; [nra|]. intros i Hi. rewrite (Hc i Hi), (Hd i Hi). ring.
Qed.
Lemma hull_more g a b c x : Hull g [a; b] x -> Hull g [a; b; c] x.
Proof.
  intros H. apply hull2 in H as (s & t & Hs & Ht & H1 & Hc). apply hull3. exists s, t, 0. split; [done|]. split; [done|]. split; [lra|]. split; [lra|].
  intros i Hi. rewrite (Hc i Hi). ring.
Qed.
Lemma inside_2d_ok p0 p1 p2 x : inside_2d p0 p1 p2 x = true <-> Hull 2 [p0; p1; p2] x.
Proof.
  unfold inside_2d, inside_2d_by. destruct (Rtotal_order (orient2d p0 p1 p2) 0) as [Hr|[Hr|Hr]].
  - replace (Rltb 0 _) with false by (symmetry; apply Rltb_false; lra). replace (Rltb _ 0) with true by (symmetry; by apply Rltb_true).
    rewrite !andb_true_iff, !nonpos_true, hull3. split.
    + intros [[H1 H2] H3]. destruct (cramer2d p0 p1 p2 x ltac:(lra)) as [C1 C2]. do 3 eexists. split; [|split; [|split; [|split; [exact C1|exact C2]]]];
        (apply div_sign; lra).
    + intros (s & t & u & Hs & Ht & Hu & H1 & Hc). destruct (orient2d_hull p0 p1 p2 x s t u H1 Hc) as (-> & -> & ->). split; [split|]; nra.
  - replace (Rltb 0 _) with false by (symmetry; apply Rltb_false; lra). replace (Rltb _ 0) with false by (symmetry; apply Rltb_false; lra).
    assert (P1 : [p1; p2; p0] ≡ₚ [p0; p1; p2]) by (rewrite (Permutation_cons_append [p1; p2] p0); done).
    assert (P2 : [p2; p0; p1] ≡ₚ [p0; p1; p2]) by (by rewrite (Permutation_cons_append [p0; p1] p2)).
    rewrite !orb_true_iff. split.
    + intros [[H|H]|H]; rewrite !andb_true_iff, zero_true in H; destruct H as [[H1 H2] H3]; pose proof (segment_test _ _ _ H1 H2 H3) as Hh.
      * by apply hull_more.
      * apply (hull_perm _ _ _ _ P1). by apply hull_more.
      * apply (hull_perm _ _ _ _ P2). by apply hull_more.
    + intros H. destruct (middle p0 p1 p2 Hr) as [Hm|[Hm|Hm]].
      * left. left. apply segment_test_conv. by apply (hull_drop _ _ _ p2).
      * left. right. apply segment_test_conv. apply (hull_drop _ _ _ p0); [|done]. by apply (hull_perm _ _ _ _ (symmetry P1)).
      * right. apply segment_test_conv. apply (hull_drop _ _ _ p1); [|done]. by apply (hull_perm _ _ _ _ (symmetry P2)).
  - replace (Rltb 0 _) with true by (symmetry; by apply Rltb_true).
    rewrite !andb_true_iff, !nonneg_true, hull3. split.
    + intros [[H1 H2] H3]. destruct (cramer2d p0 p1 p2 x ltac:(lra)) as [C1 C2]. do 3 eexists. split; [|split; [|split; [|split; [exact C1|exact C2]]]];
        (apply div_sign; lra).
    + intros (s & t & u & Hs & Ht & Hu & H1 & Hc). destruct (orient2d_hull p0 p1 p2 x s t u H1 Hc) as (-> & -> & ->). split; [split|]; nra.
Qed.

(** ** Three dimensions *)
Lemma orient3d_hull p0 p1 p2 p3 x s t u v : s + t + u + v = 1 ->
  (forall i, (i < 3)%nat -> co x i = s * co p0 i + t * co p1 i + u * co p2 i + v * co p3 i) ->
  orient3d p1 p3 p2 x = s * orient3d p0 p1 p2 p3 /\ orient3d p0 p2 p3 x = t * orient3d p0 p1 p2 p3 /\
  orient3d p0 p3 p1 x = u * orient3d p0 p1 p2 p3 /\ orient3d p0 p1 p2 x = v * orient3d p0 p1 p2 p3.
Proof.
  intros H1 Hc. unfold orient3d. rewrite (Hc 0%nat), (Hc 1%nat), (Hc 2%nat) by lia. replace v with (1 - s - t - u) by lra. repeat split; ring.
Qed.
Lemma cramer3d p0 p1 p2 p3 x : orient3d p0 p1 p2 p3 <> 0 ->
  let r := orient3d p0 p1 p2 p3 in
  orient3d p1 p3 p2 x / r + orient3d p0 p2 p3 x / r + orient3d p0 p3 p1 x / r + orient3d p0 p1 p2 x / r = 1 /\
  forall i, (i < 3)%nat -> co x i = orient3d p1 p3 p2 x / r * co p0 i + orient3d p0 p2 p3 x / r * co p1 i + orient3d p0 p3 p1 x / r * co p2 i +
    orient3d p0 p1 p2 x / r * co p3 i.
Proof.
  intros Hr r. split.
  - replace 1 with (r / r) by (field; exact Hr). unfold Rdiv. rewrite <- !Rmult_plus_distr_r. f_equal. unfold r, orient3d. ring.
  - intros i Hi. apply (Rmult_eq_reg_r r); [|exact Hr].
    replace ((orient3d p1 p3 p2 x / r * co p0 i + orient3d p0 p2 p3 x / r * co p1 i + orient3d p0 p3 p1 x / r * co p2 i + orient3d p0 p1 p2 x / r * co p3 i) * r)
      with (orient3d p1 p3 p2 x * co p0 i + orient3d p0 p2 p3 x * co p1 i + orient3d p0 p3 p1 x * co p2 i + orient3d p0 p1 p2 x * co p3 i) by (field; exact Hr).
    unfold r, orient3d. destruct i as [|[|[|i]]]; [ring|ring|ring|lia].
Qed.
Lemma inside_3d_ok p0 p1 p2 p3 x : orient3d p0 p1 p2 p3 <> 0 -> exists b, inside_3d p0 p1 p2 p3 x = Ok b /\ (b = true <-> Hull 3 [p0; p1; p2; p3] x).
Proof.
  intros Hr0. unfold inside_3d, inside_3d_by. destruct (Rtotal_order (orient3d p0 p1 p2 p3) 0) as [Hr|[Hr|Hr]]; [|done|].
  - replace (Rltb 0 _) with false by (symmetry; apply Rltb_false; lra). replace (Rltb _ 0) with true by (symmetry; by apply Rltb_true).
    eexists. split; [reflexivity|]. rewrite !andb_true_iff, !nonpos_true, hull4. split.
    + intros [[[H1 H2] H3] H4]. destruct (cramer3d p0 p1 p2 p3 x Hr0) as [C1 C2]. do 4 eexists. split; [|split; [|split; [|split; [|split; [exact C1|exact C2]]]]];
        (apply div_sign; lra).
    + intros (s & t & u & v & Hs & Ht & Hu & Hv & H1 & Hc). destruct (orient3d_hull p0 p1 p2 p3 x s t u v H1 Hc) as (-> & -> & -> & ->). repeat split; nra.
  - replace (Rltb 0 _) with true by (symmetry; by apply Rltb_true).
    eexists. split; [reflexivity|]. rewrite !andb_true_iff, !nonneg_true, hull4. split.
    + intros [[[H1 H2] H3] H4]. destruct (cramer3d p0 p1 p2 p3 x Hr0) as [C1 C2]. do 4 eexists. split; [|split; [|split; [|split; [|split; [exact C1|exact C2]]]]];
        (apply div_sign; lra).
    + intros (s & t & u & v & Hs & Ht & Hu & Hv & H1 & Hc). destruct (orient3d_hull p0 p1 p2 p3 x s t u v H1 Hc) as (-> & -> & -> & ->). repeat split; nra.
Qed.

(** ** The test on a mesh *)

(** The vertex with number [v] in the flat array of coordinates. *)
Definition mesh_vertex (g : nat) (coords : list R) (v : nat) : vec := take g (drop (v * g) coords).
Lemma vertex_ok coords g vs i v : vs !! i = Some v -> ((v + 1) * g <= length coords)%nat -> vertex coords g vs i = Ok (mesh_vertex g coords v).
Proof. intros H1 H2. unfold vertex, vertex_no. rewrite H1. unfold vertex_at. by replace (_ <? _)%nat with false by lia. Qed.

(** C37: for every mesh of intervals, triangles or tetrahedra in its own dimension, every cell and every point, the test answers true exactly
    for the points of the convex hull of the cell's vertices, degenerate intervals and triangles included; a degenerate tetrahedron is a runtime error. *)
Theorem C37_inside g coords vs x : (1 <= g <= 3)%nat -> length vs = S g -> (forall v, v ∈ vs -> ((v + 1) * g <= length coords)%nat) ->
  let ps := map (mesh_vertex g coords) vs in
  match g, ps with
  | 3%nat, [p0; p1; p2; p3] => orient3d p0 p1 p2 p3 = 0 /\ is_inside_vertices g g coords vs x = Raise RuntimeError
  | _, _ => False
  end \/
  exists b, is_inside_vertices g g coords vs x = Ok b /\ (b = true <-> Hull g ps x).
Proof.
  intros Hg Hl Hv ps.
  assert (Hvx : forall i v, vs !! i = Some v -> vertex coords g vs i = Ok (mesh_vertex g coords v)).
  { intros i v Hi. apply vertex_ok; [done|]. apply Hv. by eapply elem_of_list_lookup_2. }
  destruct g as [|[|[|[|g]]]]; [lia| | | |lia].
  - right. destruct vs as [|a [|b [|? ?]]]; try discriminate. unfold is_inside_vertices; cbn [is_inside_by]. rewrite (Hvx 0%nat a), (Hvx 1%nat b) by reflexivity.
    eexists. split; [reflexivity|]. apply inside_1d_ok.
  - right. destruct vs as [|a [|b [|c [|? ?]]]]; try discriminate. unfold is_inside_vertices; cbn [is_inside_by]. rewrite (Hvx 0%nat a), (Hvx 1%nat b), (Hvx 2%nat c) by reflexivity.
    eexists. split; [reflexivity|]. fold (inside_2d (mesh_vertex 2 coords a) (mesh_vertex 2 coords b) (mesh_vertex 2 coords c) x). apply inside_2d_ok.
  - destruct vs as [|a [|b [|c [|d [|? ?]]]]]; try discriminate. unfold is_inside_vertices; cbn [is_inside_by]. rewrite (Hvx 0%nat a), (Hvx 1%nat b), (Hvx 2%nat c), (Hvx 3%nat d) by reflexivity.
    unfold ps. cbn [map]. destruct (Req_dec (orient3d (mesh_vertex 3 coords a) (mesh_vertex 3 coords b) (mesh_vertex 3 coords c) (mesh_vertex 3 coords d)) 0) as [E|E].
    + left. split; [exact E|]. unfold inside_3d, inside_3d_by. rewrite E. replace (Rltb 0 0) with false by (symmetry; apply Rltb_false; lra). reflexivity.
    + right. apply inside_3d_ok, E.
Qed.

(** The order in which the cell lists its vertices does not matter. *)
Theorem C37_order g coords vs ws x b c : (1 <= g <= 3)%nat -> length vs = S g -> (forall v, v ∈ vs -> ((v + 1) * g <= length coords)%nat) ->
  vs ≡ₚ ws -> is_inside_vertices g g coords vs x = Ok b -> is_inside_vertices g g coords ws x = Ok c -> b = c.
Proof.
  intros Hg Hl Hv HP E1 E2.
  assert (Hl' : length ws = S g) by (by rewrite <- HP). assert (Hv' : forall v, v ∈ ws -> ((v + 1) * g <= length coords)%nat) by (intros v H; apply Hv; by rewrite HP).
  assert (R : forall us e, length us = S g -> (forall v, v ∈ us -> ((v + 1) * g <= length coords)%nat) -> is_inside_vertices g g coords us x = Ok e ->
    (e = true <-> Hull g (map (mesh_vertex g coords) us) x)).
  { intros us e H1 H2 H3. destruct (C37_inside g coords us x Hg H1 H2) as [H|(e' & H4 & H5)].
    - exfalso. destruct g as [|[|[|[|g]]]]; try done. destruct (map _ us) as [|? [|? [|? [|? [|? ?]]]]]; try done. destruct H as [_ H]. rewrite H3 in H. discriminate.
    - rewrite H3 in H4. by injection H4 as ->. }
  apply eq_true_iff_eq. rewrite (R vs b Hl Hv E1), (R ws c Hl' Hv' E2).
  assert (HPm : map (mesh_vertex g coords) vs ≡ₚ map (mesh_vertex g coords) ws) by (by apply (fmap_Permutation (mesh_vertex g coords))).
  split; [by apply hull_perm|]. by apply hull_perm.
Qed.

(** A mesh whose cells have another dimension than the space: no point is inside any cell. *)
Theorem C37_other_dimensions tdim gdim coords vs x : (tdim <> gdim \/ tdim = 0 \/ 3 < tdim)%nat -> is_inside_vertices tdim gdim coords vs x = Ok false.
Proof. intros H. destruct tdim as [|[|[|[|t]]]], gdim as [|[|[|[|g]]]]; try reflexivity; lia. Qed.

(** ** Cells given by their outward normals *)
Lemma dot1 a x : dot [a] [x] = a * x.
Proof. cbn. ring. Qed.
Lemma dot2 a b x y : dot [a; b] [x; y] = a * x + b * y.
Proof. cbn. ring. Qed.
Lemma dot3 a b c x y z : dot [a; b; c] [x; y; z] = a * x + b * y + c * z.
Proof. cbn. ring. Qed.
Lemma len1 (v : vec) : length v = 1%nat -> exists a, v = [a].
Proof. destruct v as [|a [|? ?]]; try discriminate. by exists a. Qed.
Lemma len2 (v : vec) : length v = 2%nat -> exists a b, v = [a; b].
Proof. destruct v as [|a [|b [|? ?]]]; try discriminate. by exists a, b. Qed.
Lemma len3 (v : vec) : length v = 3%nat -> exists a b c, v = [a; b; c].
Proof. destruct v as [|a [|b [|c [|? ?]]]]; try discriminate. by exists a, b, c. Qed.

Lemma weight_sign s h k : k < h -> s * k + (1 - s) * h <= h -> 0 <= s.
Proof. intros H1 H2. destruct (Rle_dec 0 s) as [H|H]; [exact H|]. exfalso. nra. Qed.

(** The hull is in the half-space of each facet. *)
Lemma hull_dot d ps x n h : length n = d -> (1 <= d <= 3)%nat -> length x = d -> Forall (fun p => length p = d) ps -> Forall (fun p => dot n p <= h) ps ->
  Hull d ps x -> dot n x <= h.
Proof.
  intros Hn Hd Hx Hps Hh (ws & Hl & Hw & Ht & Hc).
  assert (E : dot n x = tot (zip_with (fun w p => w * dot n p) ws ps)).
  { destruct d as [|[|[|[|d]]]]; [lia| | | |lia].
    - destruct (len1 n Hn) as (a & ->). destruct (len1 x Hx) as (y & ->). specialize (Hc 0%nat ltac:(lia)). cbn [co nth] in Hc. rewrite dot1, Hc. clear Hc Ht Hw Hh.
      revert ws Hl. induction Hps as [|p ps Hp Hps IH]; intros [|w ws] Hl; try discriminate; unfold tot; cbn [zip_with fold_right]; [ring|].
      destruct (len1 p Hp) as (b & ->). unfold tot in IH. injection Hl as Hl. rewrite <- (IH ws Hl), dot1. unfold co. cbn [nth]. ring.
    - destruct (len2 n Hn) as (a & b & ->). destruct (len2 x Hx) as (y & z & ->). pose proof (Hc 0%nat ltac:(lia)) as C0. pose proof (Hc 1%nat ltac:(lia)) as C1.
      unfold co in C0, C1. cbn [nth] in C0, C1. rewrite dot2, C0, C1. clear Hc Ht Hw Hh C0 C1.
      revert ws Hl. induction Hps as [|p ps Hp Hps IH]; intros [|w ws] Hl; try discriminate; unfold tot; cbn [zip_with fold_right]; [ring|].
      destruct (len2 p Hp) as (e & f & ->). unfold tot in IH. injection Hl as Hl. rewrite <- (IH ws Hl), dot2. cbn [nth]. ring.
    - destruct (len3 n Hn) as (a & b & c & ->). destruct (len3 x Hx) as (y & z & u & ->).
      pose proof (Hc 0%nat ltac:(lia)) as C0. pose proof (Hc 1%nat ltac:(lia)) as C1. pose proof (Hc 2%nat ltac:(lia)) as C2.
      unfold co in C0, C1, C2. cbn [nth] in C0, C1, C2. rewrite dot3, C0, C1, C2. clear Hc Ht Hw Hh C0 C1 C2.
      revert ws Hl. induction Hps as [|p ps Hp Hps IH]; intros [|w ws] Hl; try discriminate; unfold tot; cbn [zip_with fold_right]; [ring|].
      destruct (len3 p Hp) as (e & f & g & ->). unfold tot in IH. injection Hl as Hl. rewrite <- (IH ws Hl), dot3. cbn [nth]. ring. }
  rewrite E. clear E Hc Hx Hps Hn x. enough (G : tot (zip_with (fun w p => w * dot n p) ws ps) <= tot ws * h) by (rewrite Ht in G; lra). clear Ht.
  revert ws Hl Hw. induction Hh as [|p ps Hp Hh IH]; intros [|w ws] Hl Hw; try discriminate; unfold tot; cbn [zip_with fold_right]; [lra|].
  inversion_clear Hw as [|?? Hw0 Hw1]. injection Hl as Hl. specialize (IH ws Hl Hw1). unfold tot in IH. nra.
Qed.

Lemma hull_in_cell d c x : Simplex d c -> length x = d -> Hull d (verts c) x -> InCell d c x.
Proof.
  intros HS Hx HH i n j v Hi Hj Hon. apply (hull_dot d (verts c) x n (dot n v)); try done.
  - apply (Forall_lookup_1 _ _ _ _ (sx_ln _ _ HS) Hi).
  - apply HS.
  - apply HS.
  - apply list.Forall_lookup_2. intros k w Hk.
    assert (Dec : on_facet d i k \/ ~ on_facet d i k) by (unfold on_facet; destruct (d =? 1)%nat; lia).
    destruct Dec as [D|D]; [right; by eapply (sx_flat _ _ HS)|left; by eapply (sx_out _ _ HS)].
Qed.
Lemma out_at d c i n j v k w : Simplex d c -> normals c !! i = Some n -> verts c !! j = Some v -> verts c !! k = Some w ->
  on_facet d i j -> ~ on_facet d i k -> dot n w < dot n v.
Proof. intros HS. apply (sx_out _ _ HS). Qed.

(** The vertices of a simplex are not in one plane. *)
Lemma simplex_2d c p0 p1 p2 : Simplex 2 c -> verts c = [p0; p1; p2] -> orient2d p0 p1 p2 <> 0.
Proof.
  intros HS Hv. pose proof (sx_lv _ _ HS) as Lv. pose proof (sx_nn _ _ HS) as Hn. pose proof (sx_ln _ _ HS) as Ln. rewrite Hv in Lv.
  inversion_clear Lv as [|?? L0 Lv']. inversion_clear Lv' as [|?? L1 Lv]. inversion_clear Lv as [|?? L2 _].
  destruct (normals c) as [|m0 [|m1 [|m2 [|? ?]]]] eqn:En; try discriminate.
  inversion_clear Ln as [|?? M0 Ln']. inversion_clear Ln' as [|?? M1 Ln]. inversion_clear Ln as [|?? M2 _].
  assert (F : forall i n j v k w, [m0; m1; m2] !! i = Some n -> [p0; p1; p2] !! j = Some v -> [p0; p1; p2] !! k = Some w -> j <> i -> k <> i -> dot n v = dot n w).
  { intros i n j v k w A1 A2 A3 A4 A5. rewrite <- En in A1. rewrite <- Hv in A2, A3. by apply (sx_flat _ _ HS i n j v k w). }
  assert (O : forall i n j v w, [m0; m1; m2] !! i = Some n -> [p0; p1; p2] !! j = Some v -> [p0; p1; p2] !! i = Some w -> j <> i -> dot n w < dot n v).
  { intros i n j v w A1 A2 A3 A4. rewrite <- En in A1. rewrite <- Hv in A2, A3. apply (sx_out _ _ HS i n j v i w); try done. intros H. by apply H. }
  pose proof (O 1%nat m1 0%nat p0 p1 eq_refl eq_refl eq_refl ltac:(lia)) as O1. pose proof (O 2%nat m2 0%nat p0 p2 eq_refl eq_refl eq_refl ltac:(lia)) as O2.
  pose proof (F 1%nat m1 0%nat p0 2%nat p2 eq_refl eq_refl eq_refl ltac:(lia) ltac:(lia)) as F1.
  pose proof (F 2%nat m2 0%nat p0 1%nat p1 eq_refl eq_refl eq_refl ltac:(lia) ltac:(lia)) as F2.
  clear F O HS Hv En Hn. destruct (len2 p0 L0) as (a0 & a1 & ->). destruct (len2 p1 L1) as (b0 & b1 & ->). destruct (len2 p2 L2) as (c0 & c1 & ->).
  destruct (len2 m1 M1) as (n0 & n1 & ->). destruct (len2 m2 M2) as (k0 & k1 & ->). rewrite !dot2 in *.
  unfold orient2d, co. cbn [nth]. intros E.
  assert (I : (n0 * k1 - n1 * k0) * ((a0 - c0) * (b1 - c1) - (a1 - c1) * (b0 - c0)) =
    (n0 * (b0 - a0) + n1 * (b1 - a1)) * (k0 * (c0 - a0) + k1 * (c1 - a1)) - (n0 * (c0 - a0) + n1 * (c1 - a1)) * (k0 * (b0 - a0) + k1 * (b1 - a1))) by ring.
  rewrite E, Rmult_0_r in I. replace (n0 * (c0 - a0) + n1 * (c1 - a1)) with 0 in I by lra.
  assert (J1 : n0 * (b0 - a0) + n1 * (b1 - a1) < 0) by lra. assert (J2 : k0 * (c0 - a0) + k1 * (c1 - a1) < 0) by lra.
  rewrite Rmult_0_l, Rminus_0_r in I. symmetry in I. apply Rmult_integral in I as [I|I]; lra.
Qed.
Lemma simplex_3d c p0 p1 p2 p3 : Simplex 3 c -> verts c = [p0; p1; p2; p3] -> orient3d p0 p1 p2 p3 <> 0.
Proof.
  intros HS Hv. pose proof (sx_lv _ _ HS) as Lv. pose proof (sx_nn _ _ HS) as Hn. pose proof (sx_ln _ _ HS) as Ln. rewrite Hv in Lv.
  inversion_clear Lv as [|?? L0 Lv']. inversion_clear Lv' as [|?? L1 Lv]. inversion_clear Lv as [|?? L2 Lv']. inversion_clear Lv' as [|?? L3 _].
  destruct (normals c) as [|m0 [|m1 [|m2 [|m3 [|? ?]]]]] eqn:En; try discriminate.
  inversion_clear Ln as [|?? M0 Ln']. inversion_clear Ln' as [|?? M1 Ln]. inversion_clear Ln as [|?? M2 Ln']. inversion_clear Ln' as [|?? M3 _].
  assert (F : forall i n j v k w, [m0; m1; m2; m3] !! i = Some n -> [p0; p1; p2; p3] !! j = Some v -> [p0; p1; p2; p3] !! k = Some w -> j <> i -> k <> i -> dot n v = dot n w).
  { intros i n j v k w A1 A2 A3 A4 A5. rewrite <- En in A1. rewrite <- Hv in A2, A3. by apply (sx_flat _ _ HS i n j v k w). }
  assert (O : forall i n j v w, [m0; m1; m2; m3] !! i = Some n -> [p0; p1; p2; p3] !! j = Some v -> [p0; p1; p2; p3] !! i = Some w -> j <> i -> dot n w < dot n v).
  { intros i n j v w A1 A2 A3 A4. rewrite <- En in A1. rewrite <- Hv in A2, A3. apply (sx_out _ _ HS i n j v i w); try done. intros H. by apply H. }
  pose proof (O 1%nat m1 0%nat p0 p1 eq_refl eq_refl eq_refl ltac:(lia)) as O1. pose proof (O 2%nat m2 0%nat p0 p2 eq_refl eq_refl eq_refl ltac:(lia)) as O2.
  pose proof (O 3%nat m3 0%nat p0 p3 eq_refl eq_refl eq_refl ltac:(lia)) as O3.
  pose proof (F 1%nat m1 0%nat p0 2%nat p2 eq_refl eq_refl eq_refl ltac:(lia) ltac:(lia)) as F12. pose proof (F 1%nat m1 0%nat p0 3%nat p3 eq_refl eq_refl eq_refl ltac:(lia) ltac:(lia)) as F13.
  pose proof (F 2%nat m2 0%nat p0 1%nat p1 eq_refl eq_refl eq_refl ltac:(lia) ltac:(lia)) as F21. pose proof (F 2%nat m2 0%nat p0 3%nat p3 eq_refl eq_refl eq_refl ltac:(lia) ltac:(lia)) as F23.
  pose proof (F 3%nat m3 0%nat p0 1%nat p1 eq_refl eq_refl eq_refl ltac:(lia) ltac:(lia)) as F31. pose proof (F 3%nat m3 0%nat p0 2%nat p2 eq_refl eq_refl eq_refl ltac:(lia) ltac:(lia)) as F32.
  clear F O HS Hv En Hn. destruct (len3 p0 L0) as (a0 & a1 & a2 & ->). destruct (len3 p1 L1) as (b0 & b1 & b2 & ->). destruct (len3 p2 L2) as (c0 & c1 & c2 & ->).
  destruct (len3 p3 L3) as (d0 & d1 & d2 & ->).
  destruct (len3 m1 M1) as (n0 & n1 & n2 & ->). destruct (len3 m2 M2) as (k0 & k1 & k2 & ->). destruct (len3 m3 M3) as (l0 & l1 & l2 & ->). rewrite !dot3 in *.
  intros E.
  set (e11 := n0 * (b0 - a0) + n1 * (b1 - a1) + n2 * (b2 - a2)). set (e12 := n0 * (c0 - a0) + n1 * (c1 - a1) + n2 * (c2 - a2)).
  set (e13 := n0 * (d0 - a0) + n1 * (d1 - a1) + n2 * (d2 - a2)).
  set (e21 := k0 * (b0 - a0) + k1 * (b1 - a1) + k2 * (b2 - a2)). set (e22 := k0 * (c0 - a0) + k1 * (c1 - a1) + k2 * (c2 - a2)).
  set (e23 := k0 * (d0 - a0) + k1 * (d1 - a1) + k2 * (d2 - a2)).
  set (e31 := l0 * (b0 - a0) + l1 * (b1 - a1) + l2 * (b2 - a2)). set (e32 := l0 * (c0 - a0) + l1 * (c1 - a1) + l2 * (c2 - a2)).
  set (e33 := l0 * (d0 - a0) + l1 * (d1 - a1) + l2 * (d2 - a2)).
  assert (I : (n0 * (k1 * l2 - k2 * l1) - n1 * (k0 * l2 - k2 * l0) + n2 * (k0 * l1 - k1 * l0)) * orient3d [a0; a1; a2] [b0; b1; b2] [c0; c1; c2] [d0; d1; d2] =
    - (e11 * (e22 * e33 - e23 * e32) - e12 * (e21 * e33 - e23 * e31) + e13 * (e21 * e32 - e22 * e31))).
  { unfold orient3d, co, e11, e12, e13, e21, e22, e23, e31, e32, e33. cbn [nth]. ring. }
  assert (e12 = 0 /\ e13 = 0 /\ e21 = 0 /\ e23 = 0 /\ e31 = 0 /\ e32 = 0) as (-> & -> & -> & -> & -> & ->) by (unfold e12, e13, e21, e23, e31, e32; lra).
  assert (J1 : e11 < 0) by (unfold e11; lra). assert (J2 : e22 < 0) by (unfold e22; lra). assert (J3 : e33 < 0) by (unfold e33; lra).
  rewrite E, Rmult_0_r in I. clearbody e11 e22 e33. clear - I J1 J2 J3. assert (I' : e11 * (e22 * e33) = 0) by lra.
  apply Rmult_integral in I' as [H|H]; [lra|]. apply Rmult_integral in H as [H|H]; lra.
Qed.

(** The weights of the points of a cell are not negative. *)
Lemma in_cell_hull d c x : Simplex d c -> length x = d -> InCell d c x -> Hull d (verts c) x.
Proof.
  intros HS Hx HI. pose proof (sx_dim _ _ HS) as Hd. pose proof (sx_nv _ _ HS) as Hv. pose proof (sx_nn _ _ HS) as Hn. pose proof (sx_lv _ _ HS) as Lv.
  pose proof (sx_ln _ _ HS) as Ln. pose proof (sx_flat _ _ HS) as Fl. pose proof (sx_out _ _ HS) as Ou. unfold InCell in HI.
  destruct d as [|[|[|[|d]]]]; [lia| | | |lia].
  - destruct (verts c) as [|p0 [|p1 [|? ?]]]; try discriminate. destruct (normals c) as [|m0 [|m1 [|? ?]]]; try discriminate.
    inversion_clear Lv as [|?? L0 Lv']. inversion_clear Lv' as [|?? L1 _]. inversion_clear Ln as [|?? M0 Ln']. inversion_clear Ln' as [|?? M1 _].
    pose proof (HI 0%nat m0 0%nat p0 eq_refl eq_refl eq_refl) as I0. pose proof (HI 1%nat m1 1%nat p1 eq_refl eq_refl eq_refl) as I1.
    pose proof (Ou 0%nat m0 0%nat p0 1%nat p1 eq_refl eq_refl eq_refl eq_refl ltac:(discriminate)) as O0.
    pose proof (Ou 1%nat m1 1%nat p1 0%nat p0 eq_refl eq_refl eq_refl eq_refl ltac:(discriminate)) as O1.
    apply inside_1d_ok. apply collides_true.
    destruct (len1 p0 L0) as (a & ->). destruct (len1 p1 L1) as (b & ->). destruct (len1 m0 M0) as (m & ->). destruct (len1 m1 M1) as (n & ->). destruct (len1 x Hx) as (y & ->).
    rewrite !dot1 in *. unfold co. cbn [nth]. clear - I0 I1 O0 O1. destruct (Rtotal_order a b) as [H|[H|H]]; [left|subst; lra|right]; split; nra.
  - destruct (verts c) as [|p0 [|p1 [|p2 [|? ?]]]] eqn:Ev; try discriminate. destruct (normals c) as [|m0 [|m1 [|m2 [|? ?]]]]; try discriminate.
    pose proof (cramer2d p0 p1 p2 x (simplex_2d c p0 p1 p2 HS Ev)) as [C1 C2]. cbv zeta in C1, C2. revert C1 C2.
    generalize (orient2d p1 p2 x / orient2d p0 p1 p2) (orient2d p2 p0 x / orient2d p0 p1 p2) (orient2d p0 p1 x / orient2d p0 p1 p2). intros s t u C1 C2.
    apply hull3. exists s, t, u.
    inversion_clear Lv as [|?? L0 Lv']. inversion_clear Lv' as [|?? L1 Lv]. inversion_clear Lv as [|?? L2 _].
    inversion_clear Ln as [|?? M0 Ln']. inversion_clear Ln' as [|?? M1 Ln]. inversion_clear Ln as [|?? M2 _].
    assert (D : forall n, length n = 2%nat -> dot n x = s * dot n p0 + t * dot n p1 + u * dot n p2).
    { intros n Ln. pose proof (C2 0%nat ltac:(lia)) as E0. pose proof (C2 1%nat ltac:(lia)) as E1. clear - L0 L1 L2 Hx Ln E0 E1.
      destruct (len2 p0 L0) as (a0 & a1 & ->). destruct (len2 p1 L1) as (b0 & b1 & ->). destruct (len2 p2 L2) as (c0 & c1 & ->). destruct (len2 n Ln) as (n0 & n1 & ->).
      destruct (len2 x Hx) as (x0 & x1 & ->). unfold co in E0, E1. cbn [nth] in E0, E1. rewrite !dot2, E0, E1. ring. }
    pose proof (HI 0%nat m0 1%nat p1 eq_refl eq_refl ltac:(discriminate)) as I0. pose proof (Ou 0%nat m0 1%nat p1 0%nat p0 eq_refl eq_refl eq_refl ltac:(discriminate) ltac:(intros H; by apply H)) as O0.
    pose proof (Fl 0%nat m0 1%nat p1 2%nat p2 eq_refl eq_refl eq_refl ltac:(discriminate) ltac:(discriminate)) as F0.
    pose proof (HI 1%nat m1 0%nat p0 eq_refl eq_refl ltac:(discriminate)) as I1. pose proof (Ou 1%nat m1 0%nat p0 1%nat p1 eq_refl eq_refl eq_refl ltac:(discriminate) ltac:(intros H; by apply H)) as O1.
    pose proof (Fl 1%nat m1 0%nat p0 2%nat p2 eq_refl eq_refl eq_refl ltac:(discriminate) ltac:(discriminate)) as F1.
    pose proof (HI 2%nat m2 0%nat p0 eq_refl eq_refl ltac:(discriminate)) as I2. pose proof (Ou 2%nat m2 0%nat p0 2%nat p2 eq_refl eq_refl eq_refl ltac:(discriminate) ltac:(intros H; by apply H)) as O2.
    pose proof (Fl 2%nat m2 0%nat p0 1%nat p1 eq_refl eq_refl eq_refl ltac:(discriminate) ltac:(discriminate)) as F2.
    rewrite (D m0 M0) in I0. rewrite (D m1 M1) in I1. rewrite (D m2 M2) in I2. clear - I0 I1 I2 O0 O1 O2 F0 F1 F2 C1 C2.
    split; [|split; [|split; [|split; [exact C1|exact C2]]]].
    + apply (weight_sign s (dot m0 p1) (dot m0 p0) O0). rewrite <- F0 in I0. replace ((1 - s) * dot m0 p1) with (t * dot m0 p1 + u * dot m0 p1); [lra|]. replace (1 - s) with (t + u) by lra. ring.
    + apply (weight_sign t (dot m1 p0) (dot m1 p1) O1). rewrite <- F1 in I1. replace ((1 - t) * dot m1 p0) with (s * dot m1 p0 + u * dot m1 p0); [lra|]. replace (1 - t) with (s + u) by lra. ring.
    + apply (weight_sign u (dot m2 p0) (dot m2 p2) O2). rewrite <- F2 in I2. replace ((1 - u) * dot m2 p0) with (s * dot m2 p0 + t * dot m2 p0); [lra|]. replace (1 - u) with (s + t) by lra. ring.
  - destruct (verts c) as [|p0 [|p1 [|p2 [|p3 [|? ?]]]]] eqn:Ev; try discriminate. destruct (normals c) as [|m0 [|m1 [|m2 [|m3 [|? ?]]]]]; try discriminate.
    pose proof (cramer3d p0 p1 p2 p3 x (simplex_3d c p0 p1 p2 p3 HS Ev)) as [C1 C2]. cbv zeta in C1, C2. revert C1 C2.
    generalize (orient3d p1 p3 p2 x / orient3d p0 p1 p2 p3) (orient3d p0 p2 p3 x / orient3d p0 p1 p2 p3) (orient3d p0 p3 p1 x / orient3d p0 p1 p2 p3) (orient3d p0 p1 p2 x / orient3d p0 p1 p2 p3).
    intros s t u v C1 C2. apply hull4. exists s, t, u, v.
    inversion_clear Lv as [|?? L0 Lv']. inversion_clear Lv' as [|?? L1 Lv]. inversion_clear Lv as [|?? L2 Lv']. inversion_clear Lv' as [|?? L3 _].
    inversion_clear Ln as [|?? M0 Ln']. inversion_clear Ln' as [|?? M1 Ln]. inversion_clear Ln as [|?? M2 Ln']. inversion_clear Ln' as [|?? M3 _].
    assert (D : forall n, length n = 3%nat -> dot n x = s * dot n p0 + t * dot n p1 + u * dot n p2 + v * dot n p3).
    { intros n Ln. pose proof (C2 0%nat ltac:(lia)) as E0. pose proof (C2 1%nat ltac:(lia)) as E1. pose proof (C2 2%nat ltac:(lia)) as E2. clear - L0 L1 L2 L3 Hx Ln E0 E1 E2.
      destruct (len3 p0 L0) as (a0 & a1 & a2 & ->). destruct (len3 p1 L1) as (b0 & b1 & b2 & ->). destruct (len3 p2 L2) as (c0 & c1 & c2 & ->). destruct (len3 p3 L3) as (d0 & d1 & d2 & ->).
      destruct (len3 n Ln) as (n0 & n1 & n2 & ->). destruct (len3 x Hx) as (x0 & x1 & x2 & ->). unfold co in E0, E1, E2. cbn [nth] in E0, E1, E2. rewrite !dot3, E0, E1, E2. ring. }
    assert (W : forall i n j w q, [m0; m1; m2; m3] !! i = Some n -> [p0; p1; p2; p3] !! j = Some w -> [p0; p1; p2; p3] !! i = Some q -> j <> i ->
      dot n x <= dot n w /\ dot n q < dot n w /\ forall k r, [p0; p1; p2; p3] !! k = Some r -> k <> i -> dot n r = dot n w).
    { intros i n j w q A1 A2 A3 A4. split; [by apply (HI i n j w)|]. split; [apply (Ou i n j w i q); try done; intros H; by apply H|].
      intros k r A5 A6. by apply (Fl i n k r j w). }
    destruct (W 0%nat m0 1%nat p1 p0 eq_refl eq_refl eq_refl ltac:(lia)) as (I0 & O0 & F0). pose proof (F0 2%nat p2 eq_refl ltac:(lia)) as F02. pose proof (F0 3%nat p3 eq_refl ltac:(lia)) as F03.
    destruct (W 1%nat m1 0%nat p0 p1 eq_refl eq_refl eq_refl ltac:(lia)) as (I1 & O1 & F1). pose proof (F1 2%nat p2 eq_refl ltac:(lia)) as F12. pose proof (F1 3%nat p3 eq_refl ltac:(lia)) as F13.
    destruct (W 2%nat m2 0%nat p0 p2 eq_refl eq_refl eq_refl ltac:(lia)) as (I2 & O2 & F2). pose proof (F2 1%nat p1 eq_refl ltac:(lia)) as F21. pose proof (F2 3%nat p3 eq_refl ltac:(lia)) as F23.
    destruct (W 3%nat m3 0%nat p0 p3 eq_refl eq_refl eq_refl ltac:(lia)) as (I3 & O3 & F3). pose proof (F3 1%nat p1 eq_refl ltac:(lia)) as F31. pose proof (F3 2%nat p2 eq_refl ltac:(lia)) as F32.
    rewrite (D m0 M0), F02, F03 in I0. rewrite (D m1 M1), F12, F13 in I1. rewrite (D m2 M2), F21, F23 in I2. rewrite (D m3 M3), F31, F32 in I3.
    clear - I0 I1 I2 I3 O0 O1 O2 O3 C1 C2. split; [|split; [|split; [|split; [|split; [exact C1|exact C2]]]]].
    + apply (weight_sign s (dot m0 p1) (dot m0 p0) O0). replace ((1 - s) * dot m0 p1) with ((t + u + v) * dot m0 p1) by (f_equal; lra). lra.
    + apply (weight_sign t (dot m1 p0) (dot m1 p1) O1). replace ((1 - t) * dot m1 p0) with ((s + u + v) * dot m1 p0) by (f_equal; lra). lra.
    + apply (weight_sign u (dot m2 p0) (dot m2 p2) O2). replace ((1 - u) * dot m2 p0) with ((s + t + v) * dot m2 p0) by (f_equal; lra). lra.
    + apply (weight_sign v (dot m3 p0) (dot m3 p3) O3). replace ((1 - v) * dot m3 p0) with ((s + t + u) * dot m3 p0) by (f_equal; lra). lra.
Qed.

(** For the cells of C13 to C15, given by outward normals, the test answers true exactly for the points that are not beyond any facet: the hypothesis
    of those theorems on [inside] holds for the C++ test. *)
Theorem C37_cell d c coords vs x : Simplex d c -> length x = d -> (forall v, v ∈ vs -> ((v + 1) * d <= length coords)%nat) -> map (mesh_vertex d coords) vs = verts c ->
  exists b, is_inside_vertices d d coords vs x = Ok b /\ (b = true <-> InCell d c x).
Proof.
  intros HS Hx Hv Hvs. pose proof (sx_dim _ _ HS) as Hd. pose proof (sx_nv _ _ HS) as Hn.
  assert (Hl : length vs = S d) by (by rewrite <- Hn, <- Hvs, map_length).
  destruct (C37_inside d coords vs x Hd Hl Hv) as [H|(b & E & Hb)].
  - exfalso. rewrite Hvs in H. destruct d as [|[|[|[|d]]]]; try done. destruct (verts c) as [|p0 [|p1 [|p2 [|p3 [|? ?]]]]] eqn:Ev; try done.
    destruct H as [H _]. exact (simplex_3d c p0 p1 p2 p3 HS Ev H).
  - exists b. split; [exact E|]. rewrite Hb, Hvs. split; [by apply hull_in_cell|by apply in_cell_hull].
Qed.

(** Example: a triangle given clockwise, a point on an edge of it and a point just outside. *)
Example C37_example : is_inside_vertices 2 2 [0; 0; 4; 0; 0; 4] [0; 2; 1]%nat [2; 2] = Ok true /\ is_inside_vertices 2 2 [0; 0; 4; 0; 0; 4] [0; 2; 1]%nat [2; 17/8] = Ok false /\
  is_inside_vertices 3 3 [0; 0; 0; 1; 0; 0; 0; 1; 0; 1; 1; 0] [0; 1; 2; 3]%nat [0; 0; 0] = Raise RuntimeError.
Proof.
  assert (Hv : forall v, v ∈ [0; 2; 1]%nat -> ((v + 1) * 2 <= length [0; 0; 4; 0; 0; 4])%nat) by (intros v Hv; cbn; rewrite !elem_of_cons, elem_of_nil in Hv; lia).
  split; [|split].
  - destruct (C37_inside 2 [0; 0; 4; 0; 0; 4] [0; 2; 1]%nat [2; 2] ltac:(lia) eq_refl Hv) as [[]|(b & E & Hb)]. rewrite E. f_equal. apply Hb.
    apply hull3. exists 0, (1/2), (1/2). split; [lra|]. split; [lra|]. split; [lra|]. split; [lra|].
    intros i Hi. destruct i as [|[|i]]; [| |lia]; unfold mesh_vertex, co; cbn; lra.
  - destruct (C37_inside 2 [0; 0; 4; 0; 0; 4] [0; 2; 1]%nat [2; 17/8] ltac:(lia) eq_refl Hv) as [[]|(b & E & Hb)]. rewrite E. f_equal. apply not_true_iff_false. intros ->.
    assert (H : Hull 2 (map (mesh_vertex 2 [0; 0; 4; 0; 0; 4]) [0; 2; 1]%nat) [2; 17/8]) by (by apply Hb).
    apply hull3 in H as (s & t & u & Hs & Ht & Hu & Es & HC). pose proof (HC 0%nat ltac:(lia)) as E0. pose proof (HC 1%nat ltac:(lia)) as E1.
    unfold mesh_vertex, co in E0, E1. cbn in E0, E1. lra.
  - unfold is_inside_vertices. cbn [is_inside_by]. unfold vertex, vertex_no, vertex_at. cbn [lookup list_lookup length Nat.add Nat.mul Nat.ltb Nat.leb take drop].
    unfold inside_3d_by, orient3d, co. cbn [nth]. cbv zeta.
    replace (Rltb 0 _) with false by (symmetry; apply Rltb_false; lra). replace (Rltb _ 0) with false by (symmetry; apply Rltb_false; lra). reflexivity.
Qed.

Print Assumptions C37_inside.
Print Assumptions C37_order.
Print Assumptions C37_other_dimensions.
Print Assumptions C37_cell.
