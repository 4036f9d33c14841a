(** C41: the fraction computed by [find_facet] in rounded arithmetic. *)
From Flocq Require Import Core.
From Verif Require Import Vec VecProofs TrackModel TrackProofs Rounding.

Section Frac.
Context {fl : R -> R} (Hfl : Rounding fl).

(** The result of a dot product is a rounded number, or 0 when there are no coordinates. *)
Lemma vdot_rounded a b : fl (vdot fl a b) = vdot fl a b.
Proof.
  unfold vdot. assert (H : forall (l : list (R * R)) s, fl s = s ->
    fl (fold_left (fun s xy => fl (s + fl (fst xy * snd xy))) l s) = fold_left (fun s xy => fl (s + fl (fst xy * snd xy))) l s).
  { intros l. induction l as [|x l IH]; intros s Hs; [done|]. cbn [fold_left]. apply IH. apply (rnd_idem fl Hfl). }
  apply H. apply (rnd_0 Hfl).
Qed.

Lemma facet_step_range x0 dx st i n v : 0 <= snd st <= 1 -> 0 <= snd (facet_step fl x0 dx st i n v) <= 1.
Proof.
  intros H. unfold facet_step. destruct (Rltb 0 _) eqn:E1; [|done].
  destruct (Rltb _ (fl _)) eqn:E2; [|done].
  apply Rltb_true in E1, E2. cbn [snd].
  pose proof (vdot_rounded n dx) as Hr. set (ndx := vdot _ n dx) in *. set (D := if Rltb _ 0 then _ else _) in *.
  assert (H0 : 0 <= D).
  { subst D. destruct (Rltb _ 0) eqn:E; [apply Rltb_true in E|apply Rltb_false in E]; lra. }
  assert (H1 : D <= ndx).
  { apply Rlt_le. eapply Rlt_le_trans; [exact E2|]. rewrite <- Hr. apply (rnd_mono fl Hfl). nra. }
  assert (Hq : D / ndx * ndx = D) by (field; lra).
  assert (0 <= D / ndx) by (apply Rle_mult_inv_pos; lra).
  split.
  - apply (rnd_ge Hfl _ 0); [lia|done].
  - apply (rnd_le Hfl _ 1); [lia|]. nra.
Qed.
Lemma facet_scan_range x0 dx l : forall i st, 0 <= snd st <= 1 -> 0 <= snd (facet_scan fl x0 dx i l st) <= 1.
Proof.
  induction l as [|[n v] l IH]; intros i st H; cbn; [done|]. apply IH. by apply facet_step_range.
Qed.
End Frac.

(** C41.  For every rounding, every dimension, every cell (its vertices and normals need not fit together) and every
    move: the returned fraction is in [0,1], and the "Bad value for dxFraction" exit is not taken. *)
Theorem C41_fraction_in_range fl d c r0 dr : Rounding fl ->
  match find_facet fl d c r0 dr with
  | Ok (facet, f, n) => 0 <= f <= 1
  | Raise e => e <> SystemExit
  end.
Proof.
  intros Hfl. unfold find_facet. destruct (Reqb _ _); [lra|].
  destruct (facet_planes d c) as [l|] eqn:El; [|done].
  set (x0 := take d r0). set (dx := take d dr).
  destruct (match d with O => _ | S _ => _ end) as [k' f'] eqn:E.
  assert (Hr : 0 <= f' <= 1).
  { pose proof (facet_scan_range Hfl x0 dx l 0 (NO_FACET, 1) ltac:(cbn; lra)) as Hs.
    destruct d as [|[|d]]; [by rewrite E in Hs| |by rewrite E in Hs].
    destruct l as [|[n0 v0] l]; [by rewrite E in Hs|].
    pose proof (facet_step_range Hfl x0 dx (NO_FACET, 1) 0 n0 v0 ltac:(cbn; lra)) as Hst.
    destruct (_ =? 0)%Z; [by rewrite E in Hst|].
    pose proof (facet_scan_range Hfl x0 dx l 1 _ Hst) as Hs1. by rewrite E in Hs1. }
  replace (Rltb 1 f') with false by (symmetry; apply Rltb_false; lra).
  replace (Rltb f' 0) with false by (symmetry; apply Rltb_false; lra).
  rewrite andb_false_r. unfold py_get. destruct (py_pos _ _); [|done]. destruct (_ !! _); [|done]. done.
Qed.
(** In particular for double precision. *)
Corollary C41_double_precision d c r0 dr :
  match find_facet b64 d c r0 dr with
  | Ok (facet, f, n) => 0 <= f <= 1
  | Raise e => e <> SystemExit
  end.
Proof. apply C41_fraction_in_range, b64_rounding. Qed.

(** Example, in double precision: from 0 by 9 through the cell [0,3].  Facet 1 is crossed at the rounded third. *)
Example C41_example :
  find_facet b64 1 (CellRec [[0]; [3]] [[-1]; [1]] [0; 1]%Z [-1; 1]%Z) [0] [9] = Ok (1%Z, b64 (1/3), Some [1]) /\
  1/4 <= b64 (1/3) <= 1/2.
Proof.
  assert (Hi : forall z x, (Z.abs z <= 2 ^ 53)%Z -> x = IZR z -> b64 x = IZR z).
  { intros z x Hz ->. by apply (rnd_int _ b64_rounding). }
  split.
  - unfold find_facet, facet_planes, facet_scan, facet_step, vdot, vsub. cbn.
    rewrite (Hi 81%Z (9 * 9)), (Hi 81%Z (0 + 81)) by (lia || lra).
    replace (Reqb 81 0) with false by (unfold Reqb; destruct (Req_EM_T 81 0); [lra|done]).
    rewrite (Hi (-9)%Z (-1 * 9)), (Hi (-9)%Z (0 + -9)) by (lia || lra).
    replace (Rltb 0 (-9)) with false by (symmetry; apply Rltb_false; lra). cbn.
    rewrite (Hi 9%Z (1 * 9)), (Hi 9%Z (0 + 9)) by (lia || lra).
    replace (Rltb 0 9) with true by (symmetry; apply Rltb_true; lra).
    rewrite (Hi 3%Z (3 - 0)), (Hi 3%Z (1 * 3)), (Hi 3%Z (0 + 3)) by (lia || lra).
    replace (Rltb 3 0) with false by (symmetry; apply Rltb_false; lra).
    cbn.
    rewrite (Hi 9%Z (1 * 9)) by (lia || lra). replace (Rltb 3 9) with true by (symmetry; apply Rltb_true; lra).
    replace (3 / 9) with (1 / 3) by lra. reflexivity.
  - assert (Hg : forall e : Z, (-1074 <= e)%Z -> b64 (bpow radix2 e) = bpow radix2 e).
    { intros e He. apply round_generic; [apply valid_rnd_N|]. apply generic_format_bpow. unfold FLT_exp. lia. }
    pose proof (Hg (-2)%Z ltac:(lia)) as H2. pose proof (Hg (-1)%Z ltac:(lia)) as H1.
    change (bpow radix2 (-2)) with (/ 4) in H2. change (bpow radix2 (-1)) with (/ 2) in H1.
    pose proof (rnd_mono _ b64_rounding (/ 4) (1/3) ltac:(lra)). pose proof (rnd_mono _ b64_rounding (1/3) (/ 2) ltac:(lra)). lra.
Qed.

Print Assumptions C41_fraction_in_range.
Print Assumptions C41_double_precision.
