(** Roundings: what the proofs about floating-point results need to know of the
    function [fl] that is applied to the result of every operation, and the proof
    that IEEE double precision, rounded to nearest, is such a function. *)
From Flocq Require Import Core.
From Verif Require Import Vec.

(** Monotone, leaves its own results alone, and exact on the integers up to 2^53
    in size.  Overflow (results of size 2^1024 and more) is outside the model. *)
Record Rounding (fl : R -> R) : Prop := {
  rnd_mono : forall x y, x <= y -> fl x <= fl y;
  rnd_idem : forall x, fl (fl x) = fl x;
  rnd_int : forall z, (Z.abs z <= 2 ^ 53)%Z -> fl (IZR z) = IZR z
}.

(** IEEE binary64 with gradual underflow, round to nearest even: the arithmetic of
    numpy's float64 and of C++ double, without the upper bound of the exponent. *)
Definition b64 : R -> R := round radix2 (FLT_exp (-1074) 53) ZnearestE.

Lemma b64_rounding : Rounding b64.
Proof.
  assert (V : Valid_exp (FLT_exp (-1074) 53)) by (apply FLT_exp_valid; unfold Prec_gt_0; lia).
  split.
  - intros x y H. apply round_le; [done|apply valid_rnd_N|done].
  - intros x. apply round_generic; [apply valid_rnd_N|]. apply generic_format_round; [done|apply valid_rnd_N].
  - intros z Hz. apply round_generic; [apply valid_rnd_N|].
    destruct (decide (Z.abs z = 2 ^ 53)%Z) as [He|Hn].
    + assert (Hp : generic_format radix2 (FLT_exp (-1074) 53) (bpow radix2 53)).
      { apply generic_format_bpow. unfold FLT_exp. lia. }
      change (bpow radix2 53) with (IZR (2 ^ 53)) in Hp.
      destruct (Z_le_gt_dec 0 z).
      * by replace z with (2 ^ 53)%Z by lia.
      * replace z with (- 2 ^ 53)%Z by lia. rewrite opp_IZR. by apply generic_format_opp.
    + apply generic_format_FLT. exists (Float radix2 z 0); [|cbn [Fnum]|cbn [Fexp]; lia].
      * unfold F2R. cbn. lra.
      * change (Zpower radix2 53) with (2 ^ 53)%Z. lia.
Qed.
Lemma exact_rounding : Rounding exact.
Proof. by split. Qed.

Section Facts.
Context {fl : R -> R} (Hfl : Rounding fl).
Lemma rnd_0 : fl 0 = 0.
Proof. apply (rnd_int fl Hfl 0). lia. Qed.
Lemma rnd_1 : fl 1 = 1.
Proof. apply (rnd_int fl Hfl 1). lia. Qed.
Lemma rnd_ge x z : (Z.abs z <= 2 ^ 53)%Z -> IZR z <= x -> IZR z <= fl x.
Proof. intros Hz H. rewrite <- (rnd_int fl Hfl z Hz). by apply (rnd_mono fl Hfl). Qed.
Lemma rnd_le x z : (Z.abs z <= 2 ^ 53)%Z -> x <= IZR z -> fl x <= IZR z.
Proof. intros Hz H. rewrite <- (rnd_int fl Hfl z Hz). by apply (rnd_mono fl Hfl). Qed.
End Facts.
