(** Linear algebra of coordinate lists in exact arithmetic. *)
From Verif Require Import Vec.

Lemma Rltb_true x y : Rltb x y = true <-> x < y.
Proof. unfold Rltb. destruct (Rlt_dec x y); split; auto; discriminate. Qed.
Lemma Rltb_false x y : Rltb x y = false <-> y <= x.
Proof. unfold Rltb. destruct (Rlt_dec x y); split; intros; try discriminate; auto; lra. Qed.
Lemma Reqb_true x y : Reqb x y = true <-> x = y.
Proof. unfold Reqb. destruct (Req_EM_T x y); split; auto; discriminate. Qed.
Lemma Reqb_false x y : Reqb x y = false <-> x <> y.
Proof. unfold Reqb. destruct (Req_EM_T x y); split; intros; try discriminate; auto. contradiction. Qed.

Section Exact.

(** Inner product, for statements. *)
Fixpoint dot (a b : vec) : R :=
  match a, b with
  | x :: a', y :: b' => x * y + dot a' b'
  | _, _ => 0
  end.

Lemma vdot_acc a b s :
  fold_left (fun s xy => exact (s + exact (fst xy * snd xy))) (zip a b) s = s + dot a b.
Proof.
  revert b s. induction a as [|x a IH]; intros [|y b] s; cbn; try lra.
  rewrite IH. unfold exact. lra.
Qed.

Lemma vdot_exact a b : vdot exact a b = dot a b.
Proof. unfold vdot. rewrite vdot_acc. lra. Qed.

Lemma dot_comm a b : dot a b = dot b a.
Proof. revert b. induction a as [|x a IH]; intros [|y b]; cbn; auto. rewrite IH. lra. Qed.

Lemma dot_add n a b : length a = length b ->
  dot n (vadd exact a b) = dot n a + dot n b.
Proof.
  revert a b. induction n as [|z n IH]; intros [|x a] [|y b] H; cbn in *; try lia; try lra.
  unfold vadd in IH. rewrite IH by lia. unfold exact. lra.
Qed.
Lemma dot_sub n a b : length a = length b ->
  dot n (vsub exact a b) = dot n a - dot n b.
Proof.
  revert a b. induction n as [|z n IH]; intros [|x a] [|y b] H; cbn in *; try lia; try lra.
  unfold vsub in IH. rewrite IH by lia. unfold exact. lra.
Qed.
Lemma dot_scale n s a : dot n (vscale exact s a) = s * dot n a.
Proof.
  revert a. induction n as [|z n IH]; intros [|x a]; cbn; try lra.
  unfold vscale in IH. rewrite IH. unfold exact. lra.
Qed.
Lemma dot_add_l n a b : length a = length b ->
  dot (vadd exact a b) n = dot a n + dot b n.
Proof. intros. rewrite !(dot_comm _ n). by apply dot_add. Qed.
Lemma dot_sub_l n a b : length a = length b ->
  dot (vsub exact a b) n = dot a n - dot b n.
Proof. intros. rewrite !(dot_comm _ n). by apply dot_sub. Qed.
Lemma dot_scale_l n s a : dot (vscale exact s a) n = s * dot a n.
Proof. rewrite !(dot_comm _ n). by apply dot_scale. Qed.

Lemma vadd_length fl a b : length a = length b -> length (vadd fl a b) = length a.
Proof. intros. unfold vadd. rewrite zip_with_length. lia. Qed.
Lemma vsub_length fl a b : length a = length b -> length (vsub fl a b) = length a.
Proof. intros. unfold vsub. rewrite zip_with_length. lia. Qed.
Lemma vscale_length fl s a : length (vscale fl s a) = length a.
Proof. unfold vscale. by rewrite map_length. Qed.

Lemma dot_self_nonneg a : 0 <= dot a a.
Proof. induction a; cbn; nra. Qed.
Lemma dot_self_zero a b : dot a a = 0 -> dot b a = 0.
Proof.
  revert b. induction a as [|x a IH]; intros [|y b] H; cbn in *; try lra.
  pose proof (dot_self_nonneg a).
  assert (x = 0) by nra. rewrite IH by nra. nra.
Qed.

Lemma vadd_lookup fl a b i x y :
  a !! i = Some x -> b !! i = Some y -> vadd fl a b !! i = Some (fl (x + y)).
Proof. intros H1 H2. unfold vadd. rewrite lookup_zip_with, H1. cbn. by rewrite H2. Qed.
Lemma vsub_lookup fl a b i x y :
  a !! i = Some x -> b !! i = Some y -> vsub fl a b !! i = Some (fl (x - y)).
Proof. intros H1 H2. unfold vsub. rewrite lookup_zip_with, H1. cbn. by rewrite H2. Qed.

End Exact.

(** Equality of coordinate lists, coordinate by coordinate.  [vec_ring] proves an
    identity of vectors of the same (symbolic) length by induction, leaving field
    identities of coordinates. *)
Lemma vec_ext (a b : vec) : length a = length b ->
  (forall i x y, a !! i = Some x -> b !! i = Some y -> x = y) -> a = b.
Proof.
  revert b. induction a as [|x a IH]; intros [|y b] H He; cbn in *; try lia; auto.
  f_equal; [by apply (He 0%nat)|]. apply IH; [lia|]. intros i. apply (He (S i)).
Qed.

Lemma vadd_vsub a b : length a = length b -> vadd exact a (vsub exact b a) = b.
Proof.
  revert b. induction a as [|x a IH]; intros [|y b] H; cbn in *; try lia; auto.
  f_equal; [unfold exact; lra|]. apply IH. lia.
Qed.

(** Coordinate [i] of a vector; 0 outside.  All vector operations act on coordinates. *)
Definition co (v : vec) (i : nat) : R := List.nth i v 0.

Lemma vec_co_ext (a b : vec) : length a = length b -> (forall i, co a i = co b i) -> a = b.
Proof. intros H He. eapply List.nth_ext with (d := 0) (d' := 0); [done|]. intros n _. apply He. Qed.

Lemma co_vadd a b i : length a = length b -> co (vadd exact a b) i = co a i + co b i.
Proof.
  unfold co. revert b i. induction a as [|x a IH]; intros [|y b] [|i] H; cbn in *; try lia; try (unfold exact; lra).
  apply IH. lia.
Qed.
Lemma co_vsub a b i : length a = length b -> co (vsub exact a b) i = co a i - co b i.
Proof.
  unfold co. revert b i. induction a as [|x a IH]; intros [|y b] [|i] H; cbn in *; try lia; try (unfold exact; lra).
  apply IH. lia.
Qed.
Lemma co_vscale s a i : co (vscale exact s a) i = s * co a i.
Proof.
  unfold co. revert i. induction a as [|x a IH]; intros [|i]; cbn; try (unfold exact; lra).
  apply IH.
Qed.
Lemma co_map_mul s a i : co (map (fun x => exact (exact s * x)) a) i = s * co a i.
Proof. exact (co_vscale s a i). Qed.
Lemma co_map_mul_r s a i : co (map (fun x => exact (x * s)) a) i = co a i * s.
Proof.
  unfold co. revert i. induction a as [|x a IH]; intros [|i]; cbn; try (unfold exact; lra).
  apply IH.
Qed.
