(** C13: [find_facet] returns the facet through which the particle leaves. *)
From Verif Require Import Vec VecProofs TrackModel Geometry FindFacetProofs.

(** Evaluate comparisons of explicit real numbers in the goal. *)
Ltac rdec :=
  repeat match goal with
  | |- context [Rltb ?x ?y] =>
      (replace (Rltb x y) with true by (symmetry; apply Rltb_true; lra)) ||
      (replace (Rltb x y) with false by (symmetry; apply Rltb_false; lra))
  | |- context [Reqb ?x ?y] =>
      (replace (Reqb x y) with true by (symmetry; apply Reqb_true; lra)) ||
      (replace (Reqb x y) with false by (symmetry; apply Reqb_false; lra))
  end.

Theorem C13_find_facet d c r0 dr :
  Simplex d c -> (d <= length r0)%nat -> (d <= length dr)%nat ->
  let x0 := take d r0 in let dx := take d dr in
  InCell d c x0 ->
  exists k f n, find_facet exact d c r0 dr = Ok (k, f, n) /\
    (k = NO_FACET <-> InCell d c (along x0 dx 1)) /\
    (k <> NO_FACET ->
       exists i nk, k = Z.of_nat i /\ (i <= d)%nat /\
         normals c !! i = Some nk /\ n = Some nk /\ 0 <= f < 1 /\
         (* the crossing point is on the facet's plane ... *)
         (forall j v, verts c !! j = Some v -> on_facet d i j ->
            dot nk (along x0 dx f) = dot nk v) /\
         (* ... the whole way to it lies in the cell, and nothing beyond it does *)
         (forall t, 0 <= t <= f -> InCell d c (along x0 dx t)) /\
         (forall t, f < t -> ~ InCell d c (along x0 dx t))).
Proof.
  intros HS H0 Hr x0 dx HI.
  assert (Lx : length x0 = d) by (subst x0; rewrite take_length; lia).
  assert (Ldx : length dx = d) by (subst dx; rewrite take_length; lia).
  destruct (find_facet_exact d c r0 dr HS H0 Hr) as (k & f & n & Hff & Hf & Hcase).
  fold x0 dx in Hcase. exists k, f, n. split; [exact Hff|].
  destruct Hcase as [(Hk & Hf1 & Hend)|(i & nk & v & Hk & Hid & Hnk & Hn & (j & Hv & Hon) & Hpos & Hlt & Hrest)].
  { split; [|done]. split; auto. }
  destruct (Hrest HI) as [Heq Hin].
  assert (Hout : forall t, f < t -> ~ InCell d c (along x0 dx t)).
  { intros t Ht Hc. specialize (Hc i nk j v Hnk Hv Hon). rewrite dot_along in Hc by lia. nra. }
  split.
  - split; [unfold NO_FACET; lia|]. intros Hc. destruct (Hout 1 Hlt Hc).
  - intros _. exists i, nk. repeat (split; [done || lra|]).
    split; [|split; [done|done]].
    intros j' v' Hv' Hon'. rewrite dot_along by lia.
    rewrite (sx_flat _ _ HS i nk j' v' j v) by done. lra.
Qed.

(** A 3-4-5 triangle; the particle starts at (1,1) and moves by (3,1): it leaves
    through the slanted side, 5/13 of the way. *)
Definition tri345 : cellrec :=
  CellRec [[0; 0]; [4; 0]; [0; 3]] [[3/5; 4/5]; [-1; 0]; [0; -1]] [10; 11; 12]%Z [1; -1; -1]%Z.

Ltac each_index i := destruct i as [|[|[|i]]]; cbn; intros; simplify_eq.

Lemma tri345_simplex : Simplex 2 tri345.
Proof.
  split; try (cbn; lia); try (by repeat constructor).
  - intros i n j v j' v' Hn Hv Hv' H1 H2. unfold on_facet in *. cbn in H1, H2.
    destruct i as [|[|[|i]]]; cbn in Hn; simplify_eq;
    destruct j as [|[|[|j]]]; cbn in Hv; simplify_eq; try done;
    destruct j' as [|[|[|j']]]; cbn in Hv'; simplify_eq; try done; cbn; lra.
  - intros i n j v j' v' Hn Hv Hv' H1 H2. unfold on_facet in *. cbn in H1, H2.
    destruct i as [|[|[|i]]]; cbn in Hn; simplify_eq;
    destruct j as [|[|[|j]]]; cbn in Hv; simplify_eq; try done;
    destruct j' as [|[|[|j']]]; cbn in Hv'; simplify_eq;
    try (exfalso; by apply H2); cbn; lra.
Qed.

Lemma tri345_in x y : 0 <= x -> 0 <= y -> 3 * x + 4 * y <= 12 -> InCell 2 tri345 [x; y].
Proof.
  intros Hx Hy Hs i n j v Hn Hv Ho.
  destruct i as [|[|[|i]]]; cbn in Hn; simplify_eq;
  destruct j as [|[|[|j]]]; cbn in Hv; simplify_eq;
  try (exfalso; by apply Ho); cbn; lra.
Qed.

Example C13_example :
  Simplex 2 tri345 /\ InCell 2 tri345 [1; 1] /\
  find_facet exact 2 tri345 [1; 1] [3; 1] = Ok (0%Z, 5/13, Some [3/5; 4/5]).
Proof.
  split; [exact tri345_simplex|]. split; [apply tri345_in; lra|].
  unfold find_facet, facet_planes, facet_step, vdot. cbn. unfold exact, facet_step, vdot, vsub. cbn. unfold exact. rdec. cbn.
  unfold facet_step, vdot, vsub. cbn. unfold exact. rdec. cbn. rdec. cbn.
  f_equal. f_equal. f_equal. lra.
Qed.

(** The same triangle with a move that ends inside: NO_FACET. *)
Example C13_example_stays :
  find_facet exact 2 tri345 [1; 1] [1; 0] = Ok (NO_FACET, 1, Some [0; -1]).
Proof.
  unfold find_facet, facet_planes, facet_step, vdot. cbn. unfold exact, facet_step, vdot, vsub. cbn. unfold exact. rdec. cbn.
  unfold facet_step, vdot, vsub. cbn. unfold exact. rdec. cbn. rdec. cbn. done.
Qed.

Print Assumptions C13_find_facet.
