(** Specification of a conforming mesh with boundaries, and an example mesh. *)
From Verif Require Import Vec VecProofs TrackModel BcModel Geometry FindFacetProps.

(** A conforming mesh: every cell is a simplex with unit normals, [inside] is membership of
    the closed cell, the facets of one cell have different indices, and behind a facet
    there is nothing or a cell that has the same facet: same index, opposite normal, and
    the points of the cell on that facet belong to the neighbour too. *)
Record Conforming (m : mesh) : Prop := {
  cf_simplex : forall c cr, cells m c = Some cr -> Simplex (gdim m) cr;
  cf_unit : forall c cr, cells m c = Some cr -> Forall (fun n => dot n n = 1) (normals cr);
  cf_inside : forall c cr x, cells m c = Some cr -> length x = gdim m ->
    inside m c x = true <-> InCell (gdim m) cr x;
  cf_fids : forall c cr, cells m c = Some cr ->
    length (fids cr) = S (gdim m) /\ NoDup (fids cr) /\ NO_FACET ∉ fids cr;
  cf_nbrs : forall c cr, cells m c = Some cr -> length (nbrs cr) = S (gdim m);
  cf_shared : forall c cr i cn n mf, cells m c = Some cr -> nbrs cr !! i = Some cn -> cn <> NO_CELL ->
    normals cr !! i = Some n -> fids cr !! i = Some mf ->
    exists cr' i', cells m cn = Some cr' /\ fids cr' !! i' = Some mf /\
      normals cr' !! i' = Some (vscale exact (-1) n) /\
      forall x, length x = gdim m -> InCell (gdim m) cr x ->
        (forall j v, verts cr !! j = Some v -> on_facet (gdim m) i j -> dot n x = dot n v) ->
        InCell (gdim m) cr' x
}.

(** Boundaries: every facet without a neighbour has a marker whose function absorbs or
    reflects; a marked facet between two cells has a function that absorbs or does nothing.
    Reflection is allowed for the charged mover only (see C18). *)
Definition Bounded_by {K} (k : mkind) (m : mesh) (bcs : Z -> option (bcfun (K:=K))) : Prop :=
  forall c cr i mf cn, cells m c = Some cr -> fids cr !! i = Some mf -> nbrs cr !! i = Some cn ->
    (cn = NO_CELL -> marker m mf <> 0%Z /\
       (bcs (marker m mf) = Some absorb_bc \/
        (k = Charged /\ bcs (marker m mf) = Some (reflect_bc exact)))) /\
    (cn <> NO_CELL -> marker m mf = 0%Z \/
       bcs (marker m mf) = Some absorb_bc \/ bcs (marker m mf) = Some noop_bc).

(** Example: the interval [0,3] cut into the cells [0,1] and [1,3]; the facets are the points
    0, 1, 3 with indices 0, 1, 2; the left end is marked 1 (reflecting), the right end 2
    (absorbing). *)
Definition line_cells (c : Z) : option cellrec :=
  if (c =? 0)%Z then Some (CellRec [[0]; [1]] [[-1]; [1]] [0; 1]%Z [-1; 1]%Z)
  else if (c =? 1)%Z then Some (CellRec [[1]; [3]] [[-1]; [1]] [1; 2]%Z [0; -1]%Z)
  else None.
Definition line_inside (c : Z) (x : vec) : bool :=
  match x with
  | [a] => if (c =? 0)%Z then negb (Rltb a 0) && negb (Rltb 1 a)
           else if (c =? 1)%Z then negb (Rltb a 1) && negb (Rltb 3 a) else false
  | _ => false
  end.
Definition line_mesh : mesh :=
  Mesh 1 line_cells line_inside (fun f => if (f =? 0)%Z then 1 else if (f =? 2)%Z then 2 else 0)%Z.
Definition line_bcs {K} (v : Z) : option (bcfun (K:=K)) :=
  if (v =? 1)%Z then Some (reflect_bc exact) else if (v =? 2)%Z then Some absorb_bc else None.

Ltac line_cases Hc :=
  match type of Hc with cells line_mesh ?c = Some ?cr =>
    let E0 := fresh in let E1 := fresh in
    cbn in Hc; unfold line_cells in Hc;
    destruct (c =? 0)%Z eqn:E0; [assert (c = 0%Z) by lia; subst c; injection Hc as <-|
    destruct (c =? 1)%Z eqn:E1; [assert (c = 1%Z) by lia; subst c; injection Hc as <-|done]] end.

Lemma in_line_cell c cr a : cells line_mesh c = Some cr ->
  InCell 1 cr [a] <-> line_inside c [a] = true.
Proof.
  intros Hc. line_cases Hc; cbn; rewrite andb_true_iff, !negb_true_iff, !Rltb_false.
  all: split; [intros HI|intros [? ?] i n j v Hn Hv Ho; unfold on_facet in Ho; cbn in Ho; subst j;
    destruct i as [|[|i]]; cbn in Hn, Hv; simplify_eq; cbn; lra].
  - pose proof (HI 0%nat [-1] 0%nat [0] eq_refl eq_refl eq_refl) as A.
    pose proof (HI 1%nat [1] 1%nat [1] eq_refl eq_refl eq_refl) as B. cbn in A, B. lra.
  - pose proof (HI 0%nat [-1] 0%nat [1] eq_refl eq_refl eq_refl) as A.
    pose proof (HI 1%nat [1] 1%nat [3] eq_refl eq_refl eq_refl) as B. cbn in A, B. lra.
Qed.

Lemma line_conforming : Conforming line_mesh.
Proof.
  split.
  - intros c cr Hc. line_cases Hc; split; try (cbn; lia); try (by repeat constructor).
    all: intros i n j v j' v' Hn Hv Hv' H1 H2; unfold on_facet in *; cbn in H1, H2; subst j;
      try subst j'; destruct i as [|[|i]]; cbn in Hn, Hv; simplify_eq; cbn in Hv'; simplify_eq; try done;
      destruct j' as [|[|j']]; cbn in Hv'; simplify_eq; try (exfalso; by apply H2); cbn; lra.
  - intros c cr Hc. line_cases Hc; repeat constructor; cbn; lra.
  - intros c cr [|a [|]] Hc Hx; cbn in Hx; try lia. by rewrite (in_line_cell c cr a Hc).
  - intros c cr Hc. line_cases Hc; cbn.
    all: split; [done|]; split; [repeat constructor; intros Hx; repeat (apply elem_of_cons in Hx as [Hx|Hx]; [lia|]); by apply elem_of_nil in Hx
    |unfold NO_FACET; intros Hx; repeat (apply elem_of_cons in Hx as [Hx|Hx]; [lia|]); by apply elem_of_nil in Hx].
  - intros c cr Hc. by line_cases Hc.
  - intros c cr i cn n mf Hc Hnb Hcn Hn Hf. line_cases Hc.
    + destruct i as [|[|i]]; cbn in Hnb, Hn, Hf; simplify_eq.
      exists (CellRec [[1]; [3]] [[-1]; [1]] [1; 2]%Z [0; -1]%Z), 0%nat.
      split; [done|]. split; [done|]. split; [cbn; unfold exact; do 3 f_equal; lra|].
      intros [|a [|]] Hx HI Ho; cbn in Hx; try lia.
      apply (in_line_cell 1); [done|]. specialize (Ho 1%nat [1] eq_refl eq_refl). cbn in Ho.
      cbn. rewrite andb_true_iff, !negb_true_iff, !Rltb_false. lra.
    + destruct i as [|[|i]]; cbn in Hnb, Hn, Hf; simplify_eq.
      exists (CellRec [[0]; [1]] [[-1]; [1]] [0; 1]%Z [-1; 1]%Z), 1%nat.
      split; [done|]. split; [done|]. split; [cbn; unfold exact; do 3 f_equal; lra|].
      intros [|a [|]] Hx HI Ho; cbn in Hx; try lia.
      apply (in_line_cell 0); [done|]. specialize (Ho 0%nat [1] eq_refl eq_refl). cbn in Ho.
      cbn. rewrite andb_true_iff, !negb_true_iff, !Rltb_false. lra.
Qed.

Lemma line_bounded {K} : Bounded_by (K:=K) Charged line_mesh line_bcs.
Proof.
  intros c cr i mf cn Hc Hf Hn. line_cases Hc; destruct i as [|[|i]]; cbn in Hf, Hn; simplify_eq;
    cbn; split; intros; try done; unfold NO_CELL; auto.
Qed.
