(** C55: the cells of the mesh of a rectangle fill it. *)
From stdpp Require Import list_numbers.
From Coq Require Cantor.
From Verif Require Import Vec VecProofs TrackModel BcModel Geometry FindFacetProps Conforming MeshModel MeshProps InsideModel InsideProps LineMeshModel LineMeshProps.
From Verif Require Import TriMeshModel TriMeshProps RectMeshProofs RectMeshProps.
Local Open Scope R_scope.

(** ** The cells fill the rectangle *)

(** The point is inside the cell and on none of its facets. *)
Definition Interior (d : nat) (cr : cellrec) (x : vec) : Prop :=
  forall i n j v, normals cr !! i = Some n -> verts cr !! j = Some v -> on_facet d i j -> dot n x < dot n v.

Lemma interior_weights cr p q r x : Simplex 2 cr -> verts cr = [p; q; r] -> length x = 2%nat -> Interior 2 cr x ->
  exists s t u, 0 < s /\ 0 < t /\ 0 < u /\ s + t + u = 1 /\ forall i, (i < 2)%nat -> co x i = s * co p i + t * co q i + u * co r i.
Proof.
  intros HS Hv Hx HI. assert (HI' : InCell 2 cr x) by (intros i n j v H1 H2 H3; apply Rlt_le; exact (HI i n j v H1 H2 H3)).
  pose proof (in_cell_hull 2 cr x HS Hx HI') as HH. rewrite Hv in HH. apply hull3 in HH as (s & t & u & Hs & Ht & Hu & H1 & Hc).
  pose proof (sx_nn _ _ HS) as Hn. pose proof (sx_ln _ _ HS) as Ln. pose proof (sx_lv _ _ HS) as Lv. pose proof (sx_flat _ _ HS) as Fl. pose proof (sx_out _ _ HS) as Ou.
  rewrite Hv in Lv, Ou. apply list.Forall_cons in Lv as [Lp Lv]. apply list.Forall_cons in Lv as [Lq Lv]. apply list.Forall_cons in Lv as [Lr _].
  destruct (normals cr) as [|n0 [|n1 [|n2 [|? ?]]]] eqn:En; try discriminate.
  apply list.Forall_cons in Ln as [L0 Ln]. apply list.Forall_cons in Ln as [L1 Ln]. apply list.Forall_cons in Ln as [L2 _].
  assert (HD : forall n, length n = 2%nat -> dot n x = s * dot n p + t * dot n q + u * dot n r).
  { intros n Hl. destruct (len2 n Hl) as (n1' & n2' & ->), (len2 x Hx) as (xa & xb & ->), (len2 p Lp) as (pa & pb & ->), (len2 q Lq) as (qa & qb & ->), (len2 r Lr) as (ra & rb & ->).
    pose proof (Hc 0%nat ltac:(lia)) as C0. pose proof (Hc 1%nat ltac:(lia)) as C1. unfold co in C0, C1. cbn [nth] in C0, C1. rewrite !dot2, C0, C1. ring. }
  exists s, t, u.
  unfold Interior in HI. rewrite En, Hv in HI. unfold on_facet in *.
  pose proof (HI 0%nat n0 1%nat q eq_refl eq_refl ltac:(done)) as I0. pose proof (HI 1%nat n1 0%nat p eq_refl eq_refl ltac:(done)) as I1.
  pose proof (HI 2%nat n2 0%nat p eq_refl eq_refl ltac:(done)) as I2. rewrite HD in I0, I1, I2 by assumption.
  pose proof (Fl 0%nat n0 1%nat q 2%nat r) as F0. rewrite Hv in F0. specialize (F0 eq_refl eq_refl eq_refl ltac:(done) ltac:(done)).
  pose proof (Fl 1%nat n1 0%nat p 2%nat r) as F1. rewrite Hv in F1. specialize (F1 eq_refl eq_refl eq_refl ltac:(done) ltac:(done)).
  pose proof (Fl 2%nat n2 0%nat p 1%nat q) as F2. rewrite Hv in F2. specialize (F2 eq_refl eq_refl eq_refl ltac:(done) ltac:(done)).
  assert (s <> 0) by (intros ->; replace u with (1 - t) in I0 by lra; nra). assert (t <> 0) by (intros ->; replace u with (1 - s) in I1 by lra; nra).
  assert (u <> 0) by (intros ->; replace t with (1 - s) in I2 by lra; nra).
  split_and!; try lra. exact Hc.
Qed.

(** The weights of a point of a triangle from its place in the rectangle that was cut. *)
Definition Local (dg : diagonal) (g : gtri) (i j : nat) (X Y s t u : R) : Prop :=
  let v0 := Corner i j in let v1 := Corner (S i) j in let v2 := Corner i (S j) in let v3 := Corner (S i) (S j) in let m := Middle i j in
  (dg <> Crossed_ /\ is_right dg i j = true /\ ((g = (v0, v1, v3) /\ s = 1 - X /\ t = X - Y /\ u = Y) \/ (g = (v0, v2, v3) /\ s = 1 - Y /\ t = Y - X /\ u = X))) \/
  (dg <> Crossed_ /\ is_right dg i j = false /\
    ((g = (v0, v1, v2) /\ s = 1 - X - Y /\ t = X /\ u = Y) \/ (g = (v1, v2, v3) /\ s = 1 - Y /\ t = 1 - X /\ u = X + Y - 1))) \/
  (dg = Crossed_ /\ ((g = (v0, v1, m) /\ s = 1 - X - Y /\ t = X - Y /\ u = 2 * Y) \/ (g = (v0, v2, m) /\ s = 1 - X - Y /\ t = Y - X /\ u = 2 * X) \/
    (g = (v1, v3, m) /\ s = X - Y /\ t = X + Y - 1 /\ u = 2 * (1 - X)) \/ (g = (v2, v3, m) /\ s = Y - X /\ t = X + Y - 1 /\ u = 2 * (1 - Y)))).

Ltac local_cases H := destruct H as [(?D & ?R & [(?G & ?S & ?T & ?U)|(?G & ?S & ?T & ?U)])|[(?D & ?R & [(?G & ?S & ?T & ?U)|(?G & ?S & ?T & ?U)])|
  (?D & [(?G & ?S & ?T & ?U)|[(?G & ?S & ?T & ?U)|[(?G & ?S & ?T & ?U)|(?G & ?S & ?T & ?U)]]])]].

Lemma local_of dg g sg i j X Y : (g, sg) ∈ signed_square dg i j -> exists s t u, Local dg g i j X Y s t u.
Proof.
  intros H. unfold Local. destruct (square_kinds _ _ _ _ _ H) as [(E & R & [[-> ->]|[-> ->]])|[(E & R & [[-> ->]|[-> ->]])|(E & [[-> ->]|[[-> ->]|[[-> ->]|[-> ->]]]])]]; naive_solver.
Qed.
Lemma local_sum dg g i j X Y s t u : Local dg g i j X Y s t u -> s + t + u = 1.
Proof. intros H. local_cases H; lra. Qed.
Lemma local_unit dg g i j X Y s t u : Local dg g i j X Y s t u -> 0 <= s -> 0 <= t -> 0 <= u -> 0 <= X <= 1 /\ 0 <= Y <= 1.
Proof. intros H H1 H2 H3. local_cases H; lra. Qed.
Lemma local_open dg g i j X Y s t u : Local dg g i j X Y s t u -> 0 < s -> 0 < t -> 0 < u -> 0 < X < 1 /\ 0 < Y < 1.
Proof. intros H H1 H2 H3. local_cases H; lra. Qed.
Lemma local_one dg g g' i j X Y s t u s' t' u' : Local dg g i j X Y s t u -> Local dg g' i j X Y s' t' u' -> 0 < s -> 0 < t -> 0 < u ->
  0 <= s' -> 0 <= t' -> 0 <= u' -> g = g'.
Proof. intros H H' H1 H2 H3 H4 H5 H6. local_cases H; local_cases H'; first [congruence|exfalso; congruence|exfalso; lra]. Qed.
Lemma local_exists dg i j X Y : 0 <= X <= 1 -> 0 <= Y <= 1 -> exists g s t u, g ∈ square_tris dg i j /\ Local dg g i j X Y s t u /\ 0 <= s /\ 0 <= t /\ 0 <= u.
Proof.
  intros HX HY. unfold Local. assert (dg = Crossed_ \/ dg <> Crossed_) as [->|E] by (destruct dg; (by left) || (by right)).
  - cbn [square_tris]. destruct (Rle_dec Y X), (Rle_dec (X + Y) 1).
    + exists (Corner i j, Corner (S i) j, Middle i j). do 3 eexists. split; [rewrite !elem_of_cons; tauto|]. split; [right; right; split; [done|left; done]|lra].
    + exists (Corner (S i) j, Corner (S i) (S j), Middle i j). do 3 eexists. split; [rewrite !elem_of_cons; tauto|]. split; [right; right; split; [done|right; right; left; done]|lra].
    + exists (Corner i j, Corner i (S j), Middle i j). do 3 eexists. split; [rewrite !elem_of_cons; tauto|]. split; [right; right; split; [done|right; left; done]|lra].
    + exists (Corner i (S j), Corner (S i) (S j), Middle i j). do 3 eexists. split; [rewrite !elem_of_cons; tauto|]. split; [right; right; split; [done|right; right; right; done]|lra].
  - assert (HS : square_tris dg i j = if is_right dg i j then [(Corner i j, Corner (S i) j, Corner (S i) (S j)); (Corner i j, Corner i (S j), Corner (S i) (S j))]
       else [(Corner i j, Corner (S i) j, Corner i (S j)); (Corner (S i) j, Corner i (S j), Corner (S i) (S j))]) by (destruct dg; done).
    rewrite HS. destruct (is_right dg i j).
    + destruct (Rle_dec Y X).
      * exists (Corner i j, Corner (S i) j, Corner (S i) (S j)). do 3 eexists. split; [rewrite !elem_of_cons; tauto|]. split; [left; split; [done|]; split; [done|]; left; done|lra].
      * exists (Corner i j, Corner i (S j), Corner (S i) (S j)). do 3 eexists. split; [rewrite !elem_of_cons; tauto|]. split; [left; split; [done|]; split; [done|]; right; done|lra].
    + destruct (Rle_dec (X + Y) 1).
      * exists (Corner i j, Corner (S i) j, Corner i (S j)). do 3 eexists. split; [rewrite !elem_of_cons; tauto|]. split; [right; left; split; [done|]; split; [done|]; left; done|lra].
      * exists (Corner (S i) j, Corner i (S j), Corner (S i) (S j)). do 3 eexists. split; [rewrite !elem_of_cons; tauto|]. split; [right; left; split; [done|]; split; [done|]; right; done|lra].
Qed.

Section Fill.
Context (num : nat * nat -> nat) (nx ny : nat) (x0 x1 y0 y1 : R) (dg : diagonal)
        (Hnx : (1 <= nx)%nat) (Hny : (1 <= ny)%nat) (Hx : x0 < x1) (Hy : y0 < y1).
Let pos := gpos nx ny x0 x1 y0 y1.
Let dx := (x1 - x0) / INR nx.
Let dy := (y1 - y0) / INR ny.

(** The weights give the place. *)
Lemma local_place a b d i j X Y s t u : Local dg (a, b, d) i j X Y s t u ->
  s * co (pos a) 0 + t * co (pos b) 0 + u * co (pos d) 0 = x0 + (INR i + X) * dx /\
  s * co (pos a) 1 + t * co (pos b) 1 + u * co (pos d) 1 = y0 + (INR j + Y) * dy.
Proof.
  intros H. destruct (rect_pos nx ny x0 x1 y0 y1 Hnx Hny Hx Hy) as (Pc & Pm & _ & _). fold pos in Pc, Pm. fold dx dy in Pc, Pm.
  local_cases H; injection G as -> -> ->; rewrite ?Pc, ?Pm; unfold co; cbn [nth]; rewrite ?S_INR, S, T, U; split; field.
Qed.
(** The place gives the weights. *)
Lemma place_local a b d sg i j s t u x : ((a, b, d), sg) ∈ signed_square dg i j -> s + t + u = 1 ->
  (forall k, (k < 2)%nat -> co x k = s * co (pos a) k + t * co (pos b) k + u * co (pos d) k) ->
  exists X Y, Local dg (a, b, d) i j X Y s t u /\ co x 0 = x0 + (INR i + X) * dx /\ co x 1 = y0 + (INR j + Y) * dy.
Proof.
  intros H H1 Hc. assert (exists X Y, Local dg (a, b, d) i j X Y s t u) as (X & Y & HL).
  { unfold Local. destruct (square_kinds _ _ _ _ _ H) as [(E & R & [[E1 ->]|[E1 ->]])|[(E & R & [[E1 ->]|[E1 ->]])|(E & [[E1 ->]|[[E1 ->]|[[E1 ->]|[E1 ->]]]])]].
    - exists (1 - s), u. left. split; [done|]. split; [done|]. left. split; [done|lra].
    - exists u, (1 - s). left. split; [done|]. split; [done|]. right. split; [done|lra].
    - exists t, u. right. left. split; [done|]. split; [done|]. left. split; [done|lra].
    - exists (1 - t), (1 - s). right. left. split; [done|]. split; [done|]. right. split; [done|lra].
    - exists (t + u / 2), (u / 2). right. right. split; [done|]. left. split; [done|lra].
    - exists (u / 2), (t + u / 2). right. right. split; [done|]. right. left. split; [done|lra].
    - exists (1 - u / 2), (t + u / 2). right. right. split; [done|]. right. right. left. split; [done|lra].
    - exists (t + u / 2), (1 - u / 2). right. right. split; [done|]. right. right. right. split; [done|lra]. }
  exists X, Y. split; [exact HL|]. rewrite (Hc 0%nat), (Hc 1%nat) by lia. by apply local_place.
Qed.
End Fill.

(** C55: the cells of the mesh of a rectangle fill the rectangle, all of it and nothing else, and do not overlap: a point inside a cell
    and on none of its facets is in no other cell. *)
Theorem C55_rectangle_filled num nx ny x0 x1 y0 y1 dg ix0 ix1 iy0 iy1 m : (1 <= nx)%nat -> (1 <= ny)%nat -> x0 < x1 -> y0 < y1 ->
  Numbering num (rect_tris nx ny (default RightDiag dg)) -> xyz_rect_mesh num nx ny x0 x1 y0 y1 dg ix0 ix1 iy0 iy1 = Ok m ->
  forall x, length x = 2%nat ->
    ((exists c cr, cells m c = Some cr /\ InCell 2 cr x) <-> x0 <= co x 0 <= x1 /\ y0 <= co x 1 <= y1) /\
    (forall c c' cr cr', cells m c = Some cr -> cells m c' = Some cr' -> Interior 2 cr x -> InCell 2 cr' x -> c = c').
Proof.
  intros Hnx Hny Hx Hy Hnum E x Lx. destruct (C55_rectangle num nx ny x0 x1 y0 y1 dg ix0 ix1 iy0 iy1 Hnx Hny Hx Hy Hnum) as (m' & E' & Hd & HC & _).
  rewrite E in E'. injection E' as <-.
  unfold xyz_rect_mesh in E. cbv zeta in E. set (d := default RightDiag dg) in *. clearbody d. clear dg.
  pose proof (rect_triangulation num nx ny x0 x1 y0 y1 d Hnx Hny Hx Hy Hnum) as HT.
  destruct (tri_mesh_ok num _ _ (rect_marker num nx ny x0 x1 y0 y1 d ix0 ix1 iy0 iy1) HT) as (m' & E' & _ & _ & _ & _ & Hall). rewrite E in E'. injection E' as <-.
  pose proof (rect_oriented nx ny x0 x1 y0 y1 d Hnx Hny Hx Hy) as HO.
  pose proof (fun c cr => grid_cell nx ny d _ num _ m c cr (pos_len nx ny x0 x1 y0 y1) HO Hnum E) as HG.
  destruct (rect_pos nx ny x0 x1 y0 y1 Hnx Hny Hx Hy) as (_ & _ & Hdx & Hdy).
  pose proof (local_place nx ny x0 x1 y0 y1 d Hnx Hny Hx Hy) as LP. pose proof (place_local nx ny x0 x1 y0 y1 d Hnx Hny Hx Hy) as PL. cbv zeta in LP, PL.
  set (dx := (x1 - x0) / INR nx) in *. set (dy := (y1 - y0) / INR ny) in *.
  assert (Ex : x0 + INR nx * dx = x1) by (unfold dx; field; apply not_0_INR; lia).
  assert (Ey : y0 + INR ny * dy = y1) by (unfold dy; field; apply not_0_INR; lia).
  clearbody dx dy.
  assert (Hln : forall z n, (z < n)%nat -> INR z + 1 <= INR n) by (intros z n Hz; rewrite <- S_INR; apply le_INR; lia).
  assert (HP : forall c cr, cells m c = Some cr -> InCell 2 cr x -> exists k g i j X Y s t u, c = Z.of_nat k /\ rect_gtris nx ny d !! k = Some g /\
    (i < nx)%nat /\ (j < ny)%nat /\ Local d g i j X Y s t u /\ 0 <= s /\ 0 <= t /\ 0 <= u /\
    co x 0 = x0 + (INR i + X) * dx /\ co x 1 = y0 + (INR j + Y) * dy).
  { intros c cr Hc HI. pose proof (cf_simplex _ HC c cr Hc) as HS. rewrite Hd in HS. pose proof (in_cell_hull 2 cr x HS Lx HI) as HH.
    destruct (HG c cr Hc) as (k & a & b & g & sg & i & j & -> & Ek & Hi & Hj & Hsq & Hv & _). rewrite Hv in HH.
    apply hull3 in HH as (s & t & u & Hs & Ht & Hu & H1 & Hco). destruct (PL a b g sg i j s t u x Hsq H1 Hco) as (X & Y & HL & C0 & C1).
    by exists k, (a, b, g), i, j, X, Y, s, t, u. }
  split; [split|].
  - intros (c & cr & Hc & HI). destruct (HP c cr Hc HI) as (k & g & i & j & X & Y & s & t & u & -> & Ek & Hi & Hj & HL & Hs & Ht & Hu & C0 & C1).
    destruct (local_unit _ _ _ _ _ _ _ _ _ HL Hs Ht Hu) as [HX HY]. rewrite C0, C1, <- Ex, <- Ey.
    pose proof (Hln _ _ Hi). pose proof (Hln _ _ Hj). pose proof (pos_INR i). pose proof (pos_INR j). split; split; nra.
  - intros [Hx' Hy'].
    destruct (between ((co x 0 - x0) / dx) nx Hnx) as (i & Hi & Hi').
    { split; [apply Rmult_le_pos; [lra|apply Rlt_le, Rinv_0_lt_compat; lra]|]. apply Rmult_le_reg_r with dx; [lra|].
      unfold Rdiv. rewrite Rmult_assoc, Rinv_l by lra. lra. }
    destruct (between ((co x 1 - y0) / dy) ny Hny) as (j & Hj & Hj').
    { split; [apply Rmult_le_pos; [lra|apply Rlt_le, Rinv_0_lt_compat; lra]|]. apply Rmult_le_reg_r with dy; [lra|].
      unfold Rdiv. rewrite Rmult_assoc, Rinv_l by lra. lra. }
    destruct (local_exists d i j ((co x 0 - x0) / dx - INR i) ((co x 1 - y0) / dy - INR j)) as ([[a b] g] & s & t & u & Hin & HL & Hs & Ht & Hu); [lra..|].
    assert (Hg : (a, b, g) ∈ rect_gtris nx ny d) by (apply gtris_in; by exists i, j). apply elem_of_list_lookup in Hg as [k Hk].
    destruct (Hall k) as [cr Hcr]; [unfold rect_tris; rewrite map_length; by eapply lookup_lt_Some|].
    exists (Z.of_nat k), cr. split; [exact Hcr|]. pose proof (cf_simplex _ HC _ _ Hcr) as HS. rewrite Hd in HS. apply (hull_in_cell 2 cr x HS Lx).
    destruct (HG _ _ Hcr) as (k' & a' & b' & g' & _ & _ & _ & Hk' & Ek & _ & _ & _ & Hv & _). assert (k' = k) as -> by lia. rewrite Hk in Ek. injection Ek as <- <- <-.
    rewrite Hv. apply hull3. exists s, t, u. split_and!; try assumption; [by eapply local_sum|]. destruct (LP a b g i j _ _ s t u HL) as [P0 P1].
    apply lt2. rewrite P0, P1. split; field; lra.
  - intros c c' cr cr' Hc Hc' HI HI'. destruct (HP c' cr' Hc' HI') as (k' & g' & i' & j' & X' & Y' & s' & t' & u' & -> & Ek' & Hi' & Hj' & HL' & Hs' & Ht' & Hu' & C0' & C1').
    pose proof (cf_simplex _ HC c cr Hc) as HS. rewrite Hd in HS.
    destruct (HG c cr Hc) as (k & a & b & g & sg & i & j & -> & Ek & Hi & Hj & Hsq & Hv & _).
    destruct (interior_weights cr _ _ _ x HS Hv Lx HI) as (s & t & u & Hs & Ht & Hu & H1 & Hco).
    destruct (PL a b g sg i j s t u x Hsq H1 Hco) as (X & Y & HL & C0 & C1).
    destruct (local_open _ _ _ _ _ _ _ _ _ HL Hs Ht Hu) as [HX HY]. destruct (local_unit _ _ _ _ _ _ _ _ _ HL' Hs' Ht' Hu') as [HX' HY'].
    assert (EX : INR i + X = INR i' + X') by nra. assert (EY : INR j + Y = INR j' + Y') by nra.
    assert (i = i') as <- by (destruct (lt_eq_lt_dec i i') as [[H|H]|H]; [pose proof (Hln _ _ H); lra|exact H|pose proof (Hln _ _ H); lra]).
    assert (j = j') as <- by (destruct (lt_eq_lt_dec j j') as [[H|H]|H]; [pose proof (Hln _ _ H); lra|exact H|pose proof (Hln _ _ H); lra]).
    assert (X' = X) as -> by lra. assert (Y' = Y) as -> by lra.
    assert ((a, b, g) = g') as <- by exact (local_one d _ _ i j X Y s t u s' t' u' HL HL' Hs Ht Hu Hs' Ht' Hu').
    f_equal. exact (NoDup_lookup _ _ _ _ (gtris_nodup nx ny d) Ek Ek').
Qed.

(** A point of the rectangle from (0, 0) to (4, 1), and one outside. *)
Example C55_filled_2_1 : exists m, xyz_rect_mesh Cantor.to_nat 2 1 0 4 0 1 (Some LeftDiag) 1 2 3 4 = Ok m /\
  (exists c cr, cells m c = Some cr /\ InCell 2 cr [3; / 2]) /\ ~ (exists c cr, cells m c = Some cr /\ InCell 2 cr [3; 2]).
Proof.
  destruct (C55_rectangle Cantor.to_nat 2 1 0 4 0 1 (Some LeftDiag) 1 2 3 4) as (m & E & _); [lia|lia|lra|lra|apply cantor_numbering|].
  exists m. split; [exact E|].
  pose proof (fun x => C55_rectangle_filled Cantor.to_nat 2 1 0 4 0 1 (Some LeftDiag) 1 2 3 4 m ltac:(lia) ltac:(lia) ltac:(lra) ltac:(lra) (cantor_numbering _) E x) as HF.
  split.
  - apply (HF [3; / 2] eq_refl). unfold co. cbn [nth]. lra.
  - intros H. apply (HF [3; 2] eq_refl) in H. unfold co in H. cbn [nth] in H. lra.
Qed.
Print Assumptions C55_rectangle_filled.
