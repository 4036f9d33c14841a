(** C55: triangle meshes have the properties that the tracking theorems ask for. *)
From stdpp Require Import list_numbers.
From Coq Require Cantor.
From Verif Require Import Vec VecProofs TrackModel BcModel Geometry FindFacetProps Conforming MeshModel MeshProps InsideModel InsideProps.
From Verif Require Import TriMeshModel.
Local Open Scope R_scope.

(** ** What is meant *)

(** Side [i] of triangle [t] is the edge from [u] to [v], opposite the vertex [o]. *)
Definition Side (t : tri) (i o u v : nat) : Prop := let '(a, b, d) := t in
  (i = 0 /\ o = a /\ u = b /\ v = d)%nat \/ (i = 1 /\ o = b /\ u = a /\ v = d)%nat \/ (i = 2 /\ o = d /\ u = a /\ v = b)%nat.

(** The numbers of the edges are different. *)
Definition Numbering (num : nat * nat -> nat) (ts : list tri) : Prop :=
  forall t t' e e', t ∈ ts -> t' ∈ ts -> e ∈ tri_edges t -> e' ∈ tri_edges t' -> num e = num e' -> e = e'.
(** A triangulation: the triangles are different, have ascending vertices that exist and do not lie on a line, the edges have
    different numbers, and two triangles with a common edge lie on different sides of it. *)
Record Triangulation (num : nat * nat -> nat) (xs : list vec) (ts : list tri) : Prop := {
  tr_distinct : NoDup ts;
  tr_points : forall i p, xs !! i = Some p -> length p = 2%nat;
  tr_cell : forall a b d, (a, b, d) ∈ ts -> (a < b < d)%nat /\
    exists p q r, xs !! a = Some p /\ xs !! b = Some q /\ xs !! d = Some r /\ orient2d p q r <> 0;
  tr_num : Numbering num ts;
  tr_sides : forall t t' i i' o o' u v po po' pu pv, t ∈ ts -> t' ∈ ts -> t <> t' -> Side t i o u v -> Side t' i' o' u v ->
    xs !! o = Some po -> xs !! o' = Some po' -> xs !! u = Some pu -> xs !! v = Some pv ->
    orient2d po pu pv * orient2d po' pu pv < 0
}.

(** ** Normals *)
Definition sgn (x : R) : R := if Rltb 0 x then 1 else -1.
Lemma sgn_sq x : sgn x * sgn x = 1.
Proof. unfold sgn. destruct (Rltb 0 x); lra. Qed.
Lemma sgn_abs x : x <> 0 -> sgn x * x = Rabs x.
Proof.
  intros H. unfold sgn. destruct (Rltb 0 x) eqn:E; [apply Rltb_true in E; rewrite Rabs_right; lra|].
  apply Rltb_false in E. rewrite Rabs_left; lra.
Qed.
Lemma sgn_opp a b : a * b < 0 -> sgn a = - sgn b.
Proof.
  intros H. unfold sgn. destruct (Rltb 0 a) eqn:E, (Rltb 0 b) eqn:F; try lra.
  - apply Rltb_true in E, F. nra.
  - apply Rltb_false in E, F. nra.
Qed.

Lemma tri_normal_eq ox oy ux uy vx vy : let D := orient2d [ox; oy] [ux; uy] [vx; vy] in D <> 0 ->
  let L := R_sqrt.sqrt ((vx - ux) * (vx - ux) + (vy - uy) * (vy - uy)) in
  0 < L /\ L * L = (vx - ux) * (vx - ux) + (vy - uy) * (vy - uy) /\
  tri_normal [ox; oy] [ux; uy] [vx; vy] = [sgn D * (vy - uy) / L; - (sgn D * (vx - ux) / L)].
Proof.
  intros D HD L.
  assert (HD' : D = (ox - vx) * (uy - vy) - (oy - vy) * (ux - vx)) by reflexivity.
  assert (HQ : 0 < (vx - ux) * (vx - ux) + (vy - uy) * (vy - uy)).
  { pose proof (Rle_0_sqr (vx - ux)) as S1. pose proof (Rle_0_sqr (vy - uy)) as S2. unfold Rsqr in S1, S2.
    destruct (Req_dec (vx - ux) 0) as [E1|E1]; [|pose proof (Rsqr_pos_lt _ E1); unfold Rsqr in *; lra].
    destruct (Req_dec (vy - uy) 0) as [E2|E2]; [|pose proof (Rsqr_pos_lt _ E2); unfold Rsqr in *; lra].
    exfalso. apply HD. rewrite HD'. replace (uy - vy) with 0 by lra. replace (ux - vx) with 0 by lra. ring. }
  assert (HL : 0 < L) by (by apply sqrt_lt_R0).
  assert (HLL : L * L = (vx - ux) * (vx - ux) + (vy - uy) * (vy - uy)) by (apply sqrt_sqrt; lra).
  split; [exact HL|]. split; [exact HLL|].
  assert (HN : norm2 (vsub exact [vx; vy] [ux; uy]) = L) by (unfold norm2; cbn; unfold exact; by rewrite Rplus_0_l).
  unfold tri_normal. cbv zeta. rewrite HN.
  assert (HT : (vy - uy) * (vy - uy) = L * L - (vx - ux) * (vx - ux)) by lra.
  assert (Hn : vsub exact (vsub exact [vx; vy] [ox; oy])
    (vscale exact (vdot exact (vscale exact (/ L) (vsub exact [vx; vy] [ux; uy])) (vsub exact [vx; vy] [ox; oy])) (vscale exact (/ L) (vsub exact [vx; vy] [ux; uy])))
    = [D / (L * L) * (vy - uy); - (D / (L * L) * (vx - ux))]).
  { cbn. unfold exact. rewrite HD'. f_equal; [|f_equal].
    - apply (Rmult_eq_reg_r (L * L)); [|nra].
      transitivity ((vx - ox) * (L * L) - ((vx - ux) * (vx - ox) + (vy - uy) * (vy - oy)) * (vx - ux)); [field; lra|]. rewrite HLL.
      transitivity (((ox - vx) * (uy - vy) - (oy - vy) * (ux - vx)) * (vy - uy)); [ring|]. field. lra.
    - apply (Rmult_eq_reg_r (L * L)); [|nra].
      transitivity ((vy - oy) * (L * L) - ((vx - ux) * (vx - ox) + (vy - uy) * (vy - oy)) * (vy - uy)); [field; lra|]. rewrite HLL.
      transitivity (- (((ox - vx) * (uy - vy) - (oy - vy) * (ux - vx)) * (vx - ux))); [ring|]. field. lra. }
  rewrite Hn.
  assert (Hnn : norm2 [D / (L * L) * (vy - uy); - (D / (L * L) * (vx - ux))] = Rabs D / L).
  { unfold norm2. cbn. unfold exact. rewrite <- (sqrt_Rsqr (Rabs D / L)).
    - f_equal. unfold Rsqr. replace (Rabs D / L * (Rabs D / L)) with (Rabs D * Rabs D / (L * L)) by (field; lra).
      rewrite <- Rabs_mult, (Rabs_right (D * D)) by nra.
      replace (0 + _ + _) with (D * D / (L * L) / (L * L) * ((vx - ux) * (vx - ux) + (vy - uy) * (vy - uy))) by (field; lra).
      rewrite <- HLL. field. lra.
    - apply Rmult_le_pos; [apply Rabs_pos|]. left. by apply Rinv_0_lt_compat. }
  rewrite Hnn. rewrite <- (sgn_abs D HD). cbn. unfold exact.
  assert (Hs : sgn D <> 0) by (pose proof (sgn_sq D); intros E; rewrite E in *; lra).
  assert (Hi : / sgn D = sgn D) by (apply (Rmult_eq_reg_r (sgn D)); [rewrite Rinv_l, sgn_sq by done; reflexivity|done]).
  rewrite <- Hi at 2 3. f_equal; [|f_equal]; field; split_and!; lra.
Qed.

Lemma orient2d_2 ax ay bx by_ cx cy : orient2d [ax; ay] [bx; by_] [cx; cy] = (ax - cx) * (by_ - cy) - (ay - cy) * (bx - cx).
Proof. reflexivity. Qed.
(** The normal of a facet: a unit vector, orthogonal to the facet, that points away from the opposite vertex. *)
Lemma tri_normal_ok o u v : length o = 2%nat -> length u = 2%nat -> length v = 2%nat -> orient2d o u v <> 0 ->
  let n := tri_normal o u v in
  length n = 2%nat /\ dot n n = 1 /\ dot n u = dot n v /\ dot n o < dot n u.
Proof.
  intros (ox & oy & ->)%len2 (ux & uy & ->)%len2 (vx & vy & ->)%len2 HD n. subst n.
  destruct (tri_normal_eq ox oy ux uy vx vy HD) as (HL & HLL & ->). set (L := R_sqrt.sqrt _) in *. set (D := orient2d _ _ _) in *.
  split; [done|]. rewrite !dot2. pose proof (sgn_sq D) as Hs. split; [|split].
  - transitivity (sgn D * sgn D * (((vx - ux) * (vx - ux) + (vy - uy) * (vy - uy)) / (L * L))); [field; lra|]. rewrite <- HLL, Hs. field. lra.
  - field. lra.
  - enough (0 < (sgn D * (vy - uy) / L) * (ux - ox) + - (sgn D * (vx - ux) / L) * (uy - oy)) by lra.
    replace (_ + _) with (sgn D * D / L) by (unfold D; rewrite orient2d_2; field; lra).
    rewrite sgn_abs by exact HD. apply Rdiv_lt_0_compat; [|exact HL]. by apply Rabs_pos_lt.
Qed.
Lemma tri_normal_opp o o' u v : length o = 2%nat -> length o' = 2%nat -> length u = 2%nat -> length v = 2%nat ->
  orient2d o u v * orient2d o' u v < 0 -> tri_normal o' u v = vscale exact (-1) (tri_normal o u v).
Proof.
  intros (ox & oy & ->)%len2 (ox' & oy' & ->)%len2 (ux & uy & ->)%len2 (vx & vy & ->)%len2 HD.
  destruct (tri_normal_eq ox oy ux uy vx vy) as (_ & _ & ->); [intros E; rewrite E in HD; lra|].
  destruct (tri_normal_eq ox' oy' ux uy vx vy) as (HL & _ & ->); [intros E; rewrite E in HD; lra|].
  rewrite (sgn_opp _ _ HD). cbn. unfold exact. f_equal; [|f_equal]; field; lra.
Qed.

(** ** The tables *)
Section Tables.
Context (num : nat * nat -> nat) (xs : list vec) (ts : list tri) (HT : Triangulation num xs ts).

Lemma side_edge t i u v : tri_edges t !! i = Some (u, v) <-> exists o, Side t i o u v.
Proof using.
  destruct t as [[a b] d]. cbn [tri_edges Side]. split.
  - destruct i as [|[|[|i]]]; cbn; intros E; simplify_eq; [exists a|exists b|exists d]; tauto.
  - intros (o & [(-> & -> & -> & ->)|[(-> & -> & -> & ->)|(-> & -> & -> & ->)]]); reflexivity.
Qed.
Lemma facets_at c t i f : ts !! c = Some t -> tri_facets num ts c !! i = Some f <-> exists o u v, Side t i o u v /\ f = num (u, v).
Proof using.
  intros E. unfold tri_facets. rewrite E. change (map num (tri_edges t)) with (num <$> tri_edges t). rewrite (list_lookup_fmap num (tri_edges t) i). split.
  - destruct (tri_edges t !! i) as [[u v]|] eqn:Ee; cbn; [|discriminate]. intros [= <-]. apply side_edge in Ee as [o Ho]. by exists o, u, v.
  - intros (o & u & v & Ho & ->). rewrite (proj2 (side_edge t i u v)) by (by exists o). reflexivity.
Qed.
Lemma facet_in c f : f ∈ tri_facets num ts c <-> exists t i o u v, ts !! c = Some t /\ Side t i o u v /\ f = num (u, v).
Proof using.
  destruct (ts !! c) as [t|] eqn:E.
  - rewrite elem_of_list_lookup. split.
    + intros [i Hi]. apply (facets_at c t i f E) in Hi as (o & u & v & Ho & ->). by exists t, i, o, u, v.
    + intros (t' & i & o & u & v & [= <-] & Ho & ->). exists i. apply (facets_at c t i _ E). by exists o, u, v.
  - unfold tri_facets. rewrite E. rewrite elem_of_nil. split; [done|]. by intros (? & ? & ? & ? & ? & ? & _).
Qed.
Lemma attached_in c f : c ∈ t_cells (tri_topo num ts) f <-> f ∈ tri_facets num ts c.
Proof using.
  cbn [tri_topo t_cells]. rewrite elem_of_list_filter, elem_of_seq. split; [tauto|]. intros H. split; [exact H|].
  apply facet_in in H as (t & _ & _ & _ & _ & E & _). apply lookup_lt_Some in E. lia.
Qed.
Lemma side_in_edges t i o u v : Side t i o u v -> (u, v) ∈ tri_edges t.
Proof using. intros H. apply (elem_of_list_lookup_2 _ i). apply side_edge. by exists o. Qed.
(** Two cells with a common facet. *)
Lemma common c c' t t' f : c <> c' -> ts !! c = Some t -> ts !! c' = Some t' -> f ∈ tri_facets num ts c -> f ∈ tri_facets num ts c' ->
  t <> t' /\ exists i i' o o' u v, Side t i o u v /\ Side t' i' o' u v /\ f = num (u, v).
Proof using HT.
  intros Hne E E' (t1 & i & o & u & v & E1 & Ho & ->)%facet_in (t2 & i' & o' & u' & v' & E2 & Ho' & Hf)%facet_in.
  rewrite E in E1. injection E1 as <-. rewrite E' in E2. injection E2 as <-. split.
  - intros <-. apply Hne. exact (NoDup_lookup _ _ _ _ (tr_distinct _ _ _ HT) E E').
  - assert ((u, v) = (u', v')) as [= <- <-].
    { apply (tr_num _ _ _ HT t t'); try (by eapply elem_of_list_lookup_2); try (by eapply side_in_edges); assumption. }
    by exists i, i', o, o', u, v.
Qed.
(** The vertices of a side exist. *)
Lemma side_points t i o u v : t ∈ ts -> Side t i o u v -> exists po pu pv, xs !! o = Some po /\ xs !! u = Some pu /\ xs !! v = Some pv /\
  length po = 2%nat /\ length pu = 2%nat /\ length pv = 2%nat /\ orient2d po pu pv <> 0 /\ (u < v)%nat /\ o <> u /\ o <> v.
Proof using HT.
  destruct t as [[a b] d]. intros Ht Hs. destruct (tr_cell _ _ _ HT a b d Ht) as (Hlt & p & q & r & Ep & Eq & Er & HD).
  pose proof (tr_points _ _ _ HT _ _ Ep) as Lp. pose proof (tr_points _ _ _ HT _ _ Eq) as Lq. pose proof (tr_points _ _ _ HT _ _ Er) as Lr.
  assert (HD1 : orient2d q p r <> 0 /\ orient2d r p q <> 0).
  { unfold orient2d in *. split; intros E; apply HD; lra. }
  destruct Hs as [(-> & -> & -> & ->)|[(-> & -> & -> & ->)|(-> & -> & -> & ->)]].
  - exists p, q, r. split_and!; try done; lia.
  - exists q, p, r. split_and!; try done; try lia; tauto.
  - exists r, p, q. split_and!; try done; try lia; tauto.
Qed.

Lemma no_three a b d : a * b < 0 -> b * d < 0 -> a * d < 0 -> False.
Proof using. clear. intros. destruct (Rlt_le_dec a 0), (Rlt_le_dec b 0), (Rlt_le_dec d 0); nra. Qed.
Lemma tri_simplicial : Simplicial (tri_topo num ts) 2.
Proof using HT.
  split; cbn [tri_topo t_ncell t_facets].
  - intros c Hc. unfold tri_facets. destruct (ts !! c) as [[[a b] d]|] eqn:E; [done|]. apply lookup_ge_None in E. lia.
  - intros c Hc. destruct (ts !! c) as [t|] eqn:E; [|apply lookup_ge_None in E; lia].
    pose proof (elem_of_list_lookup_2 _ _ _ E) as Ht.
    apply NoDup_alt. intros i i' f Hi Hi'.
    apply (facets_at c t _ _ E) in Hi as (o & u & v & Ho & ->). apply (facets_at c t _ _ E) in Hi' as (o' & u' & v' & Ho' & Hf).
    apply (tr_num _ _ _ HT t t) in Hf; try assumption; try (by eapply side_in_edges). injection Hf as <- <-.
    destruct t as [[a b] d]. destruct (tr_cell _ _ _ HT a b d Ht) as [Hlt _].
    destruct Ho as [(-> & -> & -> & ->)|[(-> & -> & -> & ->)|(-> & -> & -> & ->)]],
      Ho' as [(-> & ? & ? & ?)|[(-> & ? & ? & ?)|(-> & ? & ? & ?)]]; try reflexivity; lia.
  - intros c f _. symmetry. apply attached_in.
  - intros f. cbn. apply list.NoDup_filter, NoDup_seq.
  - intros f. destruct (t_cells (tri_topo num ts) f) as [|x [|y [|z l]]] eqn:E; cbn; try lia. exfalso.
    assert (Hnd : NoDup (x :: y :: z :: l)) by (rewrite <- E; cbn; apply list.NoDup_filter, NoDup_seq).
    assert (Hin : forall w, w ∈ x :: y :: z :: l -> f ∈ tri_facets num ts w) by (intros w Hw; apply attached_in; by rewrite E).
    apply list.NoDup_cons in Hnd as [Hx Hnd]. apply list.NoDup_cons in Hnd as [Hy _].
    assert (Hxy : x <> y) by (intros ->; apply Hx; left). assert (Hxz : x <> z) by (intros ->; apply Hx; right; left).
    assert (Hyz : y <> z) by (intros ->; apply Hy; left).
    pose proof (Hin x ltac:(left)) as Fx. pose proof (Hin y ltac:(right; left)) as Fy. pose proof (Hin z ltac:(right; right; left)) as Fz.
    pose proof Fx as (tx & _ & _ & _ & _ & Ex & _)%facet_in. pose proof Fy as (ty & _ & _ & _ & _ & Ey & _)%facet_in. pose proof Fz as (tz & _ & _ & _ & _ & Ez & _)%facet_in.
    destruct (common x y tx ty f Hxy Ex Ey Fx Fy) as (Nxy & ix & iy & ox & oy & u & v & Sx & Sy & Hf).
    destruct (common x z tx tz f Hxz Ex Ez Fx Fz) as (Nxz & ix' & iz & ox' & oz & u' & v' & Sx' & Sz & Hf').
    assert (Nyz : ty <> tz) by (intros <-; apply Hyz; exact (NoDup_lookup _ _ _ _ (tr_distinct _ _ _ HT) Ey Ez)).
    apply elem_of_list_lookup_2 in Ex, Ey, Ez.
    assert ((u, v) = (u', v')) as [= <- <-].
    { apply (tr_num _ _ _ HT tx tx); try assumption; try (by eapply side_in_edges). by rewrite <- Hf. }
    destruct (side_points tx ix ox u v Ex Sx) as (px & pu & pv & Px & Pu & Pv & _).
    destruct (side_points ty iy oy u v Ey Sy) as (py & pu' & pv' & Py & Pu' & Pv' & _).
    destruct (side_points tz iz oz u v Ez Sz) as (pz & pu'' & pv'' & Pz & Pu'' & Pv'' & _).
    assert (pu' = pu) as -> by congruence. assert (pv' = pv) as -> by congruence.
    assert (pu'' = pu) as -> by congruence. assert (pv'' = pv) as -> by congruence.
    apply (no_three (orient2d px pu pv) (orient2d py pu pv) (orient2d pz pu pv)).
    + by apply (tr_sides _ _ _ HT tx ty ix iy ox oy u v).
    + by apply (tr_sides _ _ _ HT ty tz iy iz oy oz u v).
    + by apply (tr_sides _ _ _ HT tx tz ix iz ox oz u v).
  - intros f c Hc. apply attached_in, facet_in in Hc as (t & _ & _ & _ & _ & E & _). by apply lookup_lt_Some in E.
Qed.
End Tables.

(** ** The cells *)
Lemma mapM_some {A B} (f : A -> B) (l : list A) : mapM (fun e : option B => e) (map (fun a => Some (f a)) l) = Some (map f l).
Proof. induction l as [|a l IH]; [reflexivity|]. cbn [mapM map]. cbn [mbind option_bind]. rewrite IH. reflexivity. Qed.

Lemma tri_facets_at num ts k t : ts !! k = Some t -> tri_facets num ts k = map num (tri_edges t).
Proof. intros E. unfold tri_facets. by rewrite E. Qed.
(** What the cells of a triangle mesh are: [nb] are the neighbours. *)
Definition TriCell (num : nat * nat -> nat) (xs : list vec) (ts : list tri) (c : Z) (cr : cellrec) : Prop := exists k a b d p q r nb,
  c = Z.of_nat k /\ ts !! k = Some (a, b, d) /\ xs !! a = Some p /\ xs !! b = Some q /\ xs !! d = Some r /\
  length p = 2%nat /\ length q = 2%nat /\ length r = 2%nat /\ orient2d p q r <> 0 /\
  cr = CellRec [p; q; r] (tri_normals p q r) (map Z.of_nat [num (b, d); num (a, d); num (a, b)]) nb /\ length nb = 3%nat /\
  forall i o u v, Side (a, b, d) i o u v ->
    (forall k', nb !! i = Some (Z.of_nat k') <-> k' <> k /\ num (u, v) ∈ tri_facets num ts k') /\
    (nb !! i = Some (-1)%Z <-> t_cells (tri_topo num ts) (num (u, v)) = [k]) /\
    (forall z, nb !! i = Some z -> z = (-1)%Z \/ exists k', z = Z.of_nat k').

Lemma tri_mesh_ok num xs ts mk : Triangulation num xs ts -> exists m, tri_mesh num xs ts mk = Ok m /\ gdim m = 2%nat /\ marker m = mk /\
  inside m = tri_inside xs ts /\ (forall c cr, cells m c = Some cr -> TriCell num xs ts c cr) /\
  (forall k, (k < length ts)%nat -> exists cr, cells m (Z.of_nat k) = Some cr).
Proof.
  intros HT. pose proof (tri_simplicial num xs ts HT) as HS. pose proof (dict_ok _ _ HS) as E.
  destruct (C34_table _ _ HS) as (rows & E' & Hl & Hrow & Htab). rewrite E in E'.
  unfold tri_mesh. rewrite E. injection E' as Er. eexists. split; [reflexivity|]. split; [done|]. split; [done|]. split; [done|]. cbn [cells].
  set (value := fun c f => match attached (tri_topo num ts) c f with b :: _ => Z.of_nat b | [] => NO_CELL_INDEX end) in *.
  assert (Hat : forall k t, ts !! k = Some t ->
    map (fun c => map (fun f => Some (value c f)) (t_facets (tri_topo num ts) c)) (seq 0 (t_ncell (tri_topo num ts))) !! k =
      Some (map (fun f => Some (value k f)) (map num (tri_edges t)))).
  { intros k t Ek. pose proof (lookup_lt_Some _ _ _ Ek) as Hk. rewrite (list_lookup_fmap _ (seq 0 _) k), lookup_seq_lt by exact Hk. cbn [fmap option_fmap option_map].
    do 2 f_equal. cbn [tri_topo t_facets Nat.add]. unfold tri_facets. by rewrite Ek. }
  assert (Hcell : forall k a b d, ts !! k = Some (a, b, d) -> exists p q r, xs !! a = Some p /\ xs !! b = Some q /\ xs !! d = Some r /\
    length p = 2%nat /\ length q = 2%nat /\ length r = 2%nat /\ orient2d p q r <> 0).
  { intros k a b d Ek. apply elem_of_list_lookup_2 in Ek. destruct (tr_cell _ _ _ HT a b d Ek) as (_ & p & q & r & Ep & Eq & Er' & HD).
    exists p, q, r. split_and!; try done; by eapply (tr_points _ _ _ HT). }
  assert (Hval : forall k a b d p q r, ts !! k = Some (a, b, d) -> xs !! a = Some p -> xs !! b = Some q -> xs !! d = Some r ->
    tri_cell num xs ts (map (fun c => map (fun f => Some (value c f)) (t_facets (tri_topo num ts) c)) (seq 0 (t_ncell (tri_topo num ts)))) (Z.of_nat k) =
    Some (CellRec [p; q; r] (tri_normals p q r) (map Z.of_nat [num (b, d); num (a, d); num (a, b)]) (map (value k) [num (b, d); num (a, d); num (a, b)]))).
  { intros k a b d p q r Ek Ep Eq Er'. unfold tri_cell. replace (Z.of_nat k <? 0)%Z with false by lia. rewrite Nat2Z.id, (Hat k _ Ek), (tri_facets_at num ts k (a, b, d) Ek). rewrite Ek. cbn [mbind option_bind]. rewrite Ep, Eq, Er'.
    cbn [mbind option_bind]. rewrite mapM_some. reflexivity. }
  split.
  - intros c cr Hc. assert (exists k, c = Z.of_nat k) as [k ->].
    { unfold tri_cell in Hc. destruct (c <? 0)%Z eqn:E0; [discriminate|]. exists (Z.to_nat c). lia. }
    destruct (ts !! k) as [[[a b] d]|] eqn:Ek.
    2: { unfold tri_cell in Hc. rewrite Nat2Z.id, Ek in Hc. replace (Z.of_nat k <? 0)%Z with false in Hc by lia. discriminate. }
    destruct (Hcell k a b d Ek) as (p & q & r & Ep & Eq & Er' & Lp & Lq & Lr & HD).
    pose proof (eq_trans (eq_sym (Hval k a b d p q r Ek Ep Eq Er')) Hc) as Hc'. injection Hc' as <-.
    exists k, a, b, d, p, q, r, (map (value k) [num (b, d); num (a, d); num (a, b)]). split_and!; try done.
    intros i o u v Hs. pose proof (lookup_lt_Some _ _ _ Ek) as Hk.
    assert (Hf : t_facets (tri_topo num ts) k !! i = Some (num (u, v))) by (apply (facets_at num ts k (a, b, d) i _ Ek); by exists o, u, v).
    assert (Hnb : map (value k) [num (b, d); num (a, d); num (a, b)] !! i = Some (value k (num (u, v)))).
    { destruct Hs as [(-> & -> & -> & ->)|[(-> & -> & -> & ->)|(-> & -> & -> & ->)]]; reflexivity. }
    destruct (Htab k i (num (u, v)) Hk Hf) as [H1 H2].
    assert (Hv : nbr rows k i = Some (value k (num (u, v)))).
    { rewrite <- Er. exact (nbr_at (tri_topo num ts) k i (num (u, v)) Hk Hf). }
    split; [|split].
    + intros k'. rewrite Hnb, <- Hv. rewrite H1. by rewrite attached_in.
    + rewrite Hnb, <- Hv. exact H2.
    + rewrite Hnb. intros z [= <-]. unfold value. destruct (attached _ _ _) as [|k' ?]; [by left|right; by exists k'].
  - intros k Hk. destruct (ts !! k) as [[[a b] d]|] eqn:Ek; [|apply lookup_ge_None in Ek; lia].
    destruct (Hcell k a b d Ek) as (p & q & r & Ep & Eq & Er' & _). eexists. exact (Hval k a b d p q r Ek Ep Eq Er').
Qed.

Lemma tri_simplex p q r fs nb : length p = 2%nat -> length q = 2%nat -> length r = 2%nat -> orient2d p q r <> 0 ->
  Simplex 2 (CellRec [p; q; r] (tri_normals p q r) fs nb) /\ Forall (fun n => dot n n = 1) (tri_normals p q r).
Proof.
  intros Lp Lq Lr HD.
  assert (HD1 : orient2d q p r <> 0 /\ orient2d r p q <> 0) by (unfold orient2d in *; split; intros E; apply HD; lra).
  destruct (tri_normal_ok p q r Lp Lq Lr HD) as (A1 & A2 & A3 & A4).
  destruct (tri_normal_ok q p r Lq Lp Lr (proj1 HD1)) as (B1 & B2 & B3 & B4).
  destruct (tri_normal_ok r p q Lr Lp Lq (proj2 HD1)) as (C1 & C2 & C3 & C4).
  unfold tri_normals. split; [|by repeat constructor].
  split; cbn [verts normals]; [lia|reflexivity|reflexivity|by repeat constructor|by repeat constructor|..].
  - intros i n j v j' v' Hn Hv Hv' H1 H2. unfold on_facet in *. cbn in H1, H2.
    destruct i as [|[|[|i]]]; cbn in Hn; try discriminate; injection Hn as <-;
      (destruct j as [|[|[|j]]]; cbn in Hv; try discriminate; injection Hv as <-);
      (destruct j' as [|[|[|j']]]; cbn in Hv'; try discriminate; injection Hv' as <-); try done; lra.
  - intros i n j v j' v' Hn Hv Hv' H1 H2. unfold on_facet in *. cbn in H1, H2. assert (j' = i) as -> by lia. clear H2.
    destruct i as [|[|[|i]]]; cbn in Hn, Hv'; try discriminate; injection Hn as <-; injection Hv' as <-;
      (destruct j as [|[|[|j]]]; cbn in Hv; try discriminate; injection Hv as <-); try done; lra.
Qed.

(** The side [i] of a cell. *)
Lemma side_tables (num : nat * nat -> nat) (xs : list vec) a b d p q r i o u v : Side (a, b, d) i o u v ->
  xs !! a = Some p -> xs !! b = Some q -> xs !! d = Some r -> exists po pu pv,
    xs !! o = Some po /\ xs !! u = Some pu /\ xs !! v = Some pv /\ tri_normals p q r !! i = Some (tri_normal po pu pv) /\
    map Z.of_nat [num (b, d); num (a, d); num (a, b)] !! i = Some (Z.of_nat (num (u, v))) /\
    [p; q; r] ≡ₚ [po; pu; pv] /\
    (exists j, [p; q; r] !! j = Some pu /\ j <> i) /\
    (orient2d p q r <> 0 -> orient2d po pu pv <> 0).
Proof.
  intros Hs Ep Eq Er. destruct Hs as [(-> & -> & -> & ->)|[(-> & -> & -> & ->)|(-> & -> & -> & ->)]].
  - exists p, q, r. split_and!; try done. exists 1%nat. done.
  - exists q, p, r. split_and!; try done; [constructor|exists 0%nat; done|]. unfold orient2d. intros H E. apply H. lra.
  - exists r, p, q. split_and!; try done; [|exists 0%nat; done|].
    + change [p; q; r] with ([p; q] ++ [r]). by rewrite Permutation_app_comm.
    + unfold orient2d. intros H E. apply H. lra.
Qed.
Lemma side_at t i : (i < 3)%nat -> exists o u v, Side t i o u v.
Proof. destruct t as [[a b] d]. intros Hi. destruct i as [|[|[|i]]]; [| | |lia]; [exists a, b, d|exists b, a, d|exists d, a, b]; cbn; tauto. Qed.

(** A point of a triangle on one of its sides is on every triangle with that side. *)
Lemma on_side po po' pu pv x : length po = 2%nat -> length pu = 2%nat -> length pv = 2%nat -> length x = 2%nat -> orient2d po pu pv <> 0 ->
  Hull 2 [po; pu; pv] x -> dot (tri_normal po pu pv) x = dot (tri_normal po pu pv) pu -> Hull 2 [po'; pu; pv] x.
Proof.
  intros Lo Lu Lv Lx HD HH Hd. destruct (tri_normal_ok po pu pv Lo Lu Lv HD) as (A1 & _ & A3 & A4).
  apply hull3 in HH as (s & t & w & Hs & Ht & Hw & H1 & Hc). apply hull3. exists 0, t, w.
  pose proof (Hc 0%nat ltac:(lia)) as C0. pose proof (Hc 1%nat ltac:(lia)) as C1.
  apply len2 in Lo as (ox & oy & ->), Lu as (ux & uy & ->), Lv as (vx & vy & ->), Lx as (x0 & x1 & ->).
  apply len2 in A1 as (n0 & n1 & En). rewrite En in *. rewrite !dot2 in *. cbn in C0, C1.
  assert (s = 0) as ->.
  { assert (s * (n0 * ux + n1 * uy - (n0 * ox + n1 * oy)) = 0); [|nra].
    transitivity (n0 * ux + n1 * uy - (n0 * x0 + n1 * x1)); [|lra]. rewrite C0, C1. replace s with (1 - t - w) by lra.
    assert (w * (n0 * ux + n1 * uy) = w * (n0 * vx + n1 * vy)) by (f_equal; exact A3). nra. }
  split; [lra|]. split; [exact Ht|]. split; [exact Hw|]. split; [lra|]. intros i Hi. rewrite (Hc i Hi). ring.
Qed.

(** C55: the tables of every triangulation have the properties that the tracking theorems ask for. *)
Theorem C55_conforming num xs ts mk : Triangulation num xs ts -> exists m, tri_mesh num xs ts mk = Ok m /\ Conforming m.
Proof.
  intros HT. destruct (tri_mesh_ok num xs ts mk HT) as (m & E & Hd & Hmk & Hins & Hcells & Hall). exists m. split; [exact E|].
  pose proof (tri_simplicial num xs ts HT) as HS.
  split.
  - intros c cr Hc. rewrite Hd. apply Hcells in Hc as (k & a & b & d & p & q & r & nb & -> & Ek & Ep & Eq & Er & Lp & Lq & Lr & HD & -> & _). by apply tri_simplex.
  - intros c cr Hc. apply Hcells in Hc as (k & a & b & d & p & q & r & nb & -> & Ek & Ep & Eq & Er & Lp & Lq & Lr & HD & -> & _).
    exact (proj2 (tri_simplex p q r [] [] Lp Lq Lr HD)).
  - intros c cr x Hc Hx. rewrite Hd in *. apply Hcells in Hc as (k & a & b & d & p & q & r & nb & -> & Ek & Ep & Eq & Er & Lp & Lq & Lr & HD & -> & _).
    rewrite Hins. unfold tri_inside. replace (Z.of_nat k <? 0)%Z with false by lia. rewrite Nat2Z.id, Ek, Ep, Eq, Er. rewrite inside_2d_ok.
    pose proof (proj1 (tri_simplex p q r (map Z.of_nat [num (b, d); num (a, d); num (a, b)]) nb Lp Lq Lr HD)) as HX. split.
    + intros HH. by apply hull_in_cell.
    + intros HI. by apply (in_cell_hull 2 _ x HX).
  - intros c cr Hc. rewrite Hd. apply Hcells in Hc as (k & a & b & d & p & q & r & nb & -> & Ek & Ep & Eq & Er & Lp & Lq & Lr & HD & -> & _).
    cbn [fids]. split; [reflexivity|]. split.
    + apply NoDup_fmap_2; [intros ? ? ?; lia|]. pose proof (sm_facets _ _ HS k (lookup_lt_Some _ _ _ Ek)) as Hnd. cbn [tri_topo t_facets] in Hnd.
      by rewrite (tri_facets_at num ts k (a, b, d) Ek) in Hnd.
    + unfold NO_FACET. cbn [map]. rewrite !elem_of_cons, elem_of_nil. lia.
  - intros c cr Hc. rewrite Hd. by apply Hcells in Hc as (k & a & b & d & p & q & r & nb & -> & Ek & Ep & Eq & Er & Lp & Lq & Lr & HD & -> & Hl & _).
  - intros c cr i cn n mf Hc Hnb Hcn Hn Hf. rewrite Hd.
    apply Hcells in Hc as (k & a & b & d & p & q & r & nb & -> & Ek & Ep & Eq & Er & Lp & Lq & Lr & HD & -> & Hl & Htab). cbn [nbrs normals fids verts] in *.
    assert (Hi : (i < 3)%nat) by (apply lookup_lt_Some in Hnb; lia).
    destruct (side_at (a, b, d) i Hi) as (o & u & v & Hs). destruct (Htab i o u v Hs) as (T1 & T2 & T3).
    destruct (T3 cn Hnb) as [->|[k' ->]]; [done|]. apply T1 in Hnb as [Hne Hin].
    destruct (side_tables num xs a b d p q r i o u v Hs Ep Eq Er) as (po & pu & pv & Po & Pu & Pv & Hn' & Hf' & Hperm & (ju & Hju & Hji) & HDs).
    rewrite Hn in Hn'. injection Hn' as ->. rewrite Hf in Hf'. injection Hf' as ->.
    pose proof Hin as (t' & _ & _ & _ & _ & Ek' & _)%facet_in.
    assert (Hin0 : num (u, v) ∈ tri_facets num ts k) by (apply facet_in; exists (a, b, d), i, o, u, v; done).
    destruct (common num xs ts HT k k' (a, b, d) t' _ (not_eq_sym Hne) Ek Ek' Hin0 Hin) as (Hnt & i1 & i' & o1 & o' & u' & v' & Hs1 & Hs' & Hnum).
    assert ((u, v) = (u', v')) as [= <- <-].
    { apply (tr_num _ _ _ HT (a, b, d) (a, b, d)); try (by eapply elem_of_list_lookup_2); try (by eapply side_in_edges). exact Hnum. }
    destruct (Hall k' (lookup_lt_Some _ _ _ Ek')) as [cr' Hcr']. exists cr', i'. split; [exact Hcr'|].
    pose proof Hcr' as (k2 & a' & b' & d' & p' & q' & r' & nb' & Hk2 & Ek2 & Ep' & Eq' & Er' & Lp' & Lq' & Lr' & HD' & -> & _)%Hcells.
    assert (k2 = k') as -> by lia. rewrite Ek' in Ek2. injection Ek2 as ->.
    destruct (side_tables num xs a' b' d' p' q' r' i' o' u v Hs' Ep' Eq' Er') as (po' & pu' & pv' & Po' & Pu' & Pv' & Hn1 & Hf1 & Hperm' & _ & HDs').
    assert (pu' = pu) as -> by congruence. assert (pv' = pv) as -> by congruence. cbn [fids normals].
    pose proof (tr_points _ _ _ HT _ _ Po) as Lo. pose proof (tr_points _ _ _ HT _ _ Po') as Lo'.
    pose proof (tr_points _ _ _ HT _ _ Pu) as Lu. pose proof (tr_points _ _ _ HT _ _ Pv) as Lv.
    split; [exact Hf1|]. split.
    + rewrite Hn1. f_equal. apply tri_normal_opp; try assumption.
      apply (tr_sides _ _ _ HT (a, b, d) (a', b', d') i i' o o' u v); try assumption; by eapply elem_of_list_lookup_2.
    + intros x Hx HI Ho. apply hull_in_cell; [by apply tri_simplex|exact Hx|]. cbn [verts]. apply (hull_perm _ _ _ _ (symmetry Hperm')).
      apply (on_side po po' pu pv x); try assumption; [by apply HDs| |].
      * apply (hull_perm _ _ _ _ Hperm). exact (in_cell_hull 2 _ x (proj1 (tri_simplex p q r _ nb Lp Lq Lr HD)) Hx HI).
      * exact (Ho ju pu Hju Hji).
Qed.

(** Two triangles with a common edge. *)
Lemma cantor_numbering ts : Numbering Cantor.to_nat ts.
Proof. intros t t' e e' _ _ _ _ E. exact (Cantor.to_nat_inj _ _ E). Qed.
Definition two_xs : list vec := [[0; 0]; [1; 0]; [0; 1]; [1; 1]].
Definition two_ts : list tri := [(0, 1, 3); (0, 2, 3)]%nat.
Lemma two_triangulation : Triangulation Cantor.to_nat two_xs two_ts.
Proof.
  split.
  - apply list.NoDup_cons. split; [|apply NoDup_singleton]. by intros [=]%elem_of_list_singleton.
  - intros i p H. destruct i as [|[|[|[|i]]]]; try (by injection H as <-). discriminate.
  - intros a b d [[= -> -> ->]|[[= -> -> ->]|[]%elem_of_nil]%elem_of_cons]%elem_of_cons; (split; [lia|]); do 3 eexists; (split; [reflexivity|]); (split; [reflexivity|]);
      (split; [reflexivity|]); rewrite orient2d_2; lra.
  - apply cantor_numbering.
  - intros t t' i i' o o' u v po po' pu pv H H' Hne Hs Hs' Po Po' Pu Pv.
    apply elem_of_cons in H as [->|[->|[]%elem_of_nil]%elem_of_cons]; apply elem_of_cons in H' as [->|[->|[]%elem_of_nil]%elem_of_cons]; try done;
      destruct Hs as [(-> & -> & -> & ->)|[(-> & -> & -> & ->)|(-> & -> & -> & ->)]];
      destruct Hs' as [(-> & -> & Hu & Hv)|[(-> & -> & Hu & Hv)|(-> & -> & Hu & Hv)]]; try discriminate;
      injection Po as <-; injection Po' as <-; injection Pu as <-; injection Pv as <-; rewrite !orient2d_2; lra.
Qed.
Example C55_two : exists m cr, tri_mesh Cantor.to_nat two_xs two_ts (fun _ => 0%Z) = Ok m /\ Conforming m /\ cells m 0%Z = Some cr /\
  verts cr = [[0; 0]; [1; 0]; [1; 1]] /\ nbrs cr = [-1; 1; -1]%Z /\ normals cr !! 0%nat = Some [1; 0].
Proof.
  destruct (C55_conforming _ _ _ (fun _ => 0%Z) two_triangulation) as (m & E & HC). exists m. eexists. split; [exact E|]. split; [exact HC|].
  unfold tri_mesh in E. injection E as <-. split; [reflexivity|]. cbn [verts nbrs normals]. split; [reflexivity|]. split; [reflexivity|].
  cbn [tri_normals lookup list_lookup]. destruct (tri_normal_eq 0 0 1 0 1 1) as (_ & _ & ->); [rewrite orient2d_2; lra|].
  replace ((1 - 1) * (1 - 1) + (1 - 0) * (1 - 0)) with 1 by ring. rewrite sqrt_1, orient2d_2.
  unfold sgn. replace (Rltb _ _) with true by (symmetry; apply Rltb_true; lra). f_equal. f_equal; [field|]. f_equal. field.
Qed.
Print Assumptions C55_conforming.
