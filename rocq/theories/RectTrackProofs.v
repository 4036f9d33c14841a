(** The ranks of the cells of a rectangle. *)
From stdpp Require Import list_numbers.
From Verif Require Import Vec VecProofs TrackModel BcModel Geometry FindFacetProps Conforming MeshModel MeshProps InsideModel InsideProps LineMeshModel LineMeshProps TrackGeomProps.
From Verif Require Import TriMeshModel TriMeshProps RectMeshProofs RectMeshProps.
Local Open Scope R_scope.

(** The normals of a cell and the cells behind its facets. *)
Lemma grid_next nx ny dg pos num mk m c cr i n cn : (forall v, length (pos v) = 2%nat) -> Oriented nx ny dg pos -> Numbering num (rect_tris nx ny dg) ->
  tri_mesh num (map pos (rect_gvertices nx ny dg)) (rect_tris nx ny dg) mk = Ok m -> cells m c = Some cr -> normals cr !! i = Some n -> nbrs cr !! i = Some cn ->
  exists k g s a b go gu gv, c = Z.of_nat k /\ rect_gtris nx ny dg !! k = Some g /\ (a < nx)%nat /\ (b < ny)%nat /\ (g, s) ∈ signed_square dg a b /\
    GSide g i go gu gv /\ n = tri_normal (pos go) (pos gu) (pos gv) /\ verts cr = [pos g.1.1; pos g.1.2; pos g.2] /\ (cn = NO_CELL <-> exists bo, OnBorder nx ny bo gu gv) /\
    (cn <> NO_CELL -> exists k' g' s' a' b' i' go', cn = Z.of_nat k' /\ rect_gtris nx ny dg !! k' = Some g' /\ (a' < nx)%nat /\ (b' < ny)%nat /\
       (g', s') ∈ signed_square dg a' b' /\ GSide g' i' go' gu gv /\ g <> g').
Proof.
  intros Hlen HO Hnum E Hc Hn Hb. pose proof (grid_triangulation nx ny dg pos num Hlen HO Hnum) as HT.
  destruct (tri_mesh_ok num _ _ mk HT) as (m' & E' & _ & _ & _ & Hcells & _). rewrite E in E'. injection E' as <-.
  apply Hcells in Hc as (k & a & b & d & p & q & r & nb & -> & Ek & Ep & Eq & Er & _ & _ & _ & _ & -> & Hl & Htab).
  assert (exists g, rect_gtris nx ny dg !! k = Some g /\ gtri_num nx ny g = (a, b, d)) as ([[ga gb] gd] & Eg & Egn).
  { unfold rect_tris in Ek. rewrite list_lookup_fmap in Ek. destruct (rect_gtris nx ny dg !! k) as [g|]; [|discriminate]. injection Ek as Ek. by exists g. }
  pose proof (elem_of_list_lookup_2 _ _ _ Eg) as (x & y & Hi & Hj & Hg)%gtris_in. destruct (signed_in _ _ _ _ Hg) as [s H].
  pose proof (tri_used _ _ _ _ _ _ _ Hi Hj H) as (Ua & Ub & Ud & _). cbn [gtri_num] in Egn. injection Egn as <- <- <-.
  rewrite (pos_at nx ny dg pos ga Ua) in Ep. rewrite (pos_at nx ny dg pos gb Ub) in Eq. rewrite (pos_at nx ny dg pos gd Ud) in Er.
  injection Ep as <-. injection Eq as <-. injection Er as <-. cbn [normals nbrs verts] in *.
  assert (Hi3 : (i < 3)%nat) by (apply lookup_lt_Some in Hb; lia).
  assert (exists go gu gv, GSide (ga, gb, gd) i go gu gv) as (go & gu & gv & Hs).
  { destruct i as [|[|[|i]]]; [exists ga, gb, gd|exists gb, ga, gd|exists gd, ga, gb|lia]; cbn; tauto. }
  pose proof (side_lower nx ny _ _ _ _ _ Hs) as Hs'. cbn [gtri_num] in Hs'.
  destruct (Htab _ _ _ _ Hs') as (T1 & T2 & T3).
  exists k, (ga, gb, gd), s, x, y, go, gu, gv. split_and!; try assumption; try reflexivity.
  - destruct Hs as [(-> & -> & -> & ->)|[(-> & -> & -> & ->)|(-> & -> & -> & ->)]]; by injection Hn as <-.
  - rewrite <- (grid_border nx ny dg pos num Hlen Hnum k _ i go gu gv Eg Hs), <- T2, Hb. unfold NO_CELL. split; [by intros ->|by intros [=]].
  - intros Hcn. destruct (T3 _ Hb) as [E1|[k' E1]]; [unfold NO_CELL in Hcn; lia|]. subst cn. apply T1 in Hb as [Hk Hf].
    unfold tri_facets in Hf. destruct (rect_tris nx ny dg !! k') as [t|] eqn:Et; [|by apply elem_of_nil in Hf].
    assert (exists g, rect_gtris nx ny dg !! k' = Some g /\ gtri_num nx ny g = t) as (g' & Eg' & <-).
    { unfold rect_tris in Et. rewrite list_lookup_fmap in Et. destruct (rect_gtris nx ny dg !! k') as [g|]; [|discriminate]. injection Et as Et. by exists g. }
    pose proof (elem_of_list_lookup_2 _ _ _ Eg') as (x' & y' & Hi' & Hj' & Hg')%gtris_in. destruct (signed_in _ _ _ _ Hg') as [s' H'].
    apply elem_of_list_fmap in Hf as (e & Ee & He).
    assert ((gnum nx ny gu, gnum nx ny gv) = e) as <-.
    { apply (Hnum _ _ _ _ (elem_of_list_lookup_2 _ _ _ Ek) (elem_of_list_lookup_2 _ _ _ Et)); [by eapply side_in_edges|exact He|exact Ee]. }
    apply elem_of_list_lookup in He as [i' He]. apply side_edge in He as [o' He].
    destruct (side_lift _ _ _ _ _ _ _ He) as (go' & gu' & gv' & HG & -> & Eu & Ev).
    destruct (gside_used _ _ _ _ _ _ _ _ _ _ _ Hi' Hj' H' HG) as (_ & [Uu _] & [Uv _]). destruct (gside_used _ _ _ _ _ _ _ _ _ _ _ Hi Hj H Hs) as (_ & [Wu _] & [Wv _]).
    apply (gnum_inj _ _ _ _ Wu Uu) in Eu as <-. apply (gnum_inj _ _ _ _ Wv Uv) in Ev as <-.
    exists k', g', s', x', y', i', go'. split_and!; try assumption; try reflexivity.
    intros <-. apply Hk. exact (NoDup_lookup _ _ _ _ (gtris_nodup nx ny dg) Eg' Eg).
Qed.

(** Which of the rectangles a triangle belongs to. *)
Definition gsquare (g : gtri) : nat * nat :=
  match g with
  | (_, _, Middle i j) => (i, j)
  | (Corner i j, Corner i' _, _) => (Nat.min i i', j)
  | _ => (0, 0)%nat
  end.
Lemma gsquare_eq dg g s i j : (g, s) ∈ signed_square dg i j -> gsquare g = (i, j).
Proof.
  intros H. destruct (square_kinds _ _ _ _ _ H) as [(E & R & [[-> ->]|[-> ->]])|[(E & R & [[-> ->]|[-> ->]])|(E & [[-> ->]|[[-> ->]|[[-> ->]|[-> ->]]]])]]; cbn [gsquare]; f_equal; lia.
Qed.
Definition cnt (b : bool) : nat := if b then 1 else 0.
(** How many of the slanted sides of a triangle are crossed outwards; [A] and [B] say how fast the diagonals are crossed. *)
Definition ginner (A B : R) (g : gtri) : nat :=
  match g with
  | (Corner i j, Corner i' j', Middle a b) =>
    if (j =? j')%nat then if (j =? b)%nat then cnt (Rltb 0 A) + cnt (Rltb 0 B) else cnt (Rltb A 0) + cnt (Rltb B 0)
    else if (i =? a)%nat then cnt (Rltb 0 A) + cnt (Rltb B 0) else cnt (Rltb A 0) + cnt (Rltb 0 B)
  | (Corner i j, Corner i' j', Corner i'' j'') =>
    if (i <? i')%nat then if (i' =? i'')%nat then cnt (Rltb 0 B) else cnt (Rltb 0 A)
    else if (i =? i')%nat then cnt (Rltb B 0) else cnt (Rltb A 0)
  | _ => 0
  end.
Definition grank (nx ny : nat) (d0 d1 dx dy : R) (g : gtri) : nat :=
  let '(i, j) := gsquare g in
  3 * ((if Rltb 0 d0 then nx - 1 - i else i) + (if Rltb 0 d1 then ny - 1 - j else j)) + ginner (d0 * dy + d1 * dx) (d1 * dx - d0 * dy) g.

Lemma ginner_le A B g : (ginner A B g <= 2)%nat.
Proof.
  destruct g as [[[] []] []]; cbn; unfold cnt; repeat case_match; lia.
Qed.
Lemma Rltb_anti x : Rltb 0 x = true -> Rltb x 0 = false.
Proof. rewrite Rltb_true, Rltb_false. lra. Qed.

Lemma eqb_S1 n : (S n =? n)%nat = false.
Proof. apply Nat.eqb_neq. lia. Qed.
Lemma eqb_S2 n : (n =? S n)%nat = false.
Proof. apply Nat.eqb_neq. lia. Qed.
Lemma ltb_S1 n : (n <? S n)%nat = true.
Proof. apply Nat.ltb_lt. lia. Qed.
Lemma ltb_S2 n : (S n <? n)%nat = false.
Proof. apply Nat.ltb_ge. lia. Qed.
Ltac gkinds H := 
  let E := fresh "Ec" in let R := fresh "Er" in
  destruct (square_kinds _ _ _ _ _ H) as [(E & R & [[-> ->]|[-> ->]])|[(E & R & [[-> ->]|[-> ->]])|(E & [[-> ->]|[[-> ->]|[[-> ->]|[-> ->]]]])]].

Section Rank.
Context (nx ny : nat) (x0 y0 d0 d1 dx dy : R) (dg : diagonal) (Hdx : 0 < dx) (Hdy : 0 < dy) (pos : gvertex -> vec).
Context (Pc : forall i j, pos (Corner i j) = [x0 + INR i * dx; y0 + INR j * dy])
        (Pm : forall i j, pos (Middle i j) = [x0 + (INR i + / 2) * dx; y0 + (INR j + / 2) * dy]).
Lemma grank_down g s i j k o u v g' s' i' j' k' o' : (i < nx)%nat -> (j < ny)%nat -> (i' < nx)%nat -> (j' < ny)%nat ->
  (g, s) ∈ signed_square dg i j -> (g', s') ∈ signed_square dg i' j' -> GSide g k o u v -> GSide g' k' o' u v -> g <> g' ->
  (if side_sign s k then 0 < orient2d (pos o) (pos u) (pos v) else orient2d (pos o) (pos u) (pos v) < 0) ->
  0 < dot (tri_normal (pos o) (pos u) (pos v)) [d0; d1] -> (grank nx ny d0 d1 dx dy g' < grank nx ny d0 d1 dx dy g)%nat.
Proof.
  intros Hi Hj Hi' Hj' H H' Hs Hs' Hne HO Hd.
  assert (Ne : side_sign s k <> side_sign s' k').
  { intros E. destruct (side_unique dg g s i j g' s' i' j' k k' o o' u v H H' Hs Hs' E) as [E1 _]. done. }
  assert (HL : let w := fun a b => (co (pos v) 1 - co (pos u) 1) * a - (co (pos v) 0 - co (pos u) 0) * b in
     if side_sign s k then 0 < w d0 d1 else w d0 d1 < 0).
  { assert (Hl : forall z, length (pos z) = 2%nat) by (intros []; rewrite ?Pc, ?Pm; reflexivity). cbv zeta. clear Hs Hs'.
    destruct (len2 _ (Hl o)) as (ox & oy & Eo), (len2 _ (Hl u)) as (ux & uy & Eu), (len2 _ (Hl v)) as (vx & vy & Ev). rewrite Eo, Eu, Ev in *.
    destruct (tri_normal_eq ox oy ux uy vx vy) as (HL & _ & En). { destruct (side_sign s k); lra. }
    rewrite En, dot2 in Hd. set (L := R_sqrt.sqrt _) in *. clearbody L. unfold co. cbn [nth].
    assert (Es : sgn (orient2d [ox; oy] [ux; uy] [vx; vy]) = if side_sign s k then 1 else -1).
    { unfold sgn. destruct (side_sign s k); [rewrite (proj2 (Rltb_true _ _)) by exact HO; reflexivity|rewrite (proj2 (Rltb_false _ _)) by lra; reflexivity]. }
    rewrite Es in Hd. set (S := if side_sign s k then 1 else -1) in *.
    assert (Hd' : 0 < S * ((vy - uy) * d0 - (vx - ux) * d1)).
    { replace (S * ((vy - uy) * d0 - (vx - ux) * d1)) with (L * (S * (vy - uy) / L * d0 + - (S * (vx - ux) / L) * d1)) by (field; lra). by apply Rmult_lt_0_compat. }
    unfold S in Hd'. destruct (side_sign s k); lra. }
  cbv zeta in HL. clear HO Hd. unfold grank. rewrite (gsquare_eq _ _ _ _ _ H), (gsquare_eq _ _ _ _ _ H').
  pose proof (ginner_le (d0 * dy + d1 * dx) (d1 * dx - d0 * dy) g') as Hle.
  gkinds H; gkinds H'; try (exfalso; congruence).
  all: destruct Hs as [(-> & -> & -> & ->)|[(-> & -> & -> & ->)|(-> & -> & -> & ->)]]; destruct Hs' as [(-> & -> & Hu & Hv)|[(-> & -> & Hu & Hv)|(-> & -> & Hu & Hv)]];
    cbn [side_sign xorb Nat.eqb] in Ne; try (exfalso; apply Ne; reflexivity);
    try discriminate Hu; try discriminate Hv; injection Hu as U1 U2; injection Hv as V1 V2; try (exfalso; lia).
  all: unfold side_sign in HL; cbn [xorb Nat.eqb] in HL; rewrite ?Pc, ?Pm in HL; unfold co in HL; cbn [nth] in HL; rewrite ?S_INR in HL.
  all: try (assert (i' = i) by lia; assert (j' = j) by lia; subst i' j').
  all: try (assert (i' = S i /\ j' = j /\ 0 < d0) as (-> & -> & Hd) by (split; [lia|]; split; [lia|]; assert (0 < dy * d0) by lra; nra);
    rewrite (proj2 (Rltb_true 0 d0) Hd); destruct (Rltb 0 d1); lia).
  all: try (assert (i = S i' /\ j' = j /\ d0 < 0) as (-> & -> & Hd) by (split; [lia|]; split; [lia|]; assert (0 < dy * - d0) by lra; nra);
    rewrite (proj2 (Rltb_false 0 d0) ltac:(lra)); destruct (Rltb 0 d1); lia).
  all: try (assert (i' = i /\ j' = S j /\ 0 < d1) as (-> & -> & Hd) by (split; [lia|]; split; [lia|]; assert (0 < dx * d1) by lra; nra);
    rewrite (proj2 (Rltb_true 0 d1) Hd); destruct (Rltb 0 d0); lia).
  all: try (assert (i' = i /\ j = S j' /\ d1 < 0) as (-> & -> & Hd) by (split; [lia|]; split; [lia|]; assert (0 < dx * - d1) by lra; nra);
    rewrite (proj2 (Rltb_false 0 d1) ltac:(lra)); destruct (Rltb 0 d0); lia).
  all: apply Nat.add_lt_mono_l; clear Hle; cbn [ginner]; rewrite ?Nat.eqb_refl, ?eqb_S1, ?eqb_S2, ?ltb_S1, ?ltb_S2, ?Nat.ltb_irrefl;
    set (A := d0 * dy + d1 * dx); set (B := d1 * dx - d0 * dy).
  all: first [
      assert (HA : 0 < A) by (unfold A; lra); rewrite (proj2 (Rltb_true 0 A) HA), (Rltb_anti A) by (by apply Rltb_true); cbn [cnt]; lia
    | assert (HA : A < 0) by (unfold A; lra); rewrite (proj2 (Rltb_true A 0) HA), (proj2 (Rltb_false 0 A)) by lra; cbn [cnt]; lia
    | assert (HB : 0 < B) by (unfold B; lra); rewrite (proj2 (Rltb_true 0 B) HB), (Rltb_anti B) by (by apply Rltb_true); cbn [cnt]; lia
    | assert (HB : B < 0) by (unfold B; lra); rewrite (proj2 (Rltb_true B 0) HB), (proj2 (Rltb_false 0 B)) by lra; cbn [cnt]; lia ].
Qed.
End Rank.
Lemma grank_le nx ny d0 d1 dx dy dg g s i j : (i < nx)%nat -> (j < ny)%nat -> (g, s) ∈ signed_square dg i j -> (grank nx ny d0 d1 dx dy g + 4 <= 3 * (nx + ny))%nat.
Proof.
  intros Hi Hj H. unfold grank. rewrite (gsquare_eq _ _ _ _ _ H). pose proof (ginner_le (d0 * dy + d1 * dx) (d1 * dx - d0 * dy) g).
  destruct (Rltb 0 d0), (Rltb 0 d1); lia.
Qed.

(** Two triangles with a common side lie in the same rectangle or in adjacent ones. *)
Lemma grid_step dg g s i j k o u v g' s' i' j' k' o' : (g, s) ∈ signed_square dg i j -> (g', s') ∈ signed_square dg i' j' -> GSide g k o u v -> GSide g' k' o' u v ->
  (Z.abs (Z.of_nat i' - Z.of_nat i) + Z.abs (Z.of_nat j' - Z.of_nat j) <= 1)%Z.
Proof.
  intros H H' Hs Hs'. gkinds H; gkinds H'; try (exfalso; congruence).
  all: destruct Hs as [(-> & -> & -> & ->)|[(-> & -> & -> & ->)|(-> & -> & -> & ->)]]; destruct Hs' as [(-> & -> & Hu & Hv)|[(-> & -> & Hu & Hv)|(-> & -> & Hu & Hv)]];
    try discriminate Hu; try discriminate Hv; injection Hu as U1 U2; injection Hv as V1 V2; lia.
Qed.
