(** C19: the C++ movers track a particle as the Python movers do, except the neutral cartesian_xy one, which searches from another
    point. *)
From Verif Require Import Vec VecProofs Rounding TrackModel TrackProofs Geometry InsideModel InsideProps CppTrackModel BcModel TrackEval.

(** ** What is meant *)

(** The C++ tables hold the same mesh as the Python dictionaries: the same vertices, the normals padded with zeros to three components,
    the same facet numbers (32-bit), neighbours and markers, and point-in-cell tests that agree. *)
Definition pad3 (n : vec) : vec := n ++ replicate (3 - length n) 0.
Record SameCell (m : mesh) (coords : list R) (i : Z) (c : cellrec) (cc : ccell) : Prop := {
  sc_range : forall v, v ∈ c_verts cc -> ((v + 1) * gdim m <= length coords)%nat;
  sc_verts : map (mesh_vertex (gdim m) coords) (c_verts cc) = verts c;
  sc_nv : length (verts c) = S (gdim m);
  sc_nn : length (normals c) = S (gdim m);
  sc_ln : Forall (fun n => length n = gdim m) (normals c);
  sc_normals : c_normals cc = concat (map pad3 (normals c));
  sc_fids : c_fids cc = fids c;
  sc_f32 : Forall (fun f => 0 <= f < 2 ^ 31)%Z (fids c);
  sc_nbrs : c_nbrs cc = nbrs c;
  sc_inside : forall x, length x = gdim m -> is_inside_vertices (gdim m) (gdim m) coords (c_verts cc) x = Ok (inside m i x)
}.
Record SameMesh (m : mesh) (cm : cmesh) : Prop := {
  sm_dim : (1 <= gdim m <= 3)%nat;
  sm_g : c_gdim cm = gdim m;
  sm_t : c_tdim cm = gdim m;
  sm_marker : forall f, c_marker cm f = marker m f;
  sm_cell : forall i, match cells m i, c_cells cm i with
    | None, None => True
    | Some c, Some cc => SameCell m (c_coords cm) i c cc
    | _, _ => False
    end
}.

(** The same boundary function, in Python and in C++: the Python one takes the move vector from [self.dx]. *)
Definition py_bc {K} (b : cbcfun (K:=K)) : bcfun (K:=K) := fun c p mf f n =>
  let! (q, k) := b (usr c) p mf (scr c) f n in Ok (q, TCtx (scr c) k).
Definition py_bcs {K} (cbcs : Z -> option (cbcfun (K:=K))) : Z -> option (bcfun (K:=K)) := fun v => py_bc <$> cbcs v.
Definition py_recd {K} (crecd : K -> Z -> particle -> R -> res K) : tctx -> Z -> particle -> R -> res tctx :=
  fun c fi p t => let! k := crecd (usr c) fi p t in Ok (TCtx (scr c) k).

(** Requirement on the boundary functions: a record keeps its number of coordinates. *)
Definition KeepsShape {K} (cbcs : Z -> option (cbcfun (K:=K))) : Prop := forall v b k p mf dx f n q k',
  cbcs v = Some b -> b k p mf dx f n = Ok (q, k') -> length (px q) = length (px p) /\ length (px0 q) = length (px0 p).
(** Nothing looks at the move vector; nothing looks at the time of a crossing. *)
Definition IgnoresMove {K} (cbcs : Z -> option (cbcfun (K:=K))) : Prop := forall v b k p mf dx dx' f n,
  cbcs v = Some b -> b k p mf dx f n = b k p mf dx' f n.
Definition IgnoresTime {K} (crecd : K -> Z -> particle -> R -> res K) : Prop := forall k fi p t t', crecd k fi p t = crecd k fi p t'.

(** Both succeed with the same particle and the same effect, or both fail. *)
Definition SameOutcome {K} (r : res (particle * tctx (K:=K))) (r' : res (particle * scratch * K)) : Prop :=
  match r, r' with
  | Ok (q, c), Ok (q', s, k) => q = q' /\ usr c = k
  | Raise _, Raise _ => True
  | _, _ => False
  end.

(** The scratch arrays as declared. *)
Definition Sized (s : scratch) : Prop := length (s_pcoord s) = 6%nat /\ length (s_dx s) = 3%nat.

(** The tests agree for a simplex with outward normals, if DOLFIN's test answers for the points that are not beyond any facet. *)
Lemma simplex_same_inside m coords i c cc : Simplex (gdim m) c -> (forall v, v ∈ c_verts cc -> ((v + 1) * gdim m <= length coords)%nat) ->
  map (mesh_vertex (gdim m) coords) (c_verts cc) = verts c -> (forall x, length x = gdim m -> inside m i x = true <-> InCell (gdim m) c x) ->
  forall x, length x = gdim m -> is_inside_vertices (gdim m) (gdim m) coords (c_verts cc) x = Ok (inside m i x).
Proof.
  intros HS Hr Hv Hi x Hx. destruct (C37_cell (gdim m) c coords (c_verts cc) x HS Hx Hr Hv) as (b & -> & Hb). f_equal. apply eq_true_iff_eq. by rewrite Hb, Hi.
Qed.

(** ** Arrays *)
Lemma concat_slice {A} w (ls : list (list A)) : forall i l, Forall (fun l => length l = w) ls -> ls !! i = Some l ->
  take w (drop (i * w) (concat ls)) = l /\ (i * w + w <= length (concat ls))%nat.
Proof.
  induction ls as [|a ls IH]; intros i l HF Hi; [done|]. inversion_clear HF as [|?? Ha HF']. destruct i as [|i]; cbn in Hi.
  - injection Hi as ->. cbn [concat]. rewrite Nat.mul_0_l, drop_0, app_length. split; [|lia]. by rewrite <- Ha, take_app.
  - destruct (IH i l HF' Hi) as [H1 H2]. cbn [concat]. rewrite app_length. split; [|lia].
    rewrite drop_app_ge by lia. by replace (S i * w - length a)%nat with (i * w)%nat by lia.
Qed.
Lemma doubles_concat w g (ls : list vec) i l : Forall (fun l => length l = w) ls -> ls !! i = Some l -> (g <= w)%nat ->
  doubles (concat ls) (i * w) g = Ok (take g l).
Proof.
  intros HF Hi Hg. destruct (concat_slice w ls i l HF Hi) as [H1 H2]. unfold doubles. replace (_ <? _)%nat with false by lia.
  f_equal. rewrite <- H1. rewrite take_take. by rewrite Nat.min_l by lia.
Qed.
Lemma store_ok a o l : (o + length l <= length a)%nat -> store a o l = Ok (take o a ++ l ++ drop (o + length l) a).
Proof. intros H. unfold store. by replace (_ <? _)%nat with false by lia. Qed.
Lemma vertex_coordinates coords g vs : (forall v, v ∈ vs -> ((v + 1) * g <= length coords)%nat) ->
  get_vertex_coordinates coords g vs = Ok (concat (map (mesh_vertex g coords) vs)).
Proof.
  induction vs as [|v vs IH]; intros H; [done|]. cbn [get_vertex_coordinates map concat].
  assert (E : vertex_at coords g v = Ok (mesh_vertex g coords v)).
  { unfold vertex_at. pose proof (H v ltac:(left)). by replace (_ <? _)%nat with false by lia. }
  rewrite E, IH; [done|]. intros w Hw. apply H. by right.
Qed.
Lemma mesh_vertex_length coords g v : ((v + 1) * g <= length coords)%nat -> length (mesh_vertex g coords v) = g.
Proof. intros H. unfold mesh_vertex. rewrite take_length, drop_length. lia. Qed.
Lemma pad3_length n : (length n <= 3)%nat -> length (pad3 n) = 3%nat.
Proof. intros H. unfold pad3. rewrite app_length, replicate_length. lia. Qed.

(** ** find_facet *)
Section Facets.
Context {fl : R -> R} (Hfl : Rounding fl).

Lemma dot_cpp_vdot g a b : (1 <= g <= 3)%nat -> (g <= length a)%nat -> (g <= length b)%nat -> dot_cpp fl g a b = vdot fl (take g a) (take g b).
Proof using Hfl.
  intros Hg Ha Hb. assert (E : forall x, fl (0 + fl x) = fl x) by (intros x; rewrite Rplus_0_l; apply (rnd_idem fl Hfl)).
  destruct g as [|[|[|[|g]]]]; [lia| | | |lia].
  - destruct a as [|a0 a], b as [|b0 b]; cbn in Ha, Hb; try lia. unfold vdot, dot_cpp, co. cbn. by rewrite E.
  - destruct a as [|a0 [|a1 a]], b as [|b0 [|b1 b]]; cbn in Ha, Hb; try lia. unfold vdot, dot_cpp, co. cbn. by rewrite E.
  - destruct a as [|a0 [|a1 [|a2 a]]], b as [|b0 [|b1 [|b2 b]]]; cbn in Ha, Hb; try lia. unfold vdot, dot_cpp, co. cbn. by rewrite E.
Qed.

Context (g : nat) (Hg : (1 <= g <= 3)%nat) (c : cellrec) (vco fnv : list R) (x0 dx : vec).
Context (Hnv : length (verts c) = S g) (Hlv : Forall (fun v => length v = g) (verts c)) (Hnn : length (normals c) = S g)
  (Hln : Forall (fun n => length n = g) (normals c)) (Hvco : vco = concat (verts c)) (Hfnv : fnv = concat (map pad3 (normals c)))
  (Hx0 : length x0 = g) (Hdx : (g <= length dx)%nat).

Lemma read_normal i n : normals c !! i = Some n -> doubles fnv (i * 3) g = Ok n.
Proof using All.
  intros Hi. pose proof (Forall_lookup_1 _ _ _ _ Hln Hi) as Hl. cbn beta in Hl. rewrite Hfnv, (doubles_concat 3 g _ i (pad3 n)); [| | |lia].
  - unfold pad3. f_equal. rewrite <- Hl. by rewrite take_app.
  - apply list.Forall_lookup_2. intros j y Hj. rewrite list_lookup_fmap in Hj. destruct (normals c !! j) as [z|] eqn:Ez; [|discriminate].
    injection Hj as <-. apply pad3_length. pose proof (Forall_lookup_1 _ _ _ _ Hln Ez). cbn beta in *. lia.
  - rewrite list_lookup_fmap. by rewrite Hi.
Qed.
Lemma step_ok st i vi n v : normals c !! i = Some n -> verts c !! vi = Some v ->
  cpp_facet_step fl g vco fnv x0 dx st i vi = Ok (facet_step fl x0 (take g dx) st (Z.of_nat i) n v).
Proof using All.
  intros Hn Hv. unfold cpp_facet_step, facet_step. rewrite (read_normal i n Hn).
  pose proof (Forall_lookup_1 _ _ _ _ Hln Hn) as Ln. pose proof (Forall_lookup_1 _ _ _ _ Hlv Hv) as Lv. cbn beta in Ln, Lv.
  rewrite dot_cpp_vdot by lia. rewrite (take_ge n) by lia. destruct (Rltb 0 _); [|reflexivity].
  rewrite Hvco, (doubles_concat g g _ vi v) by (done || lia). rewrite (take_ge v) by lia.
  assert (L : length (vsub fl v x0) = g) by (rewrite vsub_length; lia).
  change (zip_with (fun a b => fl (a - b)) v x0) with (vsub fl v x0). rewrite dot_cpp_vdot by lia. rewrite (take_ge n), (take_ge (vsub fl v x0)) by lia.
  by destruct (Rltb _ (fl _)).
Qed.
Lemma step_frac x d i n v : let st := facet_step fl x d (NO_FACET, 1) i n v in fst st = i -> i <> NO_FACET -> 0 <= snd st <= 1.
Proof using All.
  cbv zeta. unfold facet_step. cbn [snd]. set (ndx := vdot fl n d). set (d0 := vdot fl n (vsub fl v x)).
  destruct (Rltb 0 ndx) eqn:E0; [|cbn; intros <-; done]. apply Rltb_true in E0.
  set (dd := if Rltb d0 0 then - d0 else d0).
  assert (0 <= dd) by (unfold dd; destruct (Rltb d0 0) eqn:E; [apply Rltb_true in E|apply Rltb_false in E]; lra).
  destruct (Rltb dd _) eqn:E1; [|cbn; intros <-; done]. intros _ _. cbn [snd]. apply Rltb_true in E1.
  rewrite Rmult_1_l in E1.
  assert (fl ndx = ndx).
  { unfold ndx, vdot. destruct (zip n d) as [|y l _] using rev_ind; [exact (rnd_0 Hfl)|]. rewrite fold_left_app. cbn. apply (rnd_idem fl Hfl). }
  split.
  - apply (rnd_ge Hfl _ 0); [lia|]. apply Rmult_le_pos; [lra|]. left. by apply Rinv_0_lt_compat.
  - apply (rnd_le Hfl _ 1); [lia|]. apply Rmult_le_reg_r with ndx; [lra|]. unfold Rdiv. rewrite Rmult_assoc, Rinv_l, Rmult_1_r by lra. lra.
Qed.
Lemma step_fst x d st i n v : fst (facet_step fl x d st i n v) = fst st \/ fst (facet_step fl x d st i n v) = i.
Proof. unfold facet_step. destruct (Rltb 0 _); [|by left]. destruct (Rltb _ (fl _)); [by right|by left]. Qed.

(** C19: for every rounding, cell, start point and move, the C++ [find_facet] returns what the Python one returns, normal included; where Python
    reports that no facet was crossed by a non-zero move, the 1D C++ version exits and the others read outside the array of normals. *)
Theorem C19_find_facet : cpp_find_facet fl g vco fnv x0 dx =
  match find_facet fl g c x0 dx with
  | Ok (cf, f, Some n) => if (cf =? NO_FACET)%Z then Raise (if (g =? 1)%nat then SystemExit else UndefinedBehaviour) else Ok (cf, f, Some n)
  | Ok (cf, f, None) => Ok (NO_FACET, 1, None)
  | Raise e => Raise e
  end.
Proof using All.
  unfold cpp_find_facet, find_facet. rewrite dot_cpp_vdot by lia. rewrite (take_ge x0) by lia. destruct (Reqb _ 0); [reflexivity|].
  assert (HN : forall (k : Z) (f : R), (k = NO_FACET \/ 0 <= k < Z.of_nat (S g))%Z ->
    match py_get (normals c) k with
    | Ok n => if (k =? NO_FACET)%Z then py_get (normals c) k = Ok n else (let! n := doubles fnv (Z.to_nat k * 3) g in Ok (k, f, Some n)) = Ok (k, f, Some n)
    | Raise _ => False
    end).
  { intros k f Hk. destruct (Z.eqb_spec k NO_FACET) as [->|Hn].
    - unfold py_get, py_pos. rewrite Hnn. replace ((0 <=? NO_FACET) && (NO_FACET <? Z.of_nat (S g)))%Z with false by (unfold NO_FACET; lia).
      replace ((- Z.of_nat (S g) <=? NO_FACET) && (NO_FACET <? 0))%Z with true by (unfold NO_FACET; lia).
      destruct (lookup_lt_is_Some_2 (normals c) (Z.to_nat (NO_FACET + Z.of_nat (S g)))) as [y Hy]; [unfold NO_FACET; lia|]. by rewrite Hy.
    - destruct Hk as [?|Hk]; [done|]. destruct (lookup_lt_is_Some_2 (normals c) (Z.to_nat k)) as [y Hy]; [lia|].
      assert (E : py_get (normals c) k = Ok y) by (rewrite <- (Z2Nat.id k) by lia; by apply py_get_nat). rewrite E. by rewrite (read_normal _ y Hy). }
  pose proof step_ok as SO. pose proof step_frac as SF. pose proof step_fst as S1. clear Hx0 Hdx Hfnv Hvco Hln Hlv Hfl.
  unfold facet_planes.
  destruct g as [|[|[|[|g']]]] eqn:Eg; [lia| | | |lia].
  - destruct (verts c) as [|v0 [|v1 [|? ?]]] eqn:Ev; try discriminate. destruct (normals c) as [|n0 [|n1 [|? ?]]] eqn:En; try discriminate.
    cbn [facet_vertex mapM mbind option_bind lookup list_lookup mret option_ret length Nat.eqb zip zip_with].
    rewrite (SO _ 0%nat 0%nat n0 v0 eq_refl eq_refl). change (Z.of_nat 0) with 0%Z. set (st := facet_step fl x0 (take 1 dx) (NO_FACET, 1) 0 n0 v0).
    destruct (Z.eqb_spec (fst st) 0) as [E0|E0].
    + destruct st as [k f] eqn:Est. cbn [fst snd] in *. subst k. replace ((1 <? 1)%nat && (Rltb 1 f || Rltb f 0)) with false by reflexivity.
      assert (0 <= f <= 1) by (apply (f_equal snd) in Est as Es; cbn in Es; rewrite <- Es; apply (SF x0 (take 1 dx) 0%Z n0 v0); unfold st in *; [by rewrite Est|unfold NO_FACET; lia]).
      assert (Rltb f 0 = false) as -> by (apply Rltb_false; lra). assert (Rltb 1 f = false) as -> by (apply Rltb_false; lra). cbn [orb].
      pose proof (HN 0%Z f ltac:(lia)) as H0. destruct (py_get _ 0); [|done]. cbn [Z.eqb NO_FACET] in *. exact H0.
    + assert (Hst : st = (NO_FACET, 1)).
      { unfold st, facet_step in *. destruct (Rltb 0 _); [|done]. by destruct (Rltb _ (fl _)). }
      rewrite (SO _ 1%nat 1%nat n1 v1 eq_refl eq_refl), Hst. cbn [facet_scan]. change (Z.of_nat 1) with 1%Z. set (st1 := facet_step fl x0 (take 1 dx) (NO_FACET, 1) 1 n1 v1).
      destruct (S1 x0 (take 1 dx) (NO_FACET, 1) 1%Z n1 v1) as [E1|E1]; fold st1 in E1; destruct st1 as [k f] eqn:Est; cbn [fst snd] in *; subst k;
        replace ((1 <? 1)%nat && (Rltb 1 f || Rltb f 0)) with false by reflexivity.
      * pose proof (HN NO_FACET f ltac:(by left)) as H0. destruct (py_get _ NO_FACET); [|done]. reflexivity.
      * assert (0 <= f <= 1) by (apply (f_equal snd) in Est as Es; cbn in Es; rewrite <- Es; apply (SF x0 (take 1 dx) 1%Z n1 v1); unfold st1 in *; [by rewrite Est|unfold NO_FACET; lia]).
        assert (Rltb f 0 = false) as -> by (apply Rltb_false; lra). assert (Rltb 1 f = false) as -> by (apply Rltb_false; lra). cbn [orb].
        pose proof (HN 1%Z f ltac:(lia)) as H0. destruct (py_get _ 1); [|done]. cbn [Z.eqb NO_FACET] in *. exact H0.
  - destruct (verts c) as [|v0 [|v1 [|v2 [|? ?]]]] eqn:Ev; try discriminate. destruct (normals c) as [|n0 [|n1 [|n2 [|? ?]]]] eqn:En; try discriminate.
    cbn [facet_vertex mapM mbind option_bind lookup list_lookup mret option_ret length Nat.eqb zip zip_with cpp_facet_scan].
    rewrite (SO _ 0%nat 1%nat n0 v1 eq_refl eq_refl), (SO _ 1%nat 2%nat n1 v2 eq_refl eq_refl), (SO _ 2%nat 0%nat n2 v0 eq_refl eq_refl).
    pose proof (facet_scan_range fl x0 (take 2 dx) [(n0, v1); (n1, v2); (n2, v0)] 0 (NO_FACET, 1) ltac:(by left) ltac:(lia)) as HR.
    cbn [facet_scan] in HR |- *. change (0 + 1)%Z with 1%Z in *. change (1 + 1)%Z with 2%Z in *. change (Z.of_nat 0) with 0%Z. change (Z.of_nat 1) with 1%Z. change (Z.of_nat 2) with 2%Z.
    destruct (facet_step fl x0 (take 2 dx) _ 2 n2 v0) as [k f]. cbn [fst snd length] in *.
    replace ((1 <? 2)%nat && (Rltb 1 f || Rltb f 0)) with (Rltb 1 f || Rltb f 0) by reflexivity. destruct (_ || _); [reflexivity|].
    pose proof (HN k f ltac:(lia)) as H0. destruct (py_get _ k); [|done]. destruct (k =? NO_FACET)%Z; [reflexivity|]. exact H0.
  - destruct (verts c) as [|v0 [|v1 [|v2 [|v3 [|? ?]]]]] eqn:Ev; try discriminate. destruct (normals c) as [|n0 [|n1 [|n2 [|n3 [|? ?]]]]] eqn:En; try discriminate.
    cbn [facet_vertex mapM mbind option_bind lookup list_lookup mret option_ret length Nat.eqb zip zip_with cpp_facet_scan].
    rewrite (SO _ 0%nat 1%nat n0 v1 eq_refl eq_refl), (SO _ 1%nat 2%nat n1 v2 eq_refl eq_refl), (SO _ 2%nat 3%nat n2 v3 eq_refl eq_refl), (SO _ 3%nat 0%nat n3 v0 eq_refl eq_refl).
    pose proof (facet_scan_range fl x0 (take 3 dx) [(n0, v1); (n1, v2); (n2, v3); (n3, v0)] 0 (NO_FACET, 1) ltac:(by left) ltac:(lia)) as HR.
    cbn [facet_scan] in HR |- *. change (0 + 1)%Z with 1%Z in *. change (1 + 1)%Z with 2%Z in *. change (2 + 1)%Z with 3%Z in *.
    change (Z.of_nat 0) with 0%Z. change (Z.of_nat 1) with 1%Z. change (Z.of_nat 2) with 2%Z. change (Z.of_nat 3) with 3%Z.
    destruct (facet_step fl x0 (take 3 dx) _ 3 n3 v0) as [k f]. cbn [fst snd length] in *.
    replace ((1 <? 3)%nat && (Rltb 1 f || Rltb f 0)) with (Rltb 1 f || Rltb f 0) by reflexivity. destruct (_ || _); [reflexivity|].
    pose proof (HN k f ltac:(lia)) as H0. destruct (py_get _ k); [|done]. destruct (k =? NO_FACET)%Z; [reflexivity|]. exact H0.
Qed.
End Facets.

(** ** The scratch arrays *)
Lemma sized_inv s : Sized s -> exists a0 a1 a2 a3 a4 a5 d0 d1 d2, s = Scratch [a0; a1; a2; a3; a4; a5] [d0; d1; d2].
Proof.
  destruct s as [a d]. intros [Ha Hd]. cbn in Ha, Hd.
  destruct a as [|a0 [|a1 [|a2 [|a3 [|a4 [|a5 [|? ?]]]]]]]; try discriminate. destruct d as [|d0 [|d1 [|d2 [|? ?]]]]; try discriminate. eauto 10.
Qed.
(** All movers but the neutral xy one hand over the start point of the particle. *)
Theorem C19_start_point fl mv g p s : mv <> NeutralXY -> Sized s -> length (px p) = m_dim mv -> length (px0 p) = m_dim mv -> (1 <= g <= m_dim mv)%nat ->
  exists s', put_scratch fl mv g p s = Ok (s', take g (px0 p)) /\ Sized s' /\ take (m_dim mv) (s_dx s') = vsub fl (px p) (px0 p).
Proof.
  intros Hmv Hs Hx H0 Hg. destruct (sized_inv s Hs) as (a0 & a1 & a2 & a3 & a4 & a5 & d0 & d1 & d2 & ->). destruct mv; try done; cbn [m_dim] in *.
  1,3: destruct (px p) as [|x [|? ?]] eqn:Ex; try discriminate; destruct (px0 p) as [|x0 [|? ?]] eqn:E0; try discriminate;
    destruct g as [|[|g]]; try lia; unfold put_scratch; rewrite Ex, E0; cbn; eexists; split; [reflexivity|split; [by split|reflexivity]].
  - destruct (px p) as [|x [|y [|? ?]]] eqn:Ex; try discriminate; destruct (px0 p) as [|x0 [|y0 [|? ?]]] eqn:E0; try discriminate.
    destruct g as [|[|[|g]]]; try lia; unfold put_scratch; rewrite Ex, E0; cbn; eexists; (split; [reflexivity|split; [by split|reflexivity]]).
  - destruct (px p) as [|x [|y [|z [|? ?]]]] eqn:Ex; try discriminate; destruct (px0 p) as [|x0 [|y0 [|z0 [|? ?]]]] eqn:E0; try discriminate.
    destruct g as [|[|[|[|g]]]]; try lia; unfold put_scratch; rewrite Ex, E0; cbn; eexists; (split; [reflexivity|split; [by split|reflexivity]]).
Qed.
(** The neutral xy mover hands over (pCoord2[2], x0), where pCoord2[2] is whatever was there and stays there; so it hands over the start point only
    if that number is x0 and y0 is x0 too. *)
Theorem C19_xy_start_point fl p s : Sized s -> length (px p) = 2%nat -> length (px0 p) = 2%nat ->
  exists s' y, put_scratch fl NeutralXY 2 p s = Ok (s', y) /\ y = [co (s_pcoord s) 2; co (px0 p) 0] /\
    (y = px0 p <-> co (s_pcoord s) 2 = co (px0 p) 0 /\ co (px0 p) 1 = co (px0 p) 0) /\
    Sized s' /\ co (s_pcoord s') 2 = co (s_pcoord s) 2 /\ take 2 (s_dx s') = vsub fl (px p) (px0 p).
Proof.
  intros Hs Hx H0. destruct (sized_inv s Hs) as (a0 & a1 & a2 & a3 & a4 & a5 & d0 & d1 & d2 & ->).
  destruct (px p) as [|x [|y [|? ?]]] eqn:Ex; try discriminate; destruct (px0 p) as [|x0 [|y0 [|? ?]]] eqn:E0; try discriminate.
  unfold put_scratch; rewrite Ex, E0; cbn. eexists _, _. split; [reflexivity|]. split; [reflexivity|]. split; [|split; [by split|split; reflexivity]].
  unfold co. cbn. split; [intros [= -> ->]; by split|]. by intros [-> ->].
Qed.

(** ** The loops *)
Section Loops.
Context {fl : R -> R} (Hfl : Rounding fl) {K : Type} (cbcs : Z -> option (cbcfun (K:=K))) (crecd : K -> Z -> particle -> R -> res K)
  (m : mesh) (cm : cmesh) (Hm : SameMesh m cm) (mv : cmover) (Hmv : mv <> NeutralXY) (Hnc : (gdim m <= m_dim mv)%nat)
  (kd : mkind) (Hmove : kd = Charged \/ IgnoresMove cbcs) (Htime : kd = Neutral \/ fl = exact \/ IgnoresTime crecd)
  (Hkeep : KeepsShape cbcs) (maxc fi : Z).

Lemma deleted_same p : is_deleted_cpp p = is_deleted p.
Proof.
  unfold is_deleted_cpp, is_deleted, DELETE_FLAG. change 1%Z with (Z.ones 1) at 1 3. rewrite !Z.land_ones by lia.
  pose proof (Z.mod_pos_bound (pbits p) (2 ^ 1) ltac:(lia)). change (2 ^ 1)%Z with 2%Z in *. lia.
Qed.
Lemma same_facet_eqb mf ml : (0 <= mf < 2 ^ 31)%Z -> (ml = NO_FACET \/ 0 <= ml < 2 ^ 31)%Z -> same_facet mf ml = (mf =? ml)%Z.
Proof.
  intros Hf Hl. unfold same_facet. destruct Hl as [->|Hl].
  - unfold NO_FACET. change ((-1) mod 2 ^ 64)%Z with 18446744073709551615%Z. lia.
  - rewrite Z.mod_small; lia.
Qed.
Lemma c_get_same {A} (l : list A) i : (0 <= i)%Z -> (exists x, py_get l i = Ok x /\ c_get l i = Ok x) \/ (exists e, py_get l i = Raise e) /\ exists e, c_get l i = Raise e.
Proof.
  intros Hi. unfold c_get. replace (i <? 0)%Z with false by lia. destruct (l !! Z.to_nat i) as [x|] eqn:E.
  - left. exists x. split; [|done]. rewrite <- (Z2Nat.id i) by lia. by apply py_get_nat.
  - right. split; [|eauto]. destruct (py_get l i) as [x|] eqn:Eg; [|eauto]. exfalso. rewrite <- (Z2Nat.id i) in Eg by lia. apply py_get_nat in Eg. congruence.
Qed.

Lemma loops_agree fuel : forall ci ml cnt tS dtR tS' dtR' p c s k,
  (fl = exact /\ tS = tS' /\ dtR = dtR' \/ kd = Neutral /\ tS = tS' /\ dtR = dtR' \/ IgnoresTime crecd) ->
  usr c = k -> Sized s -> length (px p) = m_dim mv -> length (px0 p) = m_dim mv -> (ml = NO_FACET \/ 0 <= ml < 2 ^ 31)%Z ->
  match track_loop fl (py_bcs cbcs) (py_recd crecd) fuel kd m maxc fi ci ml cnt tS dtR p c, cpp_loop fl cbcs crecd fuel mv cm maxc fi ci ml cnt tS' dtR' p s k with
  | Ok (q, n, c'), Ok (q', n', s', k') => q = q' /\ n = n' /\ usr c' = k'
  | Raise _, Raise _ => True
  | _, _ => False
  end.
Proof using All.
  induction fuel as [|fuel IH]; intros ci ml cnt tS dtR tS' dtR' p c s k HT Hk Hs Lx L0 Hml; [done|]. cbn [track_loop cpp_loop]. cbv zeta.
  pose proof (sm_cell _ _ Hm ci) as Hc. unfold c_cell. destruct (cells m ci) as [cr|] eqn:Ecr, (c_cells cm ci) as [cc|] eqn:Ecc; try done.
  pose proof (sm_dim _ _ Hm) as Hd. rewrite (sm_t _ _ Hm), (sm_g _ _ Hm).
  assert (Hin : is_inside_vertices (gdim m) (gdim m) (c_coords cm) (c_verts cc) (take (m_dim mv) (px p)) = Ok (inside m ci (take (gdim m) (px p)))).
  { rewrite <- (sc_inside _ _ _ _ _ Hc) by (rewrite take_length; lia). rewrite (take_ge (px p)) by lia.
    pose proof (sc_verts _ _ _ _ _ Hc) as Hv. pose proof (sc_nv _ _ _ _ _ Hc) as Hn. rewrite <- Hv, map_length in Hn. clear -Hd Hnc Lx.
    destruct (gdim m) as [|[|[|[|g]]]]; [lia| | | |lia]; unfold is_inside_vertices; cbn [is_inside_by].
    - destruct (px p) as [|x ?]; cbn in *; [lia|]. done.
    - destruct (px p) as [|x [|y ?]]; cbn in *; [lia..|]. done.
    - destruct (px p) as [|x [|y [|z ?]]]; cbn in *; [lia..|]. done. }
  rewrite Hin. destruct (inside m ci _); [done|]. destruct (maxc <? cnt + 1)%Z; [done|].
  destruct (C19_start_point fl mv (gdim m) p s Hmv Hs Lx L0 ltac:(lia)) as (s1 & -> & Hs1 & Hdx). rewrite Hdx.
  rewrite (vertex_coordinates _ _ _ (sc_range _ _ _ _ _ Hc)), (sc_verts _ _ _ _ _ Hc).
  set (dx := vsub fl (px p) (px0 p)). assert (Ldx : length dx = m_dim mv) by (unfold dx; rewrite vsub_length; lia).
  assert (Hlv : Forall (fun v => length v = gdim m) (verts cr)).
  { rewrite <- (sc_verts _ _ _ _ _ Hc). apply list.Forall_forall. intros v Hv. apply elem_of_list_fmap in Hv as (w & -> & Hw).
    apply mesh_vertex_length. by apply (sc_range _ _ _ _ _ Hc). }
  assert (Etk : find_facet fl (gdim m) cr (take (gdim m) (px0 p)) dx = find_facet fl (gdim m) cr (px0 p) dx).
  { unfold find_facet. by rewrite take_take, Nat.min_id. }
  pose proof (C19_find_facet Hfl (gdim m) Hd cr (concat (verts cr)) (c_normals cc) (take (gdim m) (px0 p)) dx (sc_nv _ _ _ _ _ Hc) Hlv (sc_nn _ _ _ _ _ Hc)
    (sc_ln _ _ _ _ _ Hc) eq_refl (sc_normals _ _ _ _ _ Hc) ltac:(rewrite take_length; lia) ltac:(lia)) as HF. rewrite HF, Etk. clear HF Etk.
  destruct (find_facet fl (gdim m) cr (px0 p) dx) as [[[cf f] [n|]]|e] eqn:Eff; [| |done].
  2:{ replace (NO_FACET =? NO_FACET)%Z with true by reflexivity. destruct (Z.eqb_spec cf NO_FACET) as [|Hne]; [done|]. exfalso. revert Eff. unfold find_facet.
      destruct (Reqb _ 0); [intros [= <- _]; done|]. destruct (facet_planes _ _); [|done]. destruct (match gdim m with O => _ | S _ => _ end) as [k0 f0].
      destruct (_ && _); [done|]. destruct (py_get _ _); done. }
  destruct (Z.eqb_spec cf NO_FACET) as [|Hcf]; [done|]. replace (cf =? NO_FACET)%Z with false by lia.
  assert (Hcf0 : (0 <= cf)%Z) by (destruct (find_facet_range _ _ _ _ _ _ _ _ Eff); [done|lia]).
  rewrite (sc_fids _ _ _ _ _ Hc), (sc_nbrs _ _ _ _ _ Hc).
  destruct (c_get_same (fids cr) cf Hcf0) as [(mf & E1 & ->)|((e1 & E1) & (e2 & ->))]; rewrite E1; [|done].
  assert (Hmf : (0 <= mf < 2 ^ 31)%Z).
  { rewrite <- (Z2Nat.id cf) in E1 by lia. apply py_get_nat in E1. apply (Forall_lookup_1 _ _ _ _ (sc_f32 _ _ _ _ _ Hc) E1). }
  rewrite (same_facet_eqb mf ml Hmf Hml). destruct (mf =? ml)%Z; [done|].
  assert (Ep : vadd fl (px0 p) (vscale fl f dx) = zip_with (fun a b => fl (a + fl (f * b))) (px0 p) dx).
  { unfold vadd, vscale. clear. generalize (px0 p). induction dx as [|y dx IHd]; intros l; destruct l; cbn; [done..|]. by rewrite IHd. }
  rewrite <- Ep. set (p1 := set_px0 p (vadd fl (px0 p) (vscale fl f dx))).
  assert (Lp1 : length (px p1) = m_dim mv /\ length (px0 p1) = m_dim mv).
  { unfold p1. cbn [px px0 set_px0]. split; [done|]. rewrite vadd_length; [lia|]. rewrite vscale_length. lia. }
  set (tS1 := fl (tS + fl (f * dtR))). set (tS1' := fl (tS' + fl (f * dtR'))).
  assert (HT1 : fl = exact /\ tS1 = tS1' /\ dt_after fl kd f dtR = fl (fl (1 - f) * dtR') \/ kd = Neutral /\ tS1 = tS1' /\ dt_after fl kd f dtR = fl (fl (1 - f) * dtR') \/
     IgnoresTime crecd).
  { destruct HT as [(Ef & -> & ->)|[(-> & -> & ->)|HI]]; [left|right; left|by right; right].
    - split; [done|]. split; [done|]. rewrite Ef. unfold dt_after, exact. destruct kd; lra.
    - by repeat split. }
  unfold on_marker, cpp_on_marker. rewrite (sm_marker _ _ Hm).
  assert (Hgo : forall p2 c2 k2, usr c2 = k2 -> length (px p2) = m_dim mv /\ length (px0 p2) = m_dim mv ->
    match (let! cn := py_get (nbrs cr) cf in
      if (cn =? NO_CELL)%Z then
        if is_deleted p2 then Ok (set_pcell p2 NO_CELL, (cnt + 1)%Z, c2)
        else track_loop fl (py_bcs cbcs) (py_recd crecd) fuel kd m maxc fi ci mf (cnt + 1) tS1 (dt_after fl kd f dtR) p2 c2
      else track_loop fl (py_bcs cbcs) (py_recd crecd) fuel kd m maxc fi cn mf (cnt + 1) tS1 (dt_after fl kd f dtR) (set_pcell p2 cn) c2),
      (let! cn := c_get (nbrs cr) cf in
      if (cn =? NO_CELL)%Z then
        if is_deleted_cpp p2 then Ok (set_pcell p2 NO_CELL, (cnt + 1)%Z, s1, k2)
        else cpp_loop fl cbcs crecd fuel mv cm maxc fi ci mf (cnt + 1) tS1' (fl (fl (1 - f) * dtR')) p2 s1 k2
      else cpp_loop fl cbcs crecd fuel mv cm maxc fi cn mf (cnt + 1) tS1' (fl (fl (1 - f) * dtR')) (set_pcell p2 cn) s1 k2) with
    | Ok (q, n0, c'), Ok (q', n', s', k') => q = q' /\ n0 = n' /\ usr c' = k'
    | Raise _, Raise _ => True
    | _, _ => False
    end).
  { intros p2 c2 k2 Hk2 [L1 L2]. destruct (c_get_same (nbrs cr) cf Hcf0) as [(cn & -> & ->)|((e1' & ->) & (e2 & ->))]; [|done].
    rewrite deleted_same. destruct (cn =? NO_CELL)%Z; [destruct (is_deleted p2)|].
    - by split.
    - apply IH; try done. by right.
    - apply IH; try done. by right. }
  destruct (marker m mf =? 0)%Z; [by apply Hgo; [destruct kd|]|].
  set (c1 := put_move kd c dx). assert (Hc1 : usr c1 = k) by (unfold c1; destruct kd; done).
  assert (Erec : (if is_traj p1 then py_recd crecd c1 fi p1 tS1 else Ok c1) = (let! k1 := (if is_traj p1 then crecd k fi p1 tS1' else Ok k) in Ok (TCtx (scr c1) k1))).
  { destruct (is_traj p1).
    - unfold py_recd. rewrite Hc1. replace (crecd k fi p1 tS1') with (crecd k fi p1 tS1); [done|]. destruct HT1 as [(_ & -> & _)|[(_ & -> & _)|HI]]; [done..|apply HI].
    - rewrite <- Hc1. by destruct c1. }
  rewrite Erec. destruct (if is_traj p1 then crecd k fi p1 tS1' else Ok k) as [k1|]; [|done]. unfold py_bcs.
  destruct (cbcs (marker m mf)) as [b|] eqn:Eb; [|done]. cbn [fmap option_fmap option_map]. unfold py_bc. cbn [usr scr].
  assert (Eb2 : b k1 p1 mf (scr c1) f (Some n) = b k1 p1 mf dx f (Some n)) by (destruct Hmove as [->|HI]; [done|by apply (HI _ _ _ _ _ _ _ _ _ Eb)]).
  rewrite Eb2. destruct (b k1 p1 mf dx f (Some n)) as [[p2 k2]|] eqn:Ebr; [|done]. apply Hgo; [done|].
  destruct (Hkeep _ _ _ _ _ _ _ _ _ _ Eb Ebr) as [-> ->]. exact Lp1.
Qed.

Lemma tracks_agree time dt p c s : Sized s -> length (px p) = m_dim mv -> length (px0 p) = m_dim mv ->
  SameOutcome (track fl (py_bcs cbcs) (py_recd crecd) kd m maxc fi time dt p c) (cpp_track fl cbcs crecd mv cm maxc fi time dt p s (usr c)).
Proof using All.
  intros Hs Lx L0. unfold track, cpp_track.
  pose proof (loops_agree (track_fuel maxc) (pcell p) NO_FACET 0 (fl (time - dt)) dt (fl (time - dt)) dt p c s (usr c)) as H.
  assert (HT : fl = exact /\ fl (time - dt) = fl (time - dt) /\ dt = dt \/ kd = Neutral /\ fl (time - dt) = fl (time - dt) /\ dt = dt \/ IgnoresTime crecd).
  { destruct Htime as [?|[?|?]]; [right; left|left|right; right]; repeat split; done. }
  specialize (H HT eq_refl Hs Lx L0 ltac:(by left)).
  destruct (track_loop _ _ _ _ _ _ _ _ _ _ _ _ _ _ _) as [[[q n] c']|], (cpp_loop _ _ _ _ _ _ _ _ _ _ _ _ _ _ _ _) as [[[[q' n'] s'] k']|]; try done.
  destruct H as (-> & -> & <-). by split.
Qed.
End Loops.

(** ** C19: the movers *)

(** C19: charged particles.  For every mesh, field, boundary functions and particle, in exact arithmetic: the C++ movers (1D, radial and 2D) give the
    particle, the number of crossings and the effects that the Python mover gives, or both fail. *)
Theorem C19_charged {K} cbcs crecd m cm mv maxc fi time dt qmdt E a p (c : tctx (K:=K)) s :
  SameMesh m cm -> mv ∈ [ChargedX; ChargedXY; ChargedR] -> (gdim m <= m_dim mv)%nat -> KeepsShape cbcs -> Sized s ->
  length (px p) = m_dim mv -> length (pu p) = m_dim mv -> (forall e, E = Some e -> length e = m_dim mv) ->
  SameOutcome (advance_charged exact (py_bcs cbcs) (py_recd crecd) false m maxc fi time dt qmdt E p c)
    (cpp_advance_charged exact cbcs crecd mv a cm maxc fi time dt qmdt E p s (usr c)).
Proof.
  intros Hm Hmv Hg Hk Hs Lx Lu LE. unfold advance_charged, cpp_advance_charged. cbv zeta.
  assert (Lp : length (px (accelerate exact qmdt E p)) = m_dim mv /\ length (pu (accelerate exact qmdt E p)) = m_dim mv).
  { unfold accelerate. destruct E as [e|]; [|done]. cbn [px pu set_pu]. split; [done|]. rewrite vadd_length; [done|]. by rewrite vscale_length, (LE e eq_refl). }
  destruct Lp as [L1 L2]. apply (tracks_agree exact_rounding); try done; [|by left|by right; left|].
  - intros ->. rewrite !elem_of_cons, elem_of_nil in Hmv. intuition discriminate.
  - unfold free_move. cbn [px px0 set_px set_px0]. rewrite vadd_length; [done|]. rewrite map_length. lia.
Qed.
(** The same in any rounding, bit for bit, when the recording does not use the time of the crossing (the two languages compute the rest of the time
    step by different formulas). *)
Theorem C19_charged_rounded fl {K} cbcs crecd m cm mv maxc fi time dt qmdt E a p (c : tctx (K:=K)) s : Rounding fl -> IgnoresTime crecd ->
  SameMesh m cm -> mv ∈ [ChargedX; ChargedXY; ChargedR] -> (gdim m <= m_dim mv)%nat -> KeepsShape cbcs -> Sized s ->
  length (px p) = m_dim mv -> length (pu p) = m_dim mv -> (forall e, E = Some e -> length e = m_dim mv) ->
  SameOutcome (advance_charged fl (py_bcs cbcs) (py_recd crecd) false m maxc fi time dt qmdt E p c)
    (cpp_advance_charged fl cbcs crecd mv a cm maxc fi time dt qmdt E p s (usr c)).
Proof.
  intros Hfl HI Hm Hmv Hg Hk Hs Lx Lu LE. unfold advance_charged, cpp_advance_charged. cbv zeta.
  assert (Lp : length (px (accelerate fl qmdt E p)) = m_dim mv /\ length (pu (accelerate fl qmdt E p)) = m_dim mv).
  { unfold accelerate. destruct E as [e|]; [|done]. cbn [px pu set_pu]. split; [done|]. rewrite vadd_length; [done|]. by rewrite vscale_length, (LE e eq_refl). }
  destruct Lp as [L1 L2]. apply (tracks_agree Hfl); try done; [|by left|by right; right|].
  - intros ->. rewrite !elem_of_cons, elem_of_nil in Hmv. intuition discriminate.
  - unfold free_move. cbn [px px0 set_px set_px0]. rewrite vadd_length; [done|]. rewrite map_length. lia.
Qed.
(** Neutral particles in 3D, in any rounding: the C++ mover agrees with the Python one when the boundary functions do not look at the move vector
    (in Python they see an old one, C18). *)
Theorem C19_neutral_xyz fl {K} cbcs crecd m cm maxc fi time dt p (c : tctx (K:=K)) s : Rounding fl -> IgnoresMove cbcs -> SameMesh m cm -> KeepsShape cbcs ->
  Sized s -> length (px p) = 3%nat -> length (pu p) = 3%nat ->
  SameOutcome (advance_neutral fl (py_bcs cbcs) (py_recd crecd) m maxc fi time dt p c) (cpp_advance_neutral fl cbcs crecd NeutralXYZ cm maxc fi time dt p s (usr c)).
Proof.
  intros Hfl HI Hm Hk Hs Lx Lu. unfold advance_neutral, cpp_advance_neutral. apply (tracks_agree Hfl); try done; [|by right|by left|].
  - cbn [m_dim]. apply (sm_dim _ _ Hm).
  - unfold free_move. cbn [px px0 set_px set_px0]. rewrite vadd_length; [done|]. rewrite map_length. lia.
Qed.
(** With boundary functions that do look at it (reflection), the C++ mover does what the Python charged mover does without a field. *)
Theorem C19_neutral_xyz_reflecting {K} cbcs crecd m cm maxc fi time dt qmdt p (c : tctx (K:=K)) s : SameMesh m cm -> KeepsShape cbcs ->
  Sized s -> length (px p) = 3%nat -> length (pu p) = 3%nat ->
  SameOutcome (advance_charged exact (py_bcs cbcs) (py_recd crecd) false m maxc fi time dt qmdt None p c)
    (cpp_advance_neutral exact cbcs crecd NeutralXYZ cm maxc fi time dt p s (usr c)).
Proof.
  intros Hm Hk Hs Lx Lu. unfold advance_charged, cpp_advance_neutral. cbv zeta. cbn [accelerate]. apply (tracks_agree exact_rounding); try done; [|by left|by right; left|].
  - cbn [m_dim]. apply (sm_dim _ _ Hm).
  - unfold free_move. cbn [px px0 set_px set_px0]. rewrite vadd_length; [done|]. rewrite map_length. lia.
Qed.
(** The neutral 2D mover: the facet and the fraction it uses are those of the Python search from the point (pCoord2[2], x0). *)
Theorem C19_xy_facet fl m cm i c cc p s : Rounding fl -> gdim m = 2%nat -> SameCell m (c_coords cm) i c cc -> Sized s -> length (px p) = 2%nat -> length (px0 p) = 2%nat ->
  exists s' vco y, put_scratch fl NeutralXY 2 p s = Ok (s', y) /\ get_vertex_coordinates (c_coords cm) 2 (c_verts cc) = Ok vco /\
    cpp_find_facet fl 2 vco (c_normals cc) y (take 2 (s_dx s')) =
    match find_facet fl 2 c [co (s_pcoord s) 2; co (px0 p) 0] (vsub fl (px p) (px0 p)) with
    | Ok (cf, f, Some n) => if (cf =? NO_FACET)%Z then Raise UndefinedBehaviour else Ok (cf, f, Some n)
    | Ok (cf, f, None) => Ok (NO_FACET, 1, None)
    | Raise e => Raise e
    end.
Proof.
  intros Hfl Hg Hc Hs Lx L0. destruct (C19_xy_start_point fl p s Hs Lx L0) as (s' & y & E & -> & _ & _ & _ & Hdx).
  pose proof (sc_range _ _ _ _ _ Hc) as Hr. pose proof (sc_verts _ _ _ _ _ Hc) as Hv. rewrite Hg in Hr, Hv.
  eexists s', _, _. split; [exact E|]. split; [apply vertex_coordinates, Hr|]. rewrite Hdx, Hv.
  apply (C19_find_facet Hfl 2 ltac:(lia) c (concat (verts c)) (c_normals cc) _ _); try reflexivity.
  - rewrite (sc_nv _ _ _ _ _ Hc). lia.
  - rewrite <- Hv. apply list.Forall_forall. intros v Hvv. apply elem_of_list_fmap in Hvv as (w & -> & Hw). apply mesh_vertex_length. by apply Hr.
  - rewrite (sc_nn _ _ _ _ _ Hc). lia.
  - rewrite <- Hg. apply (sc_ln _ _ _ _ _ Hc).
  - apply (sc_normals _ _ _ _ _ Hc).
  - rewrite vsub_length; lia.
Qed.

(** Example: a triangle with a wall on each side that absorbs. *)
Definition tri_verts : list R := [0; 0; 4; 0; 0; 3].
Definition tri_cell : cellrec := CellRec [[0; 0]; [4; 0]; [0; 3]] [[3/5; 4/5]; [-1; 0]; [0; -1]] [0; 1; 2]%Z [-1; -1; -1]%Z.
Definition tri_mesh : mesh := Mesh 2 (fun i => if (i =? 0)%Z then Some tri_cell else None)
  (fun i x => match is_inside_vertices 2 2 tri_verts [0; 1; 2]%nat x with Ok b => b | Raise _ => false end) (fun _ => 1%Z).
Definition tri_cmesh : cmesh := CMesh 2 2 tri_verts
  (fun i => if (i =? 0)%Z then Some (CCell [0; 1; 2]%nat [3/5; 4/5; 0; -1; 0; 0; 0; -1; 0] [0; 1; 2]%Z [-1; -1; -1]%Z) else None) (fun _ => 1%Z).
Definition absorb : cbcfun (K:=unit) := fun k p mf dx f n => Ok (set_pbits p (Z.lor (pbits p) 1), k).
Definition absorbs : Z -> option (cbcfun (K:=unit)) := fun _ => Some absorb.
Definition no_rec : unit -> Z -> particle -> R -> res unit := fun k _ _ _ => Ok k.
Lemma tri_same : SameMesh tri_mesh tri_cmesh.
Proof.
  split; try reflexivity; [cbn; lia|]. intros i. cbn. destruct (i =? 0)%Z; [|done]. split; try reflexivity.
  - intros v Hv. cbn in *. rewrite !elem_of_cons, elem_of_nil in Hv. lia.
  - cbn. repeat constructor.
  - cbn. repeat (apply Forall_cons_2; [lia|]). apply Forall_nil_2.
Qed.
Definition zeros : scratch := Scratch [0; 0; 0; 0; 0; 0] [0; 0; 0].
Definition thrown (x u : vec) : particle := Particle x [0; 0] u 1 0 0 7 0.
Lemma tri_inside x y : 0 < x -> y < 0 -> is_inside_vertices 2 2 tri_verts [0; 1; 2]%nat [x; y] = Ok false.
Proof.
  intros Hx Hy. destruct (C37_inside 2 tri_verts [0; 1; 2]%nat [x; y] ltac:(lia) eq_refl) as [H|(b & -> & Hb)].
  - intros v Hv. cbn. rewrite !elem_of_cons, elem_of_nil in Hv. lia.
  - done.
  - f_equal. apply not_true_iff_false. intros E. apply Hb in E. apply hull3 in E as (r & t & u & Hr & Ht & Hu & Es & HC).
    pose proof (HC 1%nat ltac:(lia)) as E1. unfold mesh_vertex, co in E1. cbn in E1. lra.
Qed.
(** One crossing of the bottom, and absorption. *)
Lemma tri_absorbed mv p s s1 y dx f : m_dim mv = 2%nat -> pcell p = 0%Z -> pbits p = 0%Z -> 0 < co (px p) 0 -> co (px p) 1 < 0 -> length (px p) = 2%nat ->
  put_scratch exact mv 2 p s = Ok (s1, y) -> take 2 (s_dx s1) = dx ->
  cpp_find_facet exact 2 tri_verts [3/5; 4/5; 0; -1; 0; 0; 0; -1; 0] y dx = Ok (2%Z, f, Some [0; -1]) ->
  cpp_track exact absorbs no_rec mv tri_cmesh 10 0 1 1 p s tt =
  Ok (set_pcross (set_pcell (set_pbits (set_px0 p (zip_with (fun a b => a + f * b) (px0 p) dx)) 1) NO_CELL) 1, s1, tt).
Proof.
  intros Hd Hc Hb Hx Hy Hl Hp Hdx Hf. unfold cpp_track. rewrite Hc. unfold track_fuel. cbn [cpp_loop]. cbv zeta.
  change (c_cell tri_cmesh 0) with (Ok (CCell [0; 1; 2]%nat [3/5; 4/5; 0; -1; 0; 0; 0; -1; 0] [0; 1; 2]%Z [-1; -1; -1]%Z)). cbn iota beta.
  change (c_tdim tri_cmesh) with 2%nat. change (c_gdim tri_cmesh) with 2%nat. change (c_coords tri_cmesh) with tri_verts. cbn [c_verts c_normals c_fids c_nbrs].
  rewrite Hd. destruct (px p) as [|x [|z [|? ?]]] eqn:Ex; try discriminate. cbn [take]. unfold co in Hx, Hy. cbn in Hx, Hy. rewrite tri_inside by done.
  replace (10 <? 0 + 1)%Z with false by reflexivity. rewrite Hp.
  change (get_vertex_coordinates tri_verts 2 [0; 1; 2]%nat) with (@Ok (list R) tri_verts). cbn iota beta. rewrite Hdx, Hf. cbn iota beta.
  change (2 =? NO_FACET)%Z with false. cbn iota. change (c_get [0; 1; 2]%Z 2%Z) with (@Ok Z 2%Z). cbn iota beta. change (same_facet 2%Z NO_FACET) with false. cbn iota.
  unfold cpp_on_marker. change (c_marker tri_cmesh 2%Z) with 1%Z. change (1 =? 0)%Z with false. cbn iota.
  unfold is_traj. cbn [pbits set_px0]. rewrite Hb. change (negb (Z.land 0 TRAJECTORY_FLAG =? 0)%Z) with false. cbn iota beta. unfold absorbs, absorb. cbn iota beta.
  change (c_get [-1; -1; -1]%Z 2%Z) with (@Ok Z (-1)%Z). cbn iota beta. change (-1 =? NO_CELL)%Z with true. cbn iota.
  unfold is_deleted_cpp. cbn [pbits set_px0 set_pbits]. rewrite Hb. change (Z.land (Z.lor 0 1) DELETE_FLAG =? 1)%Z with true. cbn iota beta. reflexivity.
Qed.
Lemma tri_facet x y u f : 0 <= y -> 0 < u -> y < u -> f = y / u -> cpp_find_facet exact 2 tri_verts [3/5; 4/5; 0; -1; 0; 0; 0; -1; 0] [x; y] [0; - u] = Ok (2%Z, f, Some [0; -1]).
Proof.
  intros Hy Hu Hyu Hf. unfold cpp_find_facet, dot_cpp, co, exact. cbn [List.nth].
  replace (Reqb (0 * 0 + - u * - u) 0) with false by (symmetry; apply Reqb_false; nra). cbn [Nat.eqb cpp_facet_scan].
  unfold cpp_facet_step, doubles, tri_verts, dot_cpp, co, exact. cbn [length Nat.add Nat.mul Nat.ltb Nat.leb take drop List.nth zip_with].
  replace (Rltb 0 (3 / 5 * 0 + 4 / 5 * - u)) with false by (symmetry; apply Rltb_false; lra).
  replace (Rltb 0 (-1 * 0 + 0 * - u)) with false by (symmetry; apply Rltb_false; lra).
  replace (Rltb 0 (0 * 0 + -1 * - u)) with true by (symmetry; apply Rltb_true; lra).
  replace (Rltb (0 * (0 - x) + -1 * (0 - y)) 0) with false by (symmetry; apply Rltb_false; lra). cbn [snd].
  replace (Rltb (0 * (0 - x) + -1 * (0 - y)) (1 * (0 * 0 + -1 * - u))) with true by (symmetry; apply Rltb_true; lra). cbn [fst snd Z.of_nat].
  assert (E : (0 * (0 - x) + -1 * (0 - y)) / (0 * 0 + -1 * - u) = f) by (rewrite Hf; field; lra). cbn. rewrite E.
  assert (0 <= f < 1).
  { rewrite Hf. split; [apply Rmult_le_pos; [lra|]; left; by apply Rinv_0_lt_compat|]. apply Rmult_lt_reg_r with u; [lra|]. unfold Rdiv. rewrite Rmult_assoc, Rinv_l; lra. }
  replace (Rltb 1 f) with false by (symmetry; apply Rltb_false; lra). replace (Rltb f 0) with false by (symmetry; apply Rltb_false; lra). reflexivity.
Qed.
Lemma absorbs_shape : KeepsShape absorbs.
Proof. intros v b k p mf dx f n q k' [= <-]. unfold absorb. intros [= <- _]. by split. Qed.
Lemma absorbs_ignores : IgnoresMove absorbs.
Proof. by intros v b k p mf dx dx' f n [= <-]. Qed.
(** What the Python neutral mover does there: the crossing is where the particle passes y = 0. *)
Lemma tri_python x y u : 0 < x -> 0 <= y -> y < u ->
  exists q c, advance_neutral exact (py_bcs absorbs) (py_recd no_rec) tri_mesh 10 0 1 1 (thrown [x; y] [0; - u]) (TCtx [0; 0] tt) = Ok (q, c) /\ px0 q = [x; 0].
Proof.
  intros Hx Hy Hu. unfold advance_neutral. set (p := free_move exact 1 (thrown [x; y] [0; - u])).
  assert (Ep : p = Particle [x + 0 * 1; y + - u * 1] [x; y] [0; - u] 1 0 0 7 0) by reflexivity.
  pose proof (tracks_agree exact_rounding absorbs no_rec tri_mesh tri_cmesh tri_same ChargedXY ltac:(discriminate) ltac:(cbn; lia) Neutral
    ltac:(right; exact absorbs_ignores) ltac:(by left) absorbs_shape 10 0 1 1 p (TCtx [0; 0] tt) zeros ltac:(by split) eq_refl eq_refl) as H.
  cbn [usr] in H.
  rewrite (tri_absorbed ChargedXY p zeros (Scratch [x + 0 * 1; y + - u * 1; x; y; 0; 0] [x + 0 * 1 - x; y + - u * 1 - y; 0]) [x; y] [0; - u] (y / u)) in H;
    [|reflexivity|reflexivity|reflexivity|rewrite Ep; unfold co; cbn; lra|rewrite Ep; unfold co; cbn; lra|reflexivity|reflexivity| |by apply tri_facet; [..|reflexivity]; lra].
  - destruct (track _ _ _ _ _ _ _ _ _ _ _) as [[q c]|]; [|done]. destruct H as [-> _]. eexists _, _. split; [reflexivity|]. rewrite Ep. cbn.
    f_equal; [field; lra|]. f_equal. field; lra.
  - cbn. f_equal; [lra|]. f_equal; lra.
Qed.

(** Neutral particle at (1, 2) moving down by 4 leaves the triangle at (1, 0), half-way; the C++ 2D mover puts the crossing at (1, 1), inside the
    triangle.  One at (3, 1/2) moving down by 1 leaves at (3, 0); the C++ 2D mover finds no facet and reads outside the array of normals. *)
Theorem C19_xy_refuted :
  (exists q c, advance_neutral exact (py_bcs absorbs) (py_recd no_rec) tri_mesh 10 0 1 1 (thrown [1; 2] [0; -4]) (TCtx [0; 0] tt) = Ok (q, c) /\ px0 q = [1; 0]) /\
  (exists q s k, cpp_advance_neutral exact absorbs no_rec NeutralXY tri_cmesh 10 0 1 1 (thrown [1; 2] [0; -4]) zeros tt = Ok (q, s, k) /\ px0 q = [1; 1]) /\
  (exists q c, advance_neutral exact (py_bcs absorbs) (py_recd no_rec) tri_mesh 10 0 1 1 (thrown [3; 1/2] [0; -1]) (TCtx [0; 0] tt) = Ok (q, c) /\ px0 q = [3; 0]) /\
  cpp_advance_neutral exact absorbs no_rec NeutralXY tri_cmesh 10 0 1 1 (thrown [3; 1/2] [0; -1]) zeros tt = Raise UndefinedBehaviour.
Proof.
  split; [|split; [|split]].
  - apply (tri_python 1 2 4); lra.
  - unfold cpp_advance_neutral. set (p := free_move exact 1 (thrown [1; 2] [0; -4])).
    assert (Ep : p = Particle [1 + 0 * 1; 2 + -4 * 1] [1; 2] [0; -4] 1 0 0 7 0) by reflexivity.
    rewrite (tri_absorbed NeutralXY p zeros (Scratch [1 + 0 * 1; 2 + -4 * 1; 0; 1; 2; 0] [1 + 0 * 1 - 1; 2 + -4 * 1 - 2; 0]) [0; 1] [0; -4] (1 / 4));
      [|reflexivity|reflexivity|reflexivity|rewrite Ep; unfold co; cbn; lra|rewrite Ep; unfold co; cbn; lra|reflexivity|reflexivity| |by apply (tri_facet 0 1 4); [..|reflexivity]; lra].
    + eexists _, _, _. split; [reflexivity|]. rewrite Ep. cbn. f_equal; [lra|]. f_equal. lra.
    + cbn. f_equal; [lra|]. f_equal; lra.
  - apply (tri_python 3 (1/2) 1); lra.
  - unfold cpp_advance_neutral, cpp_track. set (p := free_move exact 1 (thrown [3; 1/2] [0; -1])).
    assert (Ep : p = Particle [3 + 0 * 1; 1/2 + -1 * 1] [3; 1/2] [0; -1] 1 0 0 7 0) by reflexivity. rewrite Ep. cbn [pcell]. unfold track_fuel. cbn [cpp_loop]. cbv zeta.
    change (c_cell tri_cmesh 0) with (Ok (CCell [0; 1; 2]%nat [3/5; 4/5; 0; -1; 0; 0; 0; -1; 0] [0; 1; 2]%Z [-1; -1; -1]%Z)). cbn iota beta.
    change (c_tdim tri_cmesh) with 2%nat. change (c_gdim tri_cmesh) with 2%nat. change (c_coords tri_cmesh) with tri_verts. cbn [c_verts c_normals c_fids c_nbrs m_dim px take].
    rewrite tri_inside by lra. replace (10 <? 0 + 1)%Z with false by reflexivity.
    change (put_scratch exact NeutralXY 2 _ zeros) with (@Ok (scratch * vec) (Scratch [3 + 0 * 1; 1/2 + -1 * 1; 0; 3; 1/2; 0] [3 + 0 * 1 - 3; 1/2 + -1 * 1 - 1/2; 0], [0; 3])).
    cbn iota beta. change (get_vertex_coordinates tri_verts 2 [0; 1; 2]%nat) with (@Ok (list R) tri_verts). cbn iota beta. cbn [s_dx take].
    replace [3 + 0 * 1 - 3; 1/2 + -1 * 1 - 1/2] with [0; -1] by (f_equal; [lra|]; f_equal; lra).
    assert (E : cpp_find_facet exact 2 tri_verts [3/5; 4/5; 0; -1; 0; 0; 0; -1; 0] [0; 3] [0; -1] = Raise UndefinedBehaviour); [|by rewrite E].
    unfold cpp_find_facet, dot_cpp, co, exact. cbn [List.nth]. replace (Reqb (0 * 0 + -1 * -1) 0) with false by (symmetry; apply Reqb_false; lra). cbn [Nat.eqb cpp_facet_scan].
    unfold cpp_facet_step, doubles, tri_verts, dot_cpp, co, exact. cbn [length Nat.add Nat.mul Nat.ltb Nat.leb take drop List.nth zip_with].
    replace (Rltb 0 (3 / 5 * 0 + 4 / 5 * -1)) with false by (symmetry; apply Rltb_false; lra).
    replace (Rltb 0 (-1 * 0 + 0 * -1)) with false by (symmetry; apply Rltb_false; lra).
    replace (Rltb 0 (0 * 0 + -1 * -1)) with true by (symmetry; apply Rltb_true; lra).
    replace (Rltb (0 * (0 - 0) + -1 * (0 - 3)) 0) with false by (symmetry; apply Rltb_false; lra). cbn [snd].
    replace (Rltb (0 * (0 - 0) + -1 * (0 - 3)) (1 * (0 * 0 + -1 * -1))) with false by (symmetry; apply Rltb_false; lra). cbn [fst snd].
    replace (Rltb 1 1) with false by (symmetry; apply Rltb_false; lra). replace (Rltb 1 0) with false by (symmetry; apply Rltb_false; lra). reflexivity.
Qed.

(** The charged 2D mover on the same particle finds the right crossing. *)
Example C19_charged_example : exists q s, cpp_advance_charged exact absorbs no_rec ChargedXY false tri_cmesh 10 0 1 1 1 None (thrown [1; 2] [0; -4]) zeros tt = Ok (q, s, tt) /\
  px0 q = [1; 0] /\ is_deleted q = true /\ pcross q = 1%Z /\ pcell q = NO_CELL.
Proof.
  unfold cpp_advance_charged. cbn [accelerate]. set (p := free_move exact 1 (thrown [1; 2] [0; -4])).
  assert (Ep : p = Particle [1 + 0 * 1; 2 + -4 * 1] [1; 2] [0; -4] 1 0 0 7 0) by reflexivity.
  rewrite (tri_absorbed ChargedXY p zeros (Scratch [1 + 0 * 1; 2 + -4 * 1; 1; 2; 0; 0] [1 + 0 * 1 - 1; 2 + -4 * 1 - 2; 0]) [1; 2] [0; -4] (2 / 4));
    [|reflexivity|reflexivity|reflexivity|rewrite Ep; unfold co; cbn; lra|rewrite Ep; unfold co; cbn; lra|reflexivity|reflexivity| |by apply (tri_facet 1 2 4); [..|reflexivity]; lra].
  - eexists _, _. split; [reflexivity|]. rewrite Ep. cbn. split; [|done]. f_equal; [lra|]. f_equal. lra.
  - cbn. f_equal; [lra|]. f_equal; lra.
Qed.

(** [accel_only]: the C++ movers do not look at it.  The Python mover asked only to accelerate leaves the particle where it is; the C++ one moves it. *)
Theorem C19_accel_only_refuted : exists m cm p q q' c s, SameMesh m cm /\
  advance_charged exact (py_bcs absorbs) (py_recd no_rec) true m 10 0 1 1 1 None p (TCtx [0; 0] tt) = Ok (q, c) /\ px q = [1; 1] /\
  cpp_advance_charged exact absorbs no_rec ChargedXY true cm 10 0 1 1 1 None p zeros tt = Ok (q', s, tt) /\ px q' = [1; 1/2].
Proof.
  assert (Hin : forall y, 0 <= y -> y <= 1 -> is_inside_vertices 2 2 tri_verts [0; 1; 2]%nat [1; y] = Ok true).
  { intros y Hy1 Hy2. destruct (C37_inside 2 tri_verts [0; 1; 2]%nat [1; y] ltac:(lia) eq_refl) as [H|(b & -> & Hb)]; [|done|].
    - intros v Hv. cbn. rewrite !elem_of_cons, elem_of_nil in Hv. lia.
    - f_equal. apply Hb. apply hull3. exists (3/4 - y / 3), (1/4), (y / 3). split; [lra|]. split; [lra|]. split; [lra|]. split; [lra|].
      intros i Hi. destruct i as [|[|i]]; [| |lia]; unfold mesh_vertex, co; cbn; lra. }
  eexists tri_mesh, tri_cmesh, (thrown [1; 1] [0; -1/2]), _, _, _, _. split; [exact tri_same|]. split; [|split; [|split]].
  - unfold advance_charged. cbv zeta. cbn [accelerate]. unfold track, track_fuel. cbn [track_loop pcell thrown].
    change (cells tri_mesh 0) with (Some tri_cell). cbn iota. change (gdim tri_mesh) with 2%nat. cbn [px take thrown].
    replace (inside tri_mesh 0 [1; 1]) with true; [reflexivity|]. unfold inside, tri_mesh. by rewrite Hin by lra.
  - reflexivity.
  - unfold cpp_advance_charged. cbn [accelerate]. unfold cpp_track, track_fuel. set (p := free_move exact 1 (thrown [1; 1] [0; -1/2])).
    assert (Ep : p = Particle [1 + 0 * 1; 1 + -1/2 * 1] [1; 1] [0; -1/2] 1 0 0 7 0) by reflexivity. rewrite Ep. cbn [pcell cpp_loop]. cbv zeta.
    change (c_cell tri_cmesh 0) with (Ok (CCell [0; 1; 2]%nat [3/5; 4/5; 0; -1; 0; 0; 0; -1; 0] [0; 1; 2]%Z [-1; -1; -1]%Z)). cbn iota beta.
    change (c_tdim tri_cmesh) with 2%nat. change (c_gdim tri_cmesh) with 2%nat. change (c_coords tri_cmesh) with tri_verts. cbn [c_verts m_dim px take].
    replace [1 + 0 * 1; 1 + -1/2 * 1] with [1; 1/2] by (f_equal; [lra|]; f_equal; lra). rewrite Hin by lra. reflexivity.
  - reflexivity.
Qed.

Print Assumptions C19_find_facet.
Print Assumptions C19_start_point.
Print Assumptions C19_xy_start_point.
Print Assumptions C19_charged.
Print Assumptions C19_charged_rounded.
Print Assumptions C19_neutral_xyz.
Print Assumptions C19_neutral_xyz_reflecting.
Print Assumptions C19_xy_facet.
Print Assumptions C19_xy_refuted.
Print Assumptions C19_accel_only_refuted.
