(** C55: which ring meshes with crossed diagonals are conforming. *)
From stdpp Require Import list_numbers.
From Coq Require Cantor.
From Verif Require Import Vec VecProofs TrackModel BcModel Geometry FindFacetProps Conforming MeshModel MeshProps InsideModel InsideProps LineMeshModel LineMeshProps.
From Verif Require Import TriMeshModel TriMeshProps RectMeshProofs RectMeshProps CircMeshProps.
Local Open Scope R_scope.

(** ** Moving the vertices leaves the tables of facets and neighbours as they are *)
Lemma moved_cells num nx ny dg posA posB mkA mkB mA : (forall v, length (posA v) = 2%nat) -> Oriented nx ny dg posA -> Numbering num (rect_tris nx ny dg) ->
  tri_mesh num (map posA (rect_gvertices nx ny dg)) (rect_tris nx ny dg) mkA = Ok mA ->
  exists mB, tri_mesh num (map posB (rect_gvertices nx ny dg)) (rect_tris nx ny dg) mkB = Ok mB /\ gdim mB = 2%nat /\
    (forall c cr, cells mB c = Some cr -> exists k g, c = Z.of_nat k /\ rect_gtris nx ny dg !! k = Some g) /\
    forall k a b d, rect_gtris nx ny dg !! k = Some (a, b, d) -> exists nb pa pb pd nsA,
      cells mA (Z.of_nat k) = Some (CellRec [pa; pb; pd] nsA
        (map Z.of_nat [num (gnum nx ny b, gnum nx ny d); num (gnum nx ny a, gnum nx ny d); num (gnum nx ny a, gnum nx ny b)]) nb) /\
      cells mB (Z.of_nat k) = Some (CellRec [posB a; posB b; posB d] (tri_normals (posB a) (posB b) (posB d))
        (map Z.of_nat [num (gnum nx ny b, gnum nx ny d); num (gnum nx ny a, gnum nx ny d); num (gnum nx ny a, gnum nx ny b)]) nb).
Proof.
  intros Hlen HO Hnum E. pose proof (grid_triangulation nx ny dg posA num Hlen HO Hnum) as HT.
  destruct (tri_mesh_ok num _ _ mkA HT) as (m' & E' & _ & _ & _ & _ & Hall). rewrite E in E'. injection E' as <-.
  pose proof (pos_at nx ny dg posA) as PA. pose proof (pos_at nx ny dg posB) as PB. set (xsA := map posA (rect_gvertices nx ny dg)) in *. set (xsB := map posB (rect_gvertices nx ny dg)) in *.
  clearbody xsA xsB. unfold tri_mesh in *. destruct (compute_cell_neighbors_dict _ _) as [rows|]; [|discriminate]. injection E as <-.
  eexists. split; [reflexivity|]. split; [reflexivity|]. cbn [cells] in *. split.
  - intros c cr Hc. unfold tri_cell in Hc. destruct (c <? 0)%Z eqn:Ec; [discriminate|]. exists (Z.to_nat c).
    assert (Ht : rect_tris nx ny dg !! Z.to_nat c = gtri_num nx ny <$> (rect_gtris nx ny dg !! Z.to_nat c)) by apply list_lookup_fmap.
    destruct (rect_gtris nx ny dg !! Z.to_nat c) as [g|]; [exists g; split; [lia|done]|]. rewrite Ht in Hc. discriminate.
  - intros k a b d Ek. pose proof (elem_of_list_lookup_2 _ _ _ Ek) as (i & j & Hi & Hj & Hg)%gtris_in. destruct (signed_in _ _ _ _ Hg) as [s H].
    pose proof (tri_used _ _ _ _ _ _ _ Hi Hj H) as (Ua & Ub & Ud & _).
    assert (Ekt : rect_tris nx ny dg !! k = Some (gnum nx ny a, gnum nx ny b, gnum nx ny d)) by (unfold rect_tris; rewrite list_lookup_fmap; by rewrite Ek).
    destruct (Hall k (lookup_lt_Some _ _ _ Ekt)) as [cr Hcr].
    unfold tri_cell in *. replace (Z.of_nat k <? 0)%Z with false in * by lia. rewrite Nat2Z.id, (tri_facets_at _ _ _ _ Ekt) in Hcr |- *. rewrite Ekt in Hcr |- *. cbn [mbind option_bind] in *.
    rewrite (PA a Ua), (PA b Ub), (PA d Ud) in Hcr. rewrite (PA a Ua), (PA b Ub), (PA d Ud). rewrite (PB a Ua), (PB b Ub), (PB d Ud).
    cbn [mbind option_bind] in *. destruct (rows !! k) as [row|]; [|discriminate]. cbn [mbind option_bind] in *.
    destruct (mapM (fun e => e) row) as [nb|]; [|discriminate]. cbn [mbind option_bind] in *. eexists nb, _, _, _, _. split; reflexivity.
Qed.

Lemma tri_normal_same o o' u v : length o = 2%nat -> length o' = 2%nat -> length u = 2%nat -> length v = 2%nat ->
  0 < orient2d o u v * orient2d o' u v -> tri_normal o' u v = tri_normal o u v.
Proof.
  intros (ox & oy & ->)%len2 (ox' & oy' & ->)%len2 (ux & uy & ->)%len2 (vx & vy & ->)%len2 HD.
  destruct (tri_normal_eq ox oy ux uy vx vy) as (_ & _ & ->); [intros E; rewrite E in HD; lra|].
  destruct (tri_normal_eq ox' oy' ux uy vx vy) as (HL & _ & ->); [intros E; rewrite E in HD; lra|].
  assert (sgn (orient2d [ox; oy] [ux; uy] [vx; vy]) = sgn (orient2d [ox'; oy'] [ux; uy] [vx; vy])) as ->; [|done].
  unfold sgn. destruct (Rltb 0 (orient2d [ox; oy] _ _)) eqn:E1, (Rltb 0 (orient2d [ox'; oy'] _ _)) eqn:E2; try done.
  - apply Rltb_true in E1. apply Rltb_false in E2. nra.
  - apply Rltb_true in E2. apply Rltb_false in E1. nra.
Qed.
(** The vertices of a triangle with outward normals are not on a line. *)
Lemma simplex_orient cr p q r : Simplex 2 cr -> verts cr = [p; q; r] -> orient2d p q r <> 0.
Proof.
  intros HS Hv HD. pose proof (sx_nn _ _ HS) as Hn. pose proof (sx_ln _ _ HS) as Ln. pose proof (sx_lv _ _ HS) as Lv. pose proof (sx_out _ _ HS) as Ou.
  rewrite Hv in Lv, Ou. apply list.Forall_cons in Lv as [Lp Lv]. apply list.Forall_cons in Lv as [Lq Lv]. apply list.Forall_cons in Lv as [Lr _].
  destruct (normals cr) as [|n0 [|n1 [|n2 [|? ?]]]] eqn:En; try discriminate.
  apply list.Forall_cons in Ln as [L0 Ln]. apply list.Forall_cons in Ln as [L1 Ln]. apply list.Forall_cons in Ln as [L2 _]. unfold on_facet in Ou. cbn [Nat.eqb] in Ou.
  assert (HH : forall n a b c, length n = 2%nat -> length a = 2%nat -> length b = 2%nat -> length c = 2%nat -> Hull 2 [a; b] c -> dot n c < dot n a -> dot n c < dot n b -> False).
  { intros n a b c Hl (ax & ay & ->)%len2 (bx & by_ & ->)%len2 (cx & cy & ->)%len2 HH HA HB. destruct (len2 n Hl) as (nx & ny & ->).
    apply hull2 in HH as (s & t & Hs & Ht & H1 & Hc). pose proof (Hc 0%nat ltac:(lia)) as C0. pose proof (Hc 1%nat ltac:(lia)) as C1. unfold co in C0, C1. cbn [nth] in C0, C1.
    rewrite !dot2 in *. assert (nx * cx + ny * cy = s * (nx * ax + ny * ay) + t * (nx * bx + ny * by_)) as HE by (rewrite C0, C1; ring).
    set (A := nx * ax + ny * ay) in *. set (B := nx * bx + ny * by_) in *. set (C := nx * cx + ny * cy) in *. clearbody A B C.
    assert (s = 1 - t) as -> by lra. destruct Ht as [Ht| <-]; [|lra]. pose proof (Rmult_lt_0_compat t (B - C) Ht ltac:(lra)). assert (0 <= (1 - t) * (A - C)) by (apply Rmult_le_pos; lra). lra. }
  destruct (middle p q r HD) as [H|[H|H]].
  - apply (HH n2 p q r); try assumption; [apply (Ou 2%nat n2 0%nat p 2%nat r)|apply (Ou 2%nat n2 1%nat q 2%nat r)]; try done; tauto.
  - apply (HH n0 q r p); try assumption; [apply (Ou 0%nat n0 1%nat q 0%nat p)|apply (Ou 0%nat n0 2%nat r 0%nat p)]; try done; tauto.
  - apply (HH n1 r p q); try assumption; [apply (Ou 1%nat n1 2%nat r 1%nat q)|apply (Ou 1%nat n1 0%nat p 1%nat q)]; try done; tauto.
Qed.

(** C55: with the diagonals 'crossed' the mesh of a part of a ring can always be made, but it is conforming exactly if every middle vertex
    lies on the inner side of the outer facet of its row. *)
Theorem C55_ring_crossed num nr nt rmin rmax stretch tmax irmin irmax ithmin ithmax :
  (1 <= nr)%nat -> (1 <= nt)%nat -> 0 < rmin -> rmin < rmax -> 0 < stretch -> 0 < tmax -> tmax / INR nt < PI ->
  Numbering num (rect_tris nr nt Crossed_) ->
  exists m, circ_mesh num nr nt rmin rmax stretch tmax Crossed_ irmin irmax ithmin ithmax = Ok m /\
    (Conforming m <-> forall i, (i < nr)%nat ->
       ring nr rmin rmax stretch (INR i + / 2) < ring nr rmin rmax stretch (INR i + 1) * cos (tmax / INR nt / 2)).
Proof.
  intros Hnr Hnt Hr0 Hr Hst Ht Hd Hnum.
  assert (EV : circ_vertices nr nt rmin rmax stretch tmax Crossed_ =
    map (fun v => cylinder tmax (denser rmin rmax stretch (gpos nr nt rmin rmax 0 1 v))) (rect_gvertices nr nt Crossed_)).
  { unfold circ_vertices, rect_vertices. by rewrite map_map. }
  set (pos := fun v => cylinder tmax (denser rmin rmax stretch (gpos nr nt rmin rmax 0 1 v))) in *.
  set (mk := rect_marker num nr nt rmin rmax 0 1 Crossed_ irmin irmax ithmin ithmax).
  pose proof (rect_oriented nr nt rmin rmax 0 1 Crossed_ Hnr Hnt Hr ltac:(lra)) as HO.
  pose proof (rect_triangulation num nr nt rmin rmax 0 1 Crossed_ Hnr Hnt Hr ltac:(lra) Hnum) as HT.
  destruct (tri_mesh_ok num _ _ mk HT) as (mA & EA & _).
  destruct (moved_cells num nr nt Crossed_ (gpos nr nt rmin rmax 0 1) pos mk mk mA (pos_len nr nt rmin rmax 0 1) HO Hnum EA) as (m & E & Hgd & Hcells & Htab).
  exists m. split; [unfold circ_mesh; rewrite EV; exact E|]. split.
  2: { intros Hc. destruct (C55_ring num nr nt rmin rmax stretch tmax Crossed_ irmin irmax ithmin ithmax Hnr Hnt Hr0 Hr Hst Ht Hd (fun _ => Hc) Hnum) as (m' & E' & _ & HC & _).
    unfold circ_mesh in E'. rewrite EV in E'. assert (Ok m = Ok m') as [= ->] by (rewrite <- E; exact E'). exact HC. }
  intros HC i Hi. destruct (circ_pos nr nt rmin rmax stretch tmax RightDiag Hnr Hnt Hr) as (Pc & Pm); [discriminate|].
  assert (Hlen : forall v, length (pos v) = 2%nat) by reflexivity.
  fold pos in Pc, Pm. change (forall i j, pos (Corner i j) = polar (ring nr rmin rmax stretch (INR i)) (INR j * (tmax / INR nt))) in Pc.
  change (forall i j, pos (Middle i j) = polar (ring nr rmin rmax stretch (INR i + / 2)) ((INR j + / 2) * (tmax / INR nt))) in Pm. clearbody pos.
  pose proof (fun H => ring_mono nr nt rmin rmax stretch tmax RightDiag Hnr Hnt Hr Hst H) as RM. cbv zeta in RM. specialize (RM ltac:(discriminate)).
  pose proof (fun H => ring_pos nr nt rmin rmax stretch tmax RightDiag Hnr Hnt Hr Hst H) as RP. cbv zeta in RP. specialize (RP ltac:(discriminate)).
  set (rho := ring nr rmin rmax stretch) in *. clearbody rho.
  assert (0 < INR nt) by (apply lt_0_INR; lia). assert (Hda : 0 < tmax / INR nt) by (apply Rdiv_lt_0_compat; lra). set (da := tmax / INR nt) in *.
  set (v0 := Corner i 0). set (v1 := Corner (S i) 0). set (v3 := Corner (S i) 1). set (w := Middle i 0).
  assert (Hg1 : (v0, v1, w) ∈ rect_gtris nr nt Crossed_) by (apply gtris_in; exists i, 0%nat; split; [lia|]; split; [lia|]; cbn [square_tris]; rewrite !elem_of_cons; tauto).
  assert (Hg2 : (v1, v3, w) ∈ rect_gtris nr nt Crossed_) by (apply gtris_in; exists i, 0%nat; split; [lia|]; split; [lia|]; cbn [square_tris]; rewrite !elem_of_cons; tauto).
  apply elem_of_list_lookup in Hg1 as [k1 K1]. apply elem_of_list_lookup in Hg2 as [k2 K2].
  destruct (Htab k1 v0 v1 w K1) as (nb1 & _ & _ & _ & _ & _ & C1). destruct (Htab k2 v1 v3 w K2) as (nb2 & pa & pb & pd & nsA & A2 & C2).
  pose proof (pos_INR i) as Pi. pose proof (RP _ Pi) as R0. pose proof (RM (INR i) (INR i + / 2) ltac:(lra)) as R1. pose proof (RM (INR i + / 2) (INR i + 1) ltac:(lra)) as R2.
  assert (HS : 0 < sin da) by (apply sin_gt_0; lra). assert (Hh : 0 < sin (da / 2)) by (apply sin_gt_0; lra).
  assert (HE : sin da = 2 * sin (da / 2) * cos (da / 2)) by (rewrite <- sin_2a; f_equal; field).
  assert (O1 : 0 < orient2d (pos v0) (pos v1) (pos w)).
  { unfold v0, v1, w. rewrite !Pc, Pm, polar_orient, S_INR. cbn [INR]. replace (0 * da - 0 * da) with 0 by ring. replace ((0 + / 2) * da - 0 * da) with (da / 2) by field. rewrite sin_0.
    replace (_ + _ - _) with ((rho (INR i + 1) - rho (INR i)) * rho (INR i + / 2) * sin (da / 2)) by ring. repeat apply Rmult_lt_0_compat; lra. }
  assert (O2 : orient2d (pos v1) (pos v3) (pos w) = 2 * rho (INR i + 1) * sin (da / 2) * (rho (INR i + 1) * cos (da / 2) - rho (INR i + / 2))).
  { unfold v1, v3, w. rewrite !Pc, Pm, polar_orient, S_INR. cbn [INR]. replace (1 * da - 0 * da) with da by ring. replace ((0 + / 2) * da - 1 * da) with (- (da / 2)) by field.
    replace ((0 + / 2) * da - 0 * da) with (da / 2) by field. rewrite sin_neg, HE. ring. }
  assert (O2' : orient2d (pos v3) (pos v1) (pos w) = - orient2d (pos v1) (pos v3) (pos w)).
  { destruct (len2 _ (Hlen v1)) as (? & ? & ->), (len2 _ (Hlen v3)) as (? & ? & ->), (len2 _ (Hlen w)) as (? & ? & ->). rewrite !orient2d_2. ring. }
  destruct (Rlt_dec (rho (INR i + / 2)) (rho (INR i + 1) * cos (da / 2))) as [Hok|Hbad]; [exact Hok|exfalso].
  pose proof (cf_simplex _ HC _ _ C2) as HX. rewrite Hgd in HX. pose proof (simplex_orient _ _ _ _ HX eq_refl) as HN.
  assert (O3 : 0 < orient2d (pos v3) (pos v1) (pos w)).
  { rewrite O2'. rewrite O2 in HN |- *. assert (0 < 2 * rho (INR i + 1) * sin (da / 2)) by (repeat apply Rmult_lt_0_compat; lra).
    destruct (Req_dec (rho (INR i + / 2)) (rho (INR i + 1) * cos (da / 2))) as [He|He]; [rewrite He in HN; exfalso; apply HN; ring|]. nra. }
  (* the facet from v1 to the middle has the second cell on its wrong side *)
  destruct (grid_cell nr nt Crossed_ _ num mk mA _ _ (pos_len nr nt rmin rmax 0 1) HO Hnum EA A2) as (k' & a' & b' & d' & _ & _ & _ & Hk' & Ek' & _ & _ & _ & _ & Hside).
  assert (k' = k2) as -> by lia. rewrite K2 in Ek'. injection Ek' as <- <- <-. cbn [fids nbrs] in Hside.
  pose proof (cf_nbrs _ HC _ _ C2) as Ln. rewrite Hgd in Ln. cbn [nbrs] in Ln.
  destruct (lookup_lt_is_Some_2 nb2 1) as [cn Hcn]; [lia|].
  destruct (Hside 1%nat _ cn eq_refl Hcn) as (go & gu & gv & Hs & _ & Hout & _).
  assert (cn <> NO_CELL) as Hne.
  { destruct Hs as [(? & _)|[(_ & -> & -> & ->)|(? & _)]]; [lia| |lia]. rewrite Hout. intros [[] (z & _ & _ & Hz)]; discriminate. }
  destruct (cf_shared _ HC _ _ 1%nat cn _ _ C2 Hcn Hne eq_refl eq_refl) as (cr' & i' & Hcr' & Hf' & Hn' & _).
  destruct (Hcells cn cr' Hcr') as (k3 & [[a3 b3] d3] & -> & K3). destruct (Htab k3 a3 b3 d3 K3) as (nb3 & _ & _ & _ & _ & _ & C3). rewrite C3 in Hcr'. injection Hcr' as <-.
  cbn [fids normals] in Hf', Hn'.
  assert (Hi' : (i' < 3)%nat) by (apply lookup_lt_Some in Hf'; exact Hf').
  assert (exists o u v, GSide (a3, b3, d3) i' o u v) as (o & u & v & Hs3).
  { destruct i' as [|[|[|i']]]; [exists a3, b3, d3|exists b3, a3, d3|exists d3, a3, b3|lia]; cbn; tauto. }
  assert (Hn3 : tri_normal (pos o) (pos u) (pos v) = vscale exact (-1) (tri_normal (pos v3) (pos v1) (pos w)) /\ num (gnum nr nt u, gnum nr nt v) = num (gnum nr nt v1, gnum nr nt w)).
  { destruct Hs3 as [(-> & -> & -> & ->)|[(-> & -> & -> & ->)|(-> & -> & -> & ->)]]; cbn -[gnum] in Hf', Hn'; injection Hf' as Hf'; injection Hn' as Hn'; (split; [exact Hn'|exact (Nat2Z.inj _ _ Hf')]). }
  destruct Hn3 as [Hn3 Hnm].
  assert (T2 : gtri_num nr nt (v1, v3, w) ∈ rect_tris nr nt Crossed_) by (apply elem_of_list_fmap; exists (v1, v3, w); split; [done|by eapply elem_of_list_lookup_2]).
  assert (T3 : gtri_num nr nt (a3, b3, d3) ∈ rect_tris nr nt Crossed_) by (apply elem_of_list_fmap; exists (a3, b3, d3); split; [done|by eapply elem_of_list_lookup_2]).
  assert (Hee : (gnum nr nt u, gnum nr nt v) = (gnum nr nt v1, gnum nr nt w)).
  { apply (Hnum _ _ _ _ T3 T2); [|cbn; rewrite !elem_of_cons; tauto|exact Hnm].
    exact (side_in_edges _ _ _ _ _ (side_lower nr nt _ _ _ _ _ Hs3)). }
  pose proof (f_equal fst Hee : gnum nr nt u = gnum nr nt v1) as Eu. pose proof (f_equal snd Hee : gnum nr nt v = gnum nr nt w) as Ev.
  pose proof (elem_of_list_lookup_2 _ _ _ K3) as (p & q & Hp & Hq & Hg)%gtris_in. destruct (signed_in _ _ _ _ Hg) as [s H3].
  destruct (gside_used _ _ _ _ _ _ _ _ _ _ _ Hp Hq H3 Hs3) as (_ & Uu & Uv).
  apply (gnum_inj nr nt) in Eu; [|apply Uu|unfold v1; cbn [GV]; lia]. apply (gnum_inj nr nt) in Ev; [|apply Uv|unfold w; cbn [GV]; lia]. subst u v.
  assert (Ho : o = v0 \/ o = v3).
  { destruct (square_kinds _ _ _ _ _ H3) as [(E0 & _)|[(E0 & _)|(_ & HK)]]; [done|done|].
    destruct HK as [[EK _]|[[EK _]|[[EK _]|[EK _]]]]; injection EK as -> -> ->;
      destruct Hs3 as [(_ & -> & Hu & Hv)|[(_ & -> & Hu & Hv)|(_ & -> & Hu & Hv)]]; unfold v1, w in Hu, Hv; try discriminate; injection Hv as ? ?; injection Hu as ? ?; subst;
      try (exfalso; lia); unfold v0, v3; first [left; done|right; done|left; f_equal; lia|right; f_equal; lia]. }
  assert (HS3 : tri_normal (pos o) (pos v1) (pos w) = tri_normal (pos v3) (pos v1) (pos w)).
  { apply tri_normal_same; try apply Hlen. destruct Ho as [->| ->]; apply Rmult_lt_0_compat; assumption. }
  rewrite HS3 in Hn3.
  destruct (tri_normal_ok (pos v3) (pos v1) (pos w) (Hlen _) (Hlen _) (Hlen _) ltac:(lra)) as (Ln3 & Hun & _).
  set (n := tri_normal (pos v3) (pos v1) (pos w)) in *. destruct (len2 n Ln3) as (n1 & n2 & En). rewrite En in Hn3, Hun. cbn in Hn3. unfold exact in Hn3. injection Hn3 as N1 N2.
  rewrite dot2 in Hun. assert (n1 = 0) by lra. assert (n2 = 0) by lra. subst n1 n2. lra.
Qed.

(** One row and one column: a quarter turn between the radii 1 and 2 goes wrong, a sixth of a turn between 1 and 3 does not. *)
Lemma np_power_half : np_power ((INR 0 + / 2) / INR 1) 1 = / 2.
Proof. unfold np_power. cbn [INR]. replace ((0 + / 2) / 1) with (/ 2) by field. rewrite (proj2 (Reqb_false (/ 2) 0)) by lra. apply Rpower_1. lra. Qed.
Lemma np_power_one : np_power ((INR 0 + 1) / INR 1) 1 = 1.
Proof. cbn [INR]. replace ((0 + 1) / 1) with 1 by field. apply np_power_1. Qed.
Example C55_crossed_wrong : exists m, circ_mesh Cantor.to_nat 1 1 1 2 1 (PI / 2) Crossed_ 1 2 3 4 = Ok m /\ ~ Conforming m.
Proof.
  pose proof PI_RGT_0 as HP.
  destruct (C55_ring_crossed Cantor.to_nat 1 1 1 2 1 (PI / 2) 1 2 3 4) as (m & E & H); [lia|lia|lra|lra|lra|lra|cbn [INR]; lra|apply cantor_numbering|].
  exists m. split; [exact E|]. intros HC. pose proof (proj1 H HC 0%nat ltac:(lia)) as HK. unfold ring in HK. rewrite np_power_half, np_power_one in HK.
  replace (PI / 2 / INR 1 / 2) with (PI / 4) in HK by (cbn [INR]; field). rewrite cos_PI4 in HK.
  assert (Hs : R_sqrt.sqrt 2 * R_sqrt.sqrt 2 = 2) by (apply sqrt_sqrt; lra). assert (0 < R_sqrt.sqrt 2) by (apply sqrt_lt_R0; lra).
  assert (HK' : 3 / 2 * R_sqrt.sqrt 2 < 2).
  { replace ((1 + (2 - 1) * 1) * (1 / R_sqrt.sqrt 2)) with (2 / R_sqrt.sqrt 2) in HK by (field; lra). apply (Rmult_lt_compat_r (R_sqrt.sqrt 2)) in HK; [|lra].
    unfold Rdiv in HK. rewrite (Rmult_assoc 2), Rinv_l in HK by lra. lra. }
  nra.
Qed.
Example C55_crossed_right : exists m, circ_mesh Cantor.to_nat 1 1 1 3 1 (PI / 3) Crossed_ 1 2 3 4 = Ok m /\ Conforming m.
Proof.
  pose proof PI_RGT_0 as HP.
  destruct (C55_ring_crossed Cantor.to_nat 1 1 1 3 1 (PI / 3) 1 2 3 4) as (m & E & H); [lia|lia|lra|lra|lra|lra|cbn [INR]; lra|apply cantor_numbering|].
  exists m. split; [exact E|]. apply H. intros i Hi. assert (i = 0)%nat as -> by lia. unfold ring. rewrite np_power_half, np_power_one.
  replace (PI / 3 / INR 1 / 2) with (PI / 6) by (cbn [INR]; field). rewrite cos_PI6.
  assert (Hs : R_sqrt.sqrt 3 * R_sqrt.sqrt 3 = 3) by (apply sqrt_sqrt; lra). assert (0 < R_sqrt.sqrt 3) by (apply sqrt_lt_R0; lra). nra.
Qed.
Print Assumptions C55_ring_crossed.
