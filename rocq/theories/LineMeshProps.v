(** C35: the radial mesh.  C49: interval meshes have the properties that the tracking theorems ask for. *)
From stdpp Require Import list_numbers.
From Verif Require Import Vec VecProofs TrackModel BcModel Geometry FindFacetProps Conforming MeshModel MeshProps LineMeshModel.
From Verif Require Import TrackProofs TrackGeomProofs.
Local Open Scope R_scope.

(** ** What is meant *)
Definition Increasing (vs : list R) : Prop := forall i x y, vs !! i = Some x -> vs !! S i = Some y -> x < y.

(** ** The tables of an interval mesh *)
Lemma line_simplicial n : Simplicial (line_topo n) 1.
Proof.
  split; cbn [line_topo t_ncell t_facets t_cells].
  - done.
  - intros c _. apply list.NoDup_cons. split; [rewrite elem_of_list_singleton; lia|]. apply NoDup_singleton.
  - intros c f Hc. rewrite elem_of_app, elem_of_cons, elem_of_list_singleton.
    destruct ((1 <=? f)%nat && (f <=? n)%nat) eqn:E1, (f <? n)%nat eqn:E2; rewrite ?elem_of_list_singleton, ?elem_of_nil.
    all: lia.
  - intros f. destruct ((1 <=? f)%nat && (f <=? n)%nat) eqn:E1, (f <? n)%nat eqn:E2; cbn [app].
    + apply list.NoDup_cons. split; [rewrite elem_of_list_singleton; lia|]. apply NoDup_singleton.
    + apply NoDup_singleton.
    + apply NoDup_singleton.
    + apply list.NoDup_nil. exact I.
  - intros f. destruct ((1 <=? f)%nat && (f <=? n)%nat) eqn:E1, (f <? n)%nat eqn:E2; cbn; lia.
  - intros f c. rewrite elem_of_app. destruct ((1 <=? f)%nat && (f <=? n)%nat) eqn:E1, (f <? n)%nat eqn:E2; rewrite ?elem_of_list_singleton, ?elem_of_nil; lia.
Qed.

(** The row of cell [c] of a mesh of [n] intervals. *)
Definition line_row (n : nat) (c : Z) : list Z := [c - 1; if (c + 1 =? Z.of_nat n)%Z then -1 else c + 1]%Z.
Lemma line_rows n : exists rows, compute_cell_neighbors_dict (line_topo n) 1 = Ok rows /\ length rows = n /\
  forall c, (c < n)%nat -> rows !! c = Some (map Some (line_row n (Z.of_nat c))).
Proof.
  destruct (C34_table (line_topo n) 1 (line_simplicial n)) as (rows & E & Hl & Hrow & H). exists rows. split; [exact E|]. cbn in Hl. split; [exact Hl|].
  intros c Hc. destruct (rows !! c) as [row|] eqn:Er; [|apply lookup_ge_None in Er; lia].
  assert (Hlr : length row = 2%nat) by (apply Hrow; by eapply elem_of_list_lookup_2).
  destruct row as [|a [|b [|]]]; try discriminate. clear Hlr.
  assert (Ha : a = Some (Z.of_nat c - 1)%Z).
  { destruct (H c 0%nat c Hc eq_refl) as [H1 H2]. unfold nbr in H1, H2. rewrite Er in H1, H2. cbn -[Nat.leb Nat.ltb] in H1, H2. destruct (decide (c = 0%nat)) as [->|Hn].
    - apply H2. change (1 <=? 0)%nat with false. cbn [andb app]. by rewrite (proj2 (Nat.ltb_lt 0 n)) by lia.
    - replace (Z.of_nat c - 1)%Z with (Z.of_nat (pred c)) by lia. apply H1. split; [lia|].
      rewrite (proj2 (Nat.leb_le 1 c)), (proj2 (Nat.leb_le c n)) by lia. cbn. left. }
  assert (Hb : b = Some (if (Z.of_nat c + 1 =? Z.of_nat n)%Z then -1 else Z.of_nat c + 1)%Z).
  { destruct (H c 1%nat (S c) Hc eq_refl) as [H1 H2]. unfold nbr in H1, H2. rewrite Er in H1, H2.
    cbn -[Nat.leb Nat.ltb] in H1, H2. rewrite (proj2 (Nat.leb_le 1 (S c))), (proj2 (Nat.leb_le (S c) n)) in H1, H2 by lia. cbn [andb] in H1, H2.
    destruct (Z.of_nat c + 1 =? Z.of_nat n)%Z eqn:E2.
    - apply H2. by rewrite (proj2 (Nat.ltb_ge (S c) n)) by lia.
    - replace (Z.of_nat c + 1)%Z with (Z.of_nat (S c)) by lia. apply H1. split; [lia|]. rewrite (proj2 (Nat.ltb_lt (S c) n)) by lia. right. left. }
  by rewrite Ha, Hb.
Qed.

Lemma interval_normals_eq x0 x1 : x0 < x1 -> interval_normals x0 x1 = [[-1]; [1]].
Proof.
  intros H. unfold interval_normals. rewrite Rabs_left by lra.
  replace ((x0 - x1) / - (x0 - x1)) with (-1) by (field; lra). do 3 f_equal. lra.
Qed.

(** What the cells of an interval mesh are. *)
Definition LineCell (vs : list R) (c : Z) (cr : cellrec) : Prop := exists x0 x1,
  (0 <= c < Z.of_nat (length vs) - 1)%Z /\ vs !! Z.to_nat c = Some x0 /\ vs !! S (Z.to_nat c) = Some x1 /\ x0 < x1 /\
  cr = CellRec [[x0]; [x1]] [[-1]; [1]] [c; c + 1]%Z (line_row (pred (length vs)) c).
Lemma interval_mesh_ok vs mk : Increasing vs -> exists m, interval_mesh vs mk = Ok m /\ gdim m = 1%nat /\ marker m = mk /\
  inside m = interval_inside vs /\ (forall c cr, cells m c = Some cr <-> LineCell vs c cr).
Proof.
  intros HI. destruct (line_rows (pred (length vs))) as (rows & E & Hl & H). unfold interval_mesh. rewrite E.
  eexists. split; [reflexivity|]. split; [done|]. split; [done|]. split; [done|]. cbn [cells]. intros c cr. unfold interval_cell.
  destruct (c <? 0)%Z eqn:E0; [split; [discriminate|intros (? & ? & ? & _); lia]|].
  destruct (decide (c < Z.of_nat (length vs) - 1)%Z) as [Hc|Hc].
  - destruct (vs !! Z.to_nat c) as [x0|] eqn:E1; [|apply lookup_ge_None in E1; lia].
    destruct (vs !! S (Z.to_nat c)) as [x1|] eqn:E2; [|apply lookup_ge_None in E2; lia].
    pose proof (HI _ _ _ E1 E2) as Hlt. rewrite H by lia. cbn [mbind option_bind]. rewrite Z2Nat.id by lia.
    cbn [mapM line_row map list_fmap mbind option_bind fmap]. change (mapM _ _) with (Some (line_row (pred (length vs)) c)). cbn [mbind option_bind].
    rewrite interval_normals_eq by exact Hlt. cbn [line_topo t_facets map list_fmap fmap].
    replace (Z.of_nat (Z.to_nat c)) with c by lia. replace (Z.of_nat (S (Z.to_nat c))) with (c + 1)%Z by lia. split.
    + intros [= <-]. exists x0, x1. repeat split; try assumption; try lia.
    + intros (y0 & y1 & _ & F1 & F2 & _ & ->). rewrite E1 in F1. rewrite E2 in F2. injection F1 as <-. injection F2 as <-. reflexivity.
  - destruct (vs !! Z.to_nat c) as [x0|] eqn:E1; cbn [mbind option_bind].
    2: { split; [discriminate|]. intros (? & ? & ? & _). lia. }
    rewrite (lookup_ge_None_2 vs (S (Z.to_nat c))) by lia. cbn. split; [discriminate|]. intros (? & ? & ? & _). lia.
Qed.

Lemma in_interval x0 x1 fs nb a : InCell 1 (CellRec [[x0]; [x1]] [[-1]; [1]] fs nb) [a] <-> x0 <= a <= x1.
Proof.
  split.
  - intros HI. pose proof (HI 0%nat [-1] 0%nat [x0] eq_refl eq_refl eq_refl) as A.
    pose proof (HI 1%nat [1] 1%nat [x1] eq_refl eq_refl eq_refl) as B. cbn in A, B. lra.
  - intros Ha i n j v Hn Hv Ho. unfold on_facet in Ho. cbn in Ho. subst j.
    destruct i as [|[|i]]; cbn in Hn, Hv; try discriminate; injection Hn as <-; injection Hv as <-; cbn; lra.
Qed.
Lemma interval_inside_spec vs c cr a : LineCell vs c cr -> exists x0 x1, vs !! Z.to_nat c = Some x0 /\ vs !! S (Z.to_nat c) = Some x1 /\
  (interval_inside vs c [a] = true <-> x0 <= a <= x1).
Proof.
  intros (x0 & x1 & Hc & E1 & E2 & _). exists x0, x1. split; [exact E1|]. split; [exact E2|]. unfold interval_inside.
  replace (c <? 0)%Z with false by lia. rewrite E1, E2, andb_true_iff, !negb_true_iff, !Rltb_false. tauto.
Qed.

(** C49: the tables of every interval mesh with increasing vertices have the properties that the tracking theorems ask for. *)
Theorem C49_conforming vs mk m : Increasing vs -> interval_mesh vs mk = Ok m -> Conforming m.
Proof.
  intros HI E. destruct (interval_mesh_ok vs mk HI) as (m' & E' & Hd & Hmk & Hins & Hcells). rewrite E in E'. injection E' as <-.
  split.
  - intros c cr Hc. rewrite Hd. apply Hcells in Hc as (x0 & x1 & Hc & E1 & E2 & Hlt & ->). split; try (cbn; lia); try (by repeat constructor).
    all: intros i n j v j' v' Hn Hv Hv' H1 H2; unfold on_facet in *; cbn in H1, H2; subst j;
      try subst j'; destruct i as [|[|i]]; cbn in Hn, Hv; simplify_eq; cbn in Hv'; simplify_eq; try done;
      destruct j' as [|[|j']]; cbn in Hv'; simplify_eq; try (exfalso; by apply H2); cbn; lra.
  - intros c cr Hc. apply Hcells in Hc as (x0 & x1 & Hc & E1 & E2 & Hlt & ->). repeat constructor; cbn; lra.
  - intros c cr x Hc Hx. rewrite Hd in *. destruct x as [|a [|]]; cbn in Hx; try lia. rewrite Hins. apply Hcells in Hc.
    destruct (interval_inside_spec vs c cr a Hc) as (y0 & y1 & F1 & F2 & ->).
    destruct Hc as (x0 & x1 & Hc & E1 & E2 & Hlt & ->). rewrite E1 in F1. rewrite E2 in F2. injection F1 as <-. injection F2 as <-. by rewrite in_interval.
  - intros c cr Hc. rewrite Hd. apply Hcells in Hc as (x0 & x1 & Hc & E1 & E2 & Hlt & ->). cbn. split; [done|]. split.
    + apply list.NoDup_cons. split; [rewrite elem_of_list_singleton; lia|apply NoDup_singleton].
    + unfold NO_FACET. rewrite elem_of_cons, elem_of_list_singleton. lia.
  - intros c cr Hc. rewrite Hd. by apply Hcells in Hc as (x0 & x1 & Hc & E1 & E2 & Hlt & ->).
  - intros c cr i cn n mf Hc Hnb Hcn Hn Hf. rewrite Hd. apply Hcells in Hc as (x0 & x1 & Hc & E1 & E2 & Hlt & ->). cbn [nbrs normals fids verts] in *.
    unfold line_row in Hnb. destruct i as [|[|i]]; [| |done]; cbn in Hnb, Hn, Hf; injection Hnb as <-; injection Hn as <-; injection Hf as <-; unfold NO_CELL in Hcn.
    + destruct (vs !! Z.to_nat (c - 1)) as [w|] eqn:Ew; [|apply lookup_ge_None in Ew; lia].
      assert (Ew' : vs !! S (Z.to_nat (c - 1)) = Some x0) by (rewrite <- E1; f_equal; lia).
      eexists _, 1%nat. split; [|split; [|split]].
      * apply Hcells. exists w, x0. split; [lia|]. split; [exact Ew|]. split; [exact Ew'|]. split; [exact (HI _ _ _ Ew Ew')|reflexivity].
      * cbn. f_equal. lia.
      * cbn. unfold exact. do 3 f_equal. lra.
      * intros [|a [|]] Hx Hin Ho; cbn in Hx; try lia. apply in_interval. apply in_interval in Hin.
        specialize (Ho 0%nat [x0] eq_refl eq_refl). cbn in Ho. pose proof (HI _ _ _ Ew Ew'). lra.
    + destruct (c + 1 =? _)%Z eqn:En; [lia|].
      destruct (vs !! S (Z.to_nat (c + 1))) as [w|] eqn:Ew; [|apply lookup_ge_None in Ew; lia].
      assert (Ew' : vs !! Z.to_nat (c + 1) = Some x1) by (rewrite <- E2; f_equal; lia).
      eexists _, 0%nat. split; [|split; [|split]].
      * apply Hcells. exists x1, w. split; [lia|]. split; [exact Ew'|]. split; [exact Ew|]. split; [exact (HI _ _ _ Ew' Ew)|reflexivity].
      * cbn. reflexivity.
      * cbn. unfold exact. do 3 f_equal. lra.
      * intros [|a [|]] Hx Hin Ho; cbn in Hx; try lia. apply in_interval. apply in_interval in Hin.
        specialize (Ho 1%nat [x1] eq_refl eq_refl). cbn in Ho. pose proof (HI _ _ _ Ew' Ew). lra.
Qed.

(** ** [find_facet] in an interval *)
Lemma find_facet_right x0 x1 fs nb y x : x0 <= y <= x1 -> x1 < x ->
  find_facet exact 1 (CellRec [[x0]; [x1]] [[-1]; [1]] fs nb) [y] [x - y] = Ok (1%Z, (x1 - y) / (x - y), Some [1]).
Proof.
  intros Hy Hx. unfold find_facet. cbn [take facet_planes verts normals]. unfold facet_planes. cbn. unfold exact.
  rewrite (proj2 (Reqb_false _ 0)) by nra. cbn. unfold facet_step. cbn. unfold exact.
  rewrite (proj2 (Rltb_false 0 _)) by lra. cbn.
  rewrite (proj2 (Rltb_true 0 _)) by lra. rewrite (proj2 (Rltb_false _ 0)) by lra. rewrite (proj2 (Rltb_true _ _)) by lra.
  cbn. do 3 f_equal. field. lra.
Qed.
Lemma find_facet_left x0 x1 fs nb y x : x0 <= y <= x1 -> x < x0 ->
  find_facet exact 1 (CellRec [[x0]; [x1]] [[-1]; [1]] fs nb) [y] [x - y] = Ok (0%Z, (y - x0) / (y - x), Some [-1]).
Proof.
  intros Hy Hx. unfold find_facet. cbn [take facet_planes verts normals]. unfold facet_planes. cbn. unfold exact.
  rewrite (proj2 (Reqb_false _ 0)) by nra. cbn. unfold facet_step. cbn. unfold exact.
  rewrite (proj2 (Rltb_true 0 _)) by lra. rewrite (proj2 (Rltb_false _ 0)) by lra. rewrite (proj2 (Rltb_true _ _)) by lra.
  cbn. do 3 f_equal. field. lra.
Qed.

(** ** Tracking on an interval mesh with absorbing ends *)
Section Tracking.
Context {K : Type} (bcs : Z -> option (bcfun (K:=K))) (recd : tctx (K:=K) -> Z -> particle -> R -> res (tctx (K:=K))) (k : mkind)
        (vs : list R) (mk : Z -> Z) (m : mesh) (maxc fi : Z).
Let n : Z := Z.of_nat (pred (length vs)).
Context (HI : Increasing vs) (Hm : interval_mesh vs mk = Ok m)
        (Hlen : (2 <= length vs)%nat)
        (Hin : forall f, (0 < f < n)%Z -> mk f = 0%Z)
        (Hleft : mk 0%Z <> 0%Z /\ bcs (mk 0%Z) = Some absorb_bc)
        (Hright : mk n <> 0%Z /\ bcs (mk n) = Some absorb_bc)
        (Hrec : forall c i p t, exists c', recd c i p t = Ok c').

(** The data that tracking keeps. *)
Let Same (p q : particle) : Prop := px q = px p /\ pu q = pu p /\ pw q = pw p /\ puid q = puid p.
(** The cell [c] contains [x]. *)
Let Holds (c : Z) (x : R) : Prop := exists x0 x1, (0 <= c)%Z /\ vs !! Z.to_nat c = Some x0 /\ vs !! S (Z.to_nat c) = Some x1 /\ x0 <= x <= x1.

Lemma step_inside fuel ci cr ml cnt tS dtR p c x : LineCell vs ci cr -> px p = [x] -> Holds ci x ->
  track_loop exact bcs recd (S fuel) k m maxc fi ci ml cnt tS dtR p c = Ok (p, cnt, c).
Proof using HI Hm.
  intros Hcr Hx (x0 & x1 & _ & E1 & E2 & Hb).
  destruct (interval_mesh_ok vs mk HI) as (m' & E' & Hd & Hmk & Hins & Hcells). rewrite Hm in E'. injection E' as <-.
  cbn [track_loop]. rewrite (proj2 (Hcells ci cr) Hcr). rewrite Hd, Hx, Hins. cbn [take].
  destruct (interval_inside_spec vs ci cr x Hcr) as (y0 & y1 & F1 & F2 & Hi). rewrite E1 in F1. rewrite E2 in F2. injection F1 as <-. injection F2 as <-.
  by rewrite (proj2 Hi Hb).
Qed.

(** One crossing to the right. *)
Lemma step_right fuel ci cr ml cnt tS dtR p c x y x1 : LineCell vs ci cr -> px p = [x] -> px0 p = [y] -> vs !! S (Z.to_nat ci) = Some x1 ->
  Holds ci y -> x1 < x -> (ml < ci + 1)%Z -> (cnt + 1 <= maxc)%Z ->
  exists tS' dtR' c', track_loop exact bcs recd (S fuel) k m maxc fi ci ml cnt tS dtR p c =
    if (ci + 1 =? n)%Z then Ok (set_pcell (set_pbits (set_px0 p [x1]) (Z.lor (pbits p) DELETE_FLAG)) NO_CELL, cnt + 1, c')%Z
    else track_loop exact bcs recd fuel k m maxc fi (ci + 1) (ci + 1) (cnt + 1) tS' dtR' (set_pcell (set_px0 p [x1]) (ci + 1)%Z) c'.
Proof using HI Hm Hin Hright Hrec Hlen.
  intros Hcr Hx Hx0 E2 (x0 & x1' & _ & E1 & E2' & Hb) Hlt Hml Hcnt. rewrite E2 in E2'. injection E2' as <-.
  destruct (interval_mesh_ok vs mk HI) as (m' & E' & Hd & Hmk & Hins & Hcells). rewrite Hm in E'. injection E' as <-.
  destruct (interval_inside_spec vs ci cr x Hcr) as (y0 & y1 & F1 & F2 & Hi). rewrite E1 in F1. rewrite E2 in F2. injection F1 as <-. injection F2 as <-.
  cbn [track_loop]. rewrite (proj2 (Hcells ci cr) Hcr). rewrite Hd, Hx, Hins. cbn [take].
  destruct (interval_inside vs ci [x]); [assert (x0 <= x <= x1) by (by apply Hi); lra|]. clear Hi.
  replace (maxc <? cnt + 1)%Z with false by lia. rewrite Hx0. cbn [vsub zip_with]. change (exact (x - y)) with (x - y).
  destruct Hcr as (a0 & a1 & Hc & G1 & G2 & Hlt' & ->). rewrite E1 in G1. rewrite E2 in G2. injection G1 as <-. injection G2 as <-.
  rewrite (find_facet_right x0 x1 _ _ y x Hb Hlt). cbn iota beta. change (1 =? NO_FACET)%Z with false.
  cbn [fids nbrs]. change (py_get [ci; (ci + 1)%Z] 1) with (Ok (ci + 1)%Z). cbn iota beta.
  replace (ci + 1 =? ml)%Z with false by lia.
  assert (Hv : vadd exact [y] (vscale exact ((x1 - y) / (x - y)) [x - y]) = [x1]) by (cbn; unfold exact; f_equal; field; lra).
  rewrite Hv. set (c1 := put_move k c [x - y]). set (tS1 := exact (tS + _)). set (dtR1 := dt_after exact k _ dtR).
  unfold on_marker. rewrite Hmk.
  destruct (ci + 1 =? n)%Z eqn:En.
  - assert (ci + 1 = n)%Z as -> by lia. destruct Hright as [Hz Hbc]. replace (mk n =? 0)%Z with false by lia.
    assert (exists c2, (if is_traj (set_px0 p [x1]) then recd c1 fi (set_px0 p [x1]) tS1 else Ok c1) = Ok c2) as [c2 ->].
    { destruct (is_traj _); [apply Hrec|by exists c1]. }
    exists tS, dtR, c2. cbn iota beta. rewrite Hbc. unfold absorb_bc. cbn iota beta.
    unfold line_row. replace (ci + 1 =? Z.of_nat (pred (length vs)))%Z with true by (subst n; lia).
    change (py_get [(ci - 1)%Z; (-1)%Z] 1) with (Ok (-1)%Z). cbn iota beta. change (-1 =? NO_CELL)%Z with true. cbn iota.
    rewrite absorb_deletes. reflexivity.
  - rewrite Hin by (subst n; lia). cbn [Z.eqb]. exists tS1, dtR1, c1. unfold line_row.
    replace (ci + 1 =? Z.of_nat (pred (length vs)))%Z with false by (subst n; lia).
    change (py_get [(ci - 1)%Z; (ci + 1)%Z] 1) with (Ok (ci + 1)%Z). cbn iota beta. unfold NO_CELL at 1. replace (ci + 1 =? -1)%Z with false by lia. reflexivity.
Qed.

(** One crossing to the left. *)
Lemma step_left fuel ci cr ml cnt tS dtR p c x y x0 : LineCell vs ci cr -> px p = [x] -> px0 p = [y] -> vs !! Z.to_nat ci = Some x0 ->
  Holds ci y -> x < x0 -> (ml = NO_FACET \/ ci < ml)%Z -> (cnt + 1 <= maxc)%Z ->
  exists tS' dtR' c', track_loop exact bcs recd (S fuel) k m maxc fi ci ml cnt tS dtR p c =
    if (ci =? 0)%Z then Ok (set_pcell (set_pbits (set_px0 p [x0]) (Z.lor (pbits p) DELETE_FLAG)) NO_CELL, cnt + 1, c')%Z
    else track_loop exact bcs recd fuel k m maxc fi (ci - 1) ci (cnt + 1) tS' dtR' (set_pcell (set_px0 p [x0]) (ci - 1)%Z) c'.
Proof using HI Hm Hin Hleft Hrec Hlen.
  intros Hcr Hx Hx0 E1 (x0' & x1 & _ & E1' & E2 & Hb) Hlt Hml Hcnt. rewrite E1 in E1'. injection E1' as <-.
  destruct (interval_mesh_ok vs mk HI) as (m' & E' & Hd & Hmk & Hins & Hcells). rewrite Hm in E'. injection E' as <-.
  destruct (interval_inside_spec vs ci cr x Hcr) as (y0 & y1 & F1 & F2 & Hi). rewrite E1 in F1. rewrite E2 in F2. injection F1 as <-. injection F2 as <-.
  cbn [track_loop]. rewrite (proj2 (Hcells ci cr) Hcr). rewrite Hd, Hx, Hins. cbn [take].
  destruct (interval_inside vs ci [x]); [assert (x0 <= x <= x1) by (by apply Hi); lra|]. clear Hi.
  replace (maxc <? cnt + 1)%Z with false by lia. rewrite Hx0. cbn [vsub zip_with]. change (exact (x - y)) with (x - y).
  destruct Hcr as (a0 & a1 & Hc & G1 & G2 & Hlt' & ->). rewrite E1 in G1. rewrite E2 in G2. injection G1 as <-. injection G2 as <-.
  rewrite (find_facet_left x0 x1 _ _ y x Hb Hlt). cbn iota beta. change (0 =? NO_FACET)%Z with false.
  cbn [fids nbrs]. change (py_get [ci; (ci + 1)%Z] 0) with (Ok ci). cbn iota beta.
  replace (ci =? ml)%Z with false by (unfold NO_FACET in Hml; lia).
  assert (Hv : vadd exact [y] (vscale exact ((y - x0) / (y - x)) [x - y]) = [x0]) by (cbn; unfold exact; f_equal; field; lra).
  rewrite Hv. set (c1 := put_move k c [x - y]). set (tS1 := exact (tS + _)). set (dtR1 := dt_after exact k _ dtR).
  unfold on_marker. rewrite Hmk. unfold line_row.
  destruct (ci =? 0)%Z eqn:En.
  - assert (ci = 0)%Z as -> by lia. destruct Hleft as [Hz Hbc]. replace (mk 0 =? 0)%Z with false by lia.
    assert (exists c2, (if is_traj (set_px0 p [x0]) then recd c1 fi (set_px0 p [x0]) tS1 else Ok c1) = Ok c2) as [c2 ->].
    { destruct (is_traj _); [apply Hrec|by exists c1]. }
    exists tS, dtR, c2. cbn iota beta. rewrite Hbc. unfold absorb_bc. cbn iota beta.
    change (py_get [(0 - 1)%Z; _] 0) with (Ok (-1)%Z). cbn iota beta. change (-1 =? NO_CELL)%Z with true. cbn iota.
    rewrite absorb_deletes. reflexivity.
  - rewrite Hin by (subst n; lia). cbn [Z.eqb]. exists tS1, dtR1, c1.
    change (py_get [(ci - 1)%Z; _] 0) with (Ok (ci - 1)%Z). cbn iota beta. unfold NO_CELL at 1. replace (ci - 1 =? -1)%Z with false by lia. reflexivity.
Qed.

Lemma line_cell_at c x : (0 <= c < n)%Z -> exists cr x0 x1, LineCell vs c cr /\ vs !! Z.to_nat c = Some x0 /\ vs !! S (Z.to_nat c) = Some x1 /\ (Holds c x <-> x0 <= x <= x1).
Proof using HI.
  clear - HI n Holds. intros Hc. destruct (vs !! Z.to_nat c) as [x0|] eqn:E1; [|apply lookup_ge_None in E1; subst n; lia].
  destruct (vs !! S (Z.to_nat c)) as [x1|] eqn:E2; [|apply lookup_ge_None in E2; subst n; lia].
  eexists _, x0, x1. split; [|split; [done|split; [done|]]].
  - exists x0, x1. split; [subst n; lia|]. split; [exact E1|]. split; [exact E2|]. split; [exact (HI _ _ _ E1 E2)|reflexivity].
  - split.
    + intros (y0 & y1 & _ & F1 & F2 & H). rewrite E1 in F1. rewrite E2 in F2. injection F1 as <-. injection F2 as <-. exact H.
    + intros H. exists x0, x1. split; [lia|]. done.
Qed.

Lemma go_right j : forall fuel ci ml cnt tS dtR p c x y, (Z.to_nat (n - ci) = S j) -> (0 <= ci < n)%Z -> px p = [x] -> px0 p = [y] ->
  pcell p = ci -> Holds ci y -> y <= x -> (ml < ci + 1)%Z -> (cnt + (n - ci) <= maxc)%Z -> (S j < fuel)%nat ->
  exists q cnt' c', track_loop exact bcs recd fuel k m maxc fi ci ml cnt tS dtR p c = Ok (q, cnt', c') /\ Same p q /\
    (pbits q = pbits p /\ Holds (pcell q) x /\ (cnt' - cnt = pcell q - ci /\ 0 <= pcell q - ci)%Z \/
     pbits q = Z.lor (pbits p) DELETE_FLAG /\ pcell q = NO_CELL /\ (cnt' - cnt = n - ci)%Z /\ exists b, list.last vs = Some b /\ b < x).
Proof using HI Hm Hin Hright Hrec Hlen.
  induction j as [|j IH]; intros fuel ci ml cnt tS dtR p c x y Hj Hci Hx Hx0 Hpc Hy Hle Hml Hcnt Hfuel.
  all: destruct fuel as [|fuel]; [lia|].
  all: destruct (line_cell_at ci x Hci) as (cr & x0 & x1 & Hcr & E1 & E2 & Hh).
  all: destruct (Rle_lt_dec x x1) as [Hx1|Hx1];
    [assert (Holds ci x) by (apply Hh; destruct Hy as (y0 & y1 & _ & F1 & F2 & ?); rewrite E1 in F1; injection F1 as <-; lra);
     rewrite (step_inside fuel ci cr ml cnt tS dtR p c x Hcr Hx) by assumption; exists p, cnt, c; split; [reflexivity|]; split; [done|]; left; rewrite Hpc;
     split; [done|]; split; [assumption|]; lia|].
  all: destruct (step_right fuel ci cr ml cnt tS dtR p c x y x1 Hcr Hx Hx0 E2 Hy Hx1 Hml ltac:(lia)) as (tS' & dtR' & c' & ->).
  - replace (ci + 1 =? n)%Z with true by lia. do 3 eexists. split; [reflexivity|]. split; [done|]. right. cbn. split; [done|]. split; [done|]. split; [lia|].
    exists x1. split; [|exact Hx1]. rewrite last_lookup. rewrite <- E2. f_equal. subst n. lia.
  - replace (ci + 1 =? n)%Z with false by lia.
    destruct (IH fuel (ci + 1)%Z (ci + 1)%Z (cnt + 1)%Z tS' dtR' (set_pcell (set_px0 p [x1]) (ci + 1)%Z) c' x x1) as (q & cnt' & c'' & -> & HS & Hq); try done; try lia.
    + destruct (line_cell_at (ci + 1)%Z x1) as (cr' & z0 & z1 & (w0 & w1 & _ & G1 & G2 & G3 & _) & F1 & F2 & Hh'); [lia|]. apply Hh'.
      rewrite F1 in G1. rewrite F2 in G2. injection G1 as <-. injection G2 as <-.
      replace (Z.to_nat (ci + 1)) with (S (Z.to_nat ci)) in F1 by lia. rewrite E2 in F1. injection F1 as <-. lra.
    + lra.
    + exists q, cnt', c''. split; [reflexivity|]. split; [exact HS|]. destruct Hq as [(H1 & H2 & H3)|(H1 & H2 & H3 & H4)]; [left|right].
      * split; [exact H1|]. split; [exact H2|]. lia.
      * split; [exact H1|]. split; [exact H2|]. split; [lia|exact H4].
Qed.

Lemma go_left j : forall fuel ci ml cnt tS dtR p c x y, (Z.to_nat ci = j) -> (0 <= ci < n)%Z -> px p = [x] -> px0 p = [y] ->
  pcell p = ci -> Holds ci y -> x <= y -> (ml = NO_FACET \/ ci < ml)%Z -> (cnt + (ci + 1) <= maxc)%Z -> (S j < fuel)%nat ->
  exists q cnt' c', track_loop exact bcs recd fuel k m maxc fi ci ml cnt tS dtR p c = Ok (q, cnt', c') /\ Same p q /\
    (pbits q = pbits p /\ Holds (pcell q) x /\ (cnt' - cnt = ci - pcell q /\ 0 <= ci - pcell q)%Z \/
     pbits q = Z.lor (pbits p) DELETE_FLAG /\ pcell q = NO_CELL /\ (cnt' - cnt = ci + 1)%Z /\ exists a, head vs = Some a /\ x < a).
Proof using HI Hm Hin Hleft Hrec Hlen.
  induction j as [|j IH]; intros fuel ci ml cnt tS dtR p c x y Hj Hci Hx Hx0 Hpc Hy Hle Hml Hcnt Hfuel.
  all: destruct fuel as [|fuel]; [lia|].
  all: destruct (line_cell_at ci x Hci) as (cr & x0 & x1 & Hcr & E1 & E2 & Hh).
  all: destruct (Rle_lt_dec x0 x) as [Hx1|Hx1];
    [assert (Holds ci x) by (apply Hh; destruct Hy as (y0 & y1 & _ & F1 & F2 & ?); rewrite E2 in F2; injection F2 as <-; lra);
     rewrite (step_inside fuel ci cr ml cnt tS dtR p c x Hcr Hx) by assumption; exists p, cnt, c; split; [reflexivity|]; split; [done|]; left; rewrite Hpc;
     split; [done|]; split; [assumption|]; lia|].
  all: destruct (step_left fuel ci cr ml cnt tS dtR p c x y x0 Hcr Hx Hx0 E1 Hy Hx1 Hml ltac:(lia)) as (tS' & dtR' & c' & ->).
  - replace (ci =? 0)%Z with true by lia. do 3 eexists. split; [reflexivity|]. split; [done|]. right. cbn. split; [done|]. split; [done|]. split; [lia|].
    exists x0. split; [|exact Hx1]. rewrite head_lookup. rewrite <- E1. f_equal. lia.
  - replace (ci =? 0)%Z with false by lia.
    destruct (IH fuel (ci - 1)%Z ci (cnt + 1)%Z tS' dtR' (set_pcell (set_px0 p [x0]) (ci - 1)%Z) c' x x0) as (q & cnt' & c'' & -> & HS & Hq); try done; try lia.
    + destruct (line_cell_at (ci - 1)%Z x0) as (cr' & z0 & z1 & (w0 & w1 & _ & G1 & G2 & G3 & _) & F1 & F2 & Hh'); [lia|]. apply Hh'.
      rewrite F1 in G1. rewrite F2 in G2. injection G1 as <-. injection G2 as <-.
      replace (S (Z.to_nat (ci - 1))) with (Z.to_nat ci) in F2 by lia. rewrite E1 in F2. injection F2 as <-. lra.
    + lra.
    + exists q, cnt', c''. split; [reflexivity|]. split; [exact HS|]. destruct Hq as [(H1 & H2 & H3)|(H1 & H2 & H3 & H4)]; [left|right].
      * split; [exact H1|]. split; [exact H2|]. lia.
      * split; [exact H1|]. split; [exact H2|]. split; [lia|exact H4].
Qed.
End Tracking.

(** The cell [c] (an interval between neighbouring vertices) contains [x]. *)
Definition Holds (vs : list R) (c : Z) (x : R) : Prop := exists x0 x1, (0 <= c)%Z /\ vs !! Z.to_nat c = Some x0 /\ vs !! S (Z.to_nat c) = Some x1 /\ x0 <= x <= x1.

Lemma holds_between vs c x a b : Increasing vs -> Holds vs c x -> head vs = Some a -> list.last vs = Some b -> a <= x <= b.
Proof.
  intros HI (x0 & x1 & _ & E1 & E2 & Hx) Ha Hb. rewrite head_lookup in Ha. rewrite last_lookup in Hb.
  assert (Hmono : forall d i u v, vs !! i = Some u -> vs !! (i + d)%nat = Some v -> u <= v).
  { induction d as [|d IH]; intros i u v Hu Hv.
    - rewrite Nat.add_0_r in Hv. rewrite Hu in Hv. injection Hv as <-. lra.
    - destruct (vs !! (i + d)%nat) as [w|] eqn:Ew.
      + pose proof (IH i u w Hu Ew). rewrite Nat.add_succ_r in Hv. pose proof (HI _ _ _ Ew Hv). lra.
      + apply lookup_ge_None in Ew. apply lookup_lt_Some in Hv. lia. }
  pose proof (lookup_lt_Some _ _ _ E2).
  pose proof (Hmono (Z.to_nat c) 0%nat a x0 Ha E1).
  pose proof (Hmono (pred (length vs) - S (Z.to_nat c))%nat (S (Z.to_nat c)) x1 b E2) as H2.
  replace (S (Z.to_nat c) + (pred (length vs) - S (Z.to_nat c)))%nat with (pred (length vs)) in H2 by lia. specialize (H2 Hb). lra.
Qed.

(** C49: on an interval mesh whose ends absorb, tracking always succeeds if the allowed number of crossings is at least the number of cells.
    If the end point lies in the mesh, the particle ends in a cell that contains it, and the number of crossings is the number of cells
    passed; otherwise it is deleted.  Nothing else changes. *)
Theorem C49_tracking {K} (bcs : Z -> option (bcfun (K:=K))) recd k vs mk m maxc fi time dt p c x y a b :
  let n := Z.of_nat (pred (length vs)) in
  Increasing vs -> interval_mesh vs mk = Ok m -> head vs = Some a -> list.last vs = Some b ->
  (forall f, (0 < f < n)%Z -> mk f = 0%Z) ->
  mk 0%Z <> 0%Z -> bcs (mk 0%Z) = Some absorb_bc -> mk n <> 0%Z -> bcs (mk n) = Some absorb_bc ->
  (forall c i p t, exists c', recd c i p t = Ok c') ->
  px p = [x] -> px0 p = [y] -> Holds vs (pcell p) y -> (n <= maxc)%Z ->
  exists q c', track exact bcs recd k m maxc fi time dt p c = Ok (q, c') /\
    px q = px p /\ pu q = pu p /\ pw q = pw p /\ puid q = puid p /\
    (a <= x <= b -> pbits q = pbits p /\ Holds vs (pcell q) x /\ pcross q = Z.abs (pcell q - pcell p)) /\
    (x < a -> pbits q = Z.lor (pbits p) DELETE_FLAG /\ pcell q = NO_CELL /\ pcross q = (pcell p + 1)%Z) /\
    (b < x -> pbits q = Z.lor (pbits p) DELETE_FLAG /\ pcell q = NO_CELL /\ pcross q = (n - pcell p)%Z).
Proof.
  intros n HI Hm Ha Hb Hin Hz0 Hbc0 Hzn Hbcn Hrec Hx Hx0 Hy Hmax.
  assert (Hr : (0 <= pcell p < n)%Z).
  { destruct Hy as (x0 & x1 & H0 & _ & E2 & _). apply lookup_lt_Some in E2. subst n. lia. }
  assert (Hlen : (2 <= length vs)%nat) by (subst n; lia).
  pose proof (holds_between vs (pcell p) y a b HI Hy Ha Hb) as Hyab.
  unfold track. destruct (Rle_lt_dec y x) as [Hyx|Hxy].
  - destruct (go_right bcs recd k vs mk m maxc fi HI Hm Hlen Hin (conj Hzn Hbcn) Hrec (pred (Z.to_nat (n - pcell p))) (track_fuel maxc) (pcell p) NO_FACET 0%Z (exact (time - dt)) dt p c x y)
      as (q & cnt & c' & -> & (S1 & S2 & S3 & S4) & Hq); try assumption; try reflexivity; try (unfold NO_FACET, track_fuel; subst n; lia).
    eexists _, c'. split; [reflexivity|]. cbn. split; [exact S1|]. split; [exact S2|]. split; [exact S3|]. split; [exact S4|].
    destruct Hq as [(H1 & H2 & H3)|(H1 & H2 & H3 & b' & Hb' & Hlt)].
    + pose proof (holds_between vs (pcell q) x a b HI H2 Ha Hb). split; [|split; intros; lra]. intros _. split; [exact H1|]. split; [exact H2|]. lia.
    + rewrite Hb in Hb'. injection Hb' as <-. split; [intros; lra|]. split; [intros; lra|]. intros _. split; [exact H1|]. split; [exact H2|]. fold n in H3. lia.
  - destruct (go_left bcs recd k vs mk m maxc fi HI Hm Hlen Hin (conj Hz0 Hbc0) Hrec (Z.to_nat (pcell p)) (track_fuel maxc) (pcell p) NO_FACET 0%Z (exact (time - dt)) dt p c x y)
      as (q & cnt & c' & -> & (S1 & S2 & S3 & S4) & Hq); try assumption; try reflexivity; try lra; try (unfold NO_FACET, track_fuel; subst n; lia).
    eexists _, c'. split; [reflexivity|]. cbn. split; [exact S1|]. split; [exact S2|]. split; [exact S3|]. split; [exact S4|].
    destruct Hq as [(H1 & H2 & H3)|(H1 & H2 & H3 & b' & Hb' & Hlt)].
    + pose proof (holds_between vs (pcell q) x a b HI H2 Ha Hb). split; [|split; intros; lra]. intros _. split; [exact H1|]. split; [exact H2|]. lia.
    + rewrite Ha in Hb'. injection Hb' as <-. split; [intros; lra|]. split; [|intros; lra]. intros _. split; [exact H1|]. split; [exact H2|]. lia.
Qed.

(** ** The radial mesh *)
Lemma np_power_mono s x y : 0 < s -> 0 <= x < y -> np_power x s < np_power y s.
Proof.
  intros Hs [Hx Hxy]. unfold np_power. rewrite (proj2 (Reqb_false y 0)) by lra. rewrite (proj2 (Reqb_false s 0)) by lra.
  destruct (Reqb x 0) eqn:E.
  - apply exp_pos.
  - apply Reqb_false in E. unfold Rpower. apply exp_increasing. apply Rmult_lt_compat_l; [exact Hs|]. apply ln_increasing; lra.
Qed.
Lemma np_power_0 s : 0 < s -> np_power 0 s = 0.
Proof. intros Hs. unfold np_power. rewrite (proj2 (Reqb_true 0 0)) by lra. by rewrite (proj2 (Reqb_false s 0)) by lra. Qed.
Lemma np_power_1 s : np_power 1 s = 1.
Proof. unfold np_power. rewrite (proj2 (Reqb_false 1 0)) by lra. unfold Rpower. by rewrite ln_1, Rmult_0_r, exp_0. Qed.

Lemma unit_lookup n i : (i <= n)%nat -> unit_interval n !! i = Some (INR i / INR n).
Proof. intros H. unfold unit_interval. rewrite (list_lookup_fmap _ (seq 0 (S n)) i), lookup_seq_lt by lia. reflexivity. Qed.
Lemma unit_length n : length (unit_interval n) = S n.
Proof. unfold unit_interval. by rewrite map_length, seq_length. Qed.
Lemma radial_lookup n rmin rmax s i : (i <= n)%nat -> radial_vertices n rmin rmax s !! i = Some (rmin + (rmax - rmin) * np_power (INR i / INR n) s).
Proof. intros H. unfold radial_vertices. rewrite (list_lookup_fmap _ (unit_interval n) i), unit_lookup by lia. reflexivity. Qed.
Lemma radial_length n rmin rmax s : length (radial_vertices n rmin rmax s) = S n.
Proof. unfold radial_vertices. by rewrite map_length, unit_length. Qed.

(** C35: the vertices of the radial mesh increase strictly from [rmin] to [rmax]. *)
Theorem C35_vertices n rmin rmax s : (0 < n)%nat -> rmin < rmax -> 0 < s ->
  length (radial_vertices n rmin rmax s) = S n /\ Increasing (radial_vertices n rmin rmax s) /\
  head (radial_vertices n rmin rmax s) = Some rmin /\ list.last (radial_vertices n rmin rmax s) = Some rmax.
Proof.
  intros Hn Hr Hs. assert (0 < INR n) by (apply lt_0_INR; lia). split; [apply radial_length|]. split; [|split].
  - intros i x y Hx Hy. assert (S i <= n)%nat by (apply lookup_lt_Some in Hy; rewrite radial_length in Hy; lia).
    rewrite radial_lookup in Hx, Hy by lia. injection Hx as <-. injection Hy as <-.
    assert (0 <= INR i / INR n < INR (S i) / INR n).
    { split; [apply Rmult_le_pos; [apply pos_INR|left; by apply Rinv_0_lt_compat]|].
      apply Rmult_lt_compat_r; [by apply Rinv_0_lt_compat|]. apply lt_INR. lia. }
    pose proof (np_power_mono s _ _ Hs H1). apply Rplus_lt_compat_l, Rmult_lt_compat_l; [lra|assumption].
  - rewrite head_lookup, radial_lookup by lia. replace (INR 0 / INR n) with 0 by (cbn; unfold Rdiv; ring). rewrite np_power_0 by exact Hs. f_equal. ring.
  - rewrite last_lookup, radial_length. cbn [pred]. rewrite radial_lookup by lia. replace (INR n / INR n) with 1 by (field; lra). rewrite np_power_1. f_equal. ring.
Qed.

(** The sum of a list of reals. *)
Definition total (l : list R) : R := fold_right Rplus 0 l.

Lemma shell_volume_pos x0 x1 : x0 < x1 -> 0 < shell_volume x0 x1.
Proof.
  intros H. unfold shell_volume. pose proof PI_RGT_0. apply Rmult_lt_0_compat; [lra|].
  replace (x1 * x1 * x1 - x0 * x0 * x0) with ((x1 - x0) * (x1 * x1 + x1 * x0 + x0 * x0)) by ring.
  apply Rmult_lt_0_compat; [lra|].
  assert (0 < (x1 - x0) * (x1 - x0)) by nra. pose proof (Rle_0_sqr (x1 + x0)) as Hsq. unfold Rsqr in Hsq.
  replace (x1 * x1 + x1 * x0 + x0 * x0) with (/4 * ((x1 - x0) * (x1 - x0)) + 3 / 4 * ((x1 + x0) * (x1 + x0))) by field. lra.
Qed.

(** C35: there is one positive volume for each cell, and the volumes add up to the volume of the whole shell,
    for every mesh with increasing vertices. *)
Theorem C35_volumes vs a b : Increasing vs -> head vs = Some a -> list.last vs = Some b ->
  length (cell_volumes vs) = pred (length vs) /\ Forall (fun v => 0 < v) (cell_volumes vs) /\
  total (cell_volumes vs) = 4 / 3 * PI * b ^ 3 - 4 / 3 * PI * a ^ 3.
Proof.
  intros HI Ha Hb. destruct vs as [|x0 vs]; [discriminate|]. cbn in Ha. injection Ha as ->. unfold cell_volumes. cbn [tail length pred].
  revert a HI Hb. induction vs as [|x1 vs IH]; intros a HI Hb.
  - cbn in Hb. injection Hb as ->. split; [done|]. split; [constructor|]. unfold total. cbn [zip_with fold_right]. ring.
  - change (list.last (a :: x1 :: vs)) with (list.last (x1 :: vs)) in Hb.
    destruct (IH x1) as (H1 & H2 & H3); [intros i x y Hx Hy; exact (HI (S i) x y Hx Hy)|exact Hb|].
    change (zip_with shell_volume (a :: x1 :: vs) (x1 :: vs)) with (shell_volume a x1 :: zip_with shell_volume (x1 :: vs) vs).
    split; [cbn [length]; by rewrite H1|]. split.
    + constructor; [|exact H2]. apply shell_volume_pos. exact (HI 0%nat a x1 eq_refl eq_refl).
    + cbn [total fold_right]. fold (total (zip_with shell_volume (x1 :: vs) vs)). rewrite H3. unfold shell_volume. ring.
Qed.

(** C35: with a stretch factor of at least 1 the cells get wider (or stay as wide) with growing radius. *)
Lemma power_convex s x h : 1 <= s -> 0 <= x -> 0 < h -> np_power (x + h) s - np_power x s <= np_power (x + 2 * h) s - np_power (x + h) s.
Proof.
  intros Hs Hx Hh. destruct (Req_dec x 0) as [->|Hx0].
  - rewrite np_power_0 by lra. rewrite !Rplus_0_l. unfold np_power. rewrite (proj2 (Reqb_false h 0)), (proj2 (Reqb_false (2 * h) 0)) by lra.
    assert (2 <= Rpower 2 s).
    { rewrite <- (Rpower_1 2) at 1 by lra. apply Rle_Rpower; lra. }
    assert (0 < Rpower h s) by apply exp_pos. rewrite <- Rpower_mult_distr by lra. assert (2 * Rpower h s <= Rpower 2 s * Rpower h s) by (apply Rmult_le_compat_r; lra). lra.
  - unfold np_power. rewrite !(proj2 (Reqb_false _ 0)) by lra.
    assert (HM : forall a b, 0 < a < b -> exists c, Rpower b s - Rpower a s = s * Rpower c (s - 1) * (b - a) /\ a < c < b).
    { intros a b Hab. apply (MVT_cor2 (fun z => Rpower z s) (fun z => s * Rpower z (s - 1))); [lra|]. intros c Hc. apply derivable_pt_lim_power. lra. }
    destruct (HM x (x + h)) as (c1 & E1 & H1); [lra|]. destruct (HM (x + h) (x + 2 * h)) as (c2 & E2 & H2); [lra|].
    rewrite E1, E2. replace (x + h - x) with h by ring. replace (x + 2 * h - (x + h)) with h by ring.
    assert (Rpower c1 (s - 1) <= Rpower c2 (s - 1)) by (apply Rle_Rpower_l; lra).
    apply Rmult_le_compat_r; [lra|]. apply Rmult_le_compat_l; [lra|assumption].
Qed.
Theorem C35_widths n rmin rmax s i x y z : (0 < n)%nat -> rmin < rmax -> 1 <= s ->
  radial_vertices n rmin rmax s !! i = Some x -> radial_vertices n rmin rmax s !! S i = Some y -> radial_vertices n rmin rmax s !! S (S i) = Some z ->
  y - x <= z - y.
Proof.
  intros Hn Hr Hs Hx Hy Hz. assert (0 < INR n) by (apply lt_0_INR; lia).
  assert (S (S i) <= n)%nat by (apply lookup_lt_Some in Hz; rewrite radial_length in Hz; lia).
  rewrite radial_lookup in Hx, Hy, Hz by lia. rewrite !S_INR in Hz. rewrite S_INR in Hy. injection Hx as <-. injection Hy as <-. injection Hz as <-.
  assert (0 < / INR n) by (by apply Rinv_0_lt_compat).
  pose proof (power_convex s (INR i / INR n) (/ INR n) Hs ltac:(apply Rmult_le_pos; [apply pos_INR|lra]) ltac:(lra)) as Hc.
  replace ((INR i + 1) / INR n) with (INR i / INR n + / INR n) by (field; lra).
  replace ((INR i + 1 + 1) / INR n) with (INR i / INR n + 2 * / INR n) by (field; lra).
  set (p := np_power (INR i / INR n) s) in *. set (q := np_power (INR i / INR n + / INR n) s) in *. set (r := np_power (INR i / INR n + 2 * / INR n) s) in *. clear - Hc Hr.
  assert ((rmax - rmin) * (q - p) <= (rmax - rmin) * (r - q)) by (apply Rmult_le_compat_l; lra). lra.
Qed.

(** ** The marked ends of the radial mesh *)
Lemma line_attached n f : length (t_cells (line_topo n) f) =
  ((if (1 <=? f)%nat && (f <=? n)%nat then 1 else 0) + (if (f <? n)%nat then 1 else 0))%nat.
Proof. cbn [line_topo t_cells]. rewrite app_length. destruct (_ && _), (f <? n)%nat; reflexivity. Qed.
Lemma radial_marker_ends n i j : (0 < n)%nat ->
  radial_marker n i j 0%Z = i /\ radial_marker n i j (Z.of_nat n) = j /\
  forall f, f <> 0%Z -> f <> Z.of_nat n -> radial_marker n i j f = 0%Z.
Proof.
  intros Hn. assert (0 < INR n) by (apply lt_0_INR; lia). assert (Ht : 0 < / 10 ^ 10 < 1).
  { assert (1 < 10 ^ 10) by (apply Rlt_pow_R1; [lra|lia]). split; [apply Rinv_0_lt_compat; lra|]. rewrite <- Rinv_1. apply Rinv_lt_contravar; lra. }
  unfold radial_marker, x_mark. rewrite unit_length. cbn [pred]. split; [|split].
  - change (Z.to_nat 0) with 0%nat. rewrite unit_lookup, line_attached by lia. cbn [Nat.leb andb Z.leb Z.compare]. rewrite (proj2 (Nat.ltb_lt 0 n)) by lia.
    cbn [Nat.add Nat.eqb andb]. replace (INR 0 / INR n - 1) with (-1) by (cbn; unfold Rdiv; ring). replace (INR 0 / INR n - 0) with 0 by (cbn; unfold Rdiv; ring).
    rewrite Rabs_R0, Rabs_left by lra. rewrite (proj2 (Rltb_false _ _)) by lra. by rewrite (proj2 (Rltb_true _ _)) by lra.
  - rewrite Nat2Z.id. rewrite unit_lookup, line_attached by lia. rewrite (proj2 (Nat.leb_le 1 n)), (proj2 (Nat.leb_le n n)), (proj2 (Nat.ltb_ge n n)), (proj2 (Z.leb_le 0 (Z.of_nat n))) by lia.
    cbn [Nat.add Nat.eqb andb]. replace (INR n / INR n - 1) with 0 by (field; lra). rewrite Rabs_R0. by rewrite (proj2 (Rltb_true _ _)) by lra.
  - intros f Hf0 Hfn. destruct (unit_interval n !! Z.to_nat f) as [a|] eqn:E; [|reflexivity].
    destruct (0 <=? f)%Z eqn:E0; [|reflexivity]. apply lookup_lt_Some in E. rewrite unit_length in E.
    rewrite line_attached. rewrite (proj2 (Nat.leb_le 1 (Z.to_nat f))), (proj2 (Nat.leb_le (Z.to_nat f) n)), (proj2 (Nat.ltb_lt (Z.to_nat f) n)) by lia. reflexivity.
Qed.

(** C49 for the radial mesh: the constructor always succeeds, its mesh is conforming, its ends carry the given numbers and no other facet
    carries one; if both ends absorb and there are at most as many cells as allowed crossings, then every particle that starts in its cell is
    found again in a cell that contains its end point, or is deleted if its end point lies outside [rmin, rmax]. *)
Theorem C49_radial {K} (bcs : Z -> option (bcfun (K:=K))) recd k n rmin rmax s i j maxc :
  (0 < n)%nat -> rmin < rmax -> 0 < s -> i <> 0%Z -> j <> 0%Z -> bcs i = Some absorb_bc -> bcs j = Some absorb_bc ->
  (forall c fi p t, exists c', recd c fi p t = Ok c') -> (Z.of_nat n <= maxc)%Z ->
  exists m, radial_mesh n rmin rmax s i j = Ok m /\ Conforming m /\ Bounded_by k m bcs /\
  forall fi time dt p c x y cr, px p = [x] -> px0 p = [y] -> cells m (pcell p) = Some cr -> InCell 1 cr [y] ->
    exists q c', track exact bcs recd k m maxc fi time dt p c = Ok (q, c') /\ px q = [x] /\ pu q = pu p /\ pw q = pw p /\ puid q = puid p /\
      (rmin <= x <= rmax -> pbits q = pbits p /\ exists cr', cells m (pcell q) = Some cr' /\ InCell 1 cr' [x]) /\
      (x < rmin \/ rmax < x -> pbits q = Z.lor (pbits p) DELETE_FLAG /\ pcell q = NO_CELL).
Proof.
  intros Hn Hr Hs Hi Hj Hbi Hbj Hrec Hmax. set (vs := radial_vertices n rmin rmax s). set (mk := radial_marker n i j).
  destruct (C35_vertices n rmin rmax s Hn Hr Hs) as (Hl & HI & Ha & Hb). fold vs in Hl, HI, Ha, Hb.
  destruct (radial_marker_ends n i j Hn) as (M0 & Mn & Mo). fold mk in M0, Mn, Mo.
  destruct (interval_mesh_ok vs mk HI) as (m & E & Hd & Hmk & Hins & Hcells). exists m. split; [exact E|]. split; [exact (C49_conforming vs mk m HI E)|]. split.
  { intros c cr fi mf cn Hc Hf Hnb. apply Hcells in Hc as (x0 & x1 & Hc & E1 & E2 & Hlt & ->). cbn [fids nbrs] in Hf, Hnb. unfold line_row in Hnb. rewrite Hl in *. cbn [pred] in *.
    rewrite Hmk. destruct fi as [|[|fi]]; [| |done]; cbn in Hf, Hnb; injection Hf as <-; injection Hnb as <-; unfold NO_CELL.
    - destruct (decide (c = 0%Z)) as [->|Hc0]; [rewrite M0; split; [intros _; split; [exact Hi|left; exact Hbi]|lia]|].
      split; [lia|]. intros _. left. apply Mo; lia.
    - destruct (c + 1 =? Z.of_nat n)%Z eqn:En.
      + replace (c + 1)%Z with (Z.of_nat n) by lia. rewrite Mn. split; [intros _; split; [exact Hj|left; exact Hbj]|lia].
      + split; [lia|]. intros _. left. apply Mo; lia. }
  assert (Hin : forall c x, (exists cr', cells m c = Some cr' /\ InCell 1 cr' [x]) <-> Holds vs c x).
  { intros c x. split.
    - intros (cr' & Hc & HIn). apply Hcells in Hc as (x0 & x1 & Hc & E1 & E2 & Hlt & ->). apply in_interval in HIn. exists x0, x1. split; [lia|]. done.
    - intros (x0 & x1 & H0 & E1 & E2 & Hx). eexists. split; [apply Hcells; exists x0, x1; split; [apply lookup_lt_Some in E2; lia|];
        split; [exact E1|]; split; [exact E2|]; split; [exact (HI _ _ _ E1 E2)|reflexivity]|]. by apply in_interval. }
  intros fi time dt p c x y cr Hx Hx0 Hcr HIn.
  destruct (C49_tracking bcs recd k vs mk m maxc fi time dt p c x y rmin rmax) as (q & c' & Et & S1 & S2 & S3 & S4 & T1 & T2 & T3); try assumption.
  all: try (rewrite Hl; cbn [pred]).
  - intros f Hf. apply Mo; lia.
  - by rewrite M0.
  - by rewrite M0.
  - by rewrite Mn.
  - by rewrite Mn.
  - apply Hin. by exists cr.
  - exact Hmax.
  - exists q, c'. split; [exact Et|]. split; [by rewrite S1|]. split; [exact S2|]. split; [exact S3|]. split; [exact S4|]. split.
    + intros H. destruct (T1 H) as (B1 & B2 & _). split; [exact B1|]. by apply Hin.
    + intros [H|H]; [destruct (T2 H) as (B1 & B2 & _)|destruct (T3 H) as (B1 & B2 & _)]; by split.
Qed.

(** The 1D mesh of [UserMesh_C] has no marked facet at all, so a particle of the last cell that passes the right end is not
    deleted: tracking always fails. *)
Theorem C49_unmarked_end_refuted {K} (bcs : Z -> option (bcfun (K:=K))) recd k n xmin xmax :
  (0 < n)%nat -> xmin < xmax -> exists m, xyz_line_mesh n xmin xmax = Ok m /\
  forall maxc fi time dt p c x y, (2 <= maxc)%Z -> is_deleted p = false -> px p = [x] -> px0 p = [y] -> pcell p = (Z.of_nat n - 1)%Z ->
    Holds (interval_vertices n xmin xmax) (pcell p) y -> xmax < x ->
    track exact bcs recd k m maxc fi time dt p c = Raise (track_fail k SameFacetMsg).
Proof.
  intros Hn Hlt. assert (HN : 0 < INR n) by (apply lt_0_INR; lia). set (vs := interval_vertices n xmin xmax).
  assert (Hl : length vs = S n) by (unfold vs, interval_vertices; by rewrite map_length, seq_length).
  assert (Hvs : forall i, (i <= n)%nat -> vs !! i = Some (xmin + INR i * (xmax - xmin) / INR n)).
  { intros i Hi. unfold vs, interval_vertices. rewrite (list_lookup_fmap _ (seq 0 (S n)) i), lookup_seq_lt by lia. reflexivity. }
  assert (HI : Increasing vs).
  { intros i x y Hx Hy. assert (S i <= n)%nat by (apply lookup_lt_Some in Hy; lia). rewrite Hvs in Hx, Hy by lia. rewrite S_INR in Hy.
    injection Hx as <-. injection Hy as <-. assert (0 < / INR n) by (by apply Rinv_0_lt_compat).
    assert (0 < (xmax - xmin) * / INR n) by (apply Rmult_lt_0_compat; lra). unfold Rdiv. rewrite !Rmult_plus_distr_r. lra. }
  destruct (interval_mesh_ok vs (fun _ => 0%Z) HI) as (m & E & Hd & Hmk & Hins & Hcells). exists m. split; [exact E|].
  intros maxc fi time dt p c x y Hmax Hdel Hx Hx0 Hpc (x0 & x1 & _ & E1 & E2 & Hy) Hout.
  assert (x1 = xmax).
  { rewrite Hpc in E2. replace (S (Z.to_nat (Z.of_nat n - 1))) with n in E2 by lia. rewrite Hvs in E2 by lia. injection E2 as <-. field. lra. }
  subst x1. set (cr := CellRec [[x0]; [xmax]] [[-1]; [1]] [pcell p; pcell p + 1]%Z (line_row (pred (length vs)) (pcell p))).
  assert (Hcr : LineCell vs (pcell p) cr).
  { exists x0, xmax. split; [lia|]. split; [exact E1|]. split; [exact E2|]. split; [exact (HI _ _ _ E1 E2)|reflexivity]. }
  destruct (interval_inside_spec vs (pcell p) cr x Hcr) as (y0 & y1 & F1 & F2 & Hi). rewrite E1 in F1. rewrite E2 in F2. injection F1 as <-. injection F2 as <-.
  assert (Hni : interval_inside vs (pcell p) [x] = false) by (destruct (interval_inside vs (pcell p) [x]); [assert (x0 <= x <= xmax) by (by apply Hi); lra|done]).
  unfold track, track_fuel. cbn [track_loop]. rewrite (proj2 (Hcells _ cr) Hcr). rewrite Hd, Hx, Hins. cbn [take]. rewrite Hni.
  replace (maxc <? 0 + 1)%Z with false by lia. rewrite Hx0. cbn [vsub zip_with]. change (exact (x - y)) with (x - y). unfold cr at 1.
  rewrite (find_facet_right x0 xmax _ _ y x Hy Hout). cbn iota beta. change (1 =? NO_FACET)%Z with false. cbn iota beta.
  unfold cr at 1. cbn [fids]. change (py_get [pcell p; (pcell p + 1)%Z] 1) with (Ok (pcell p + 1)%Z). cbn iota beta.
  unfold NO_FACET at 1. replace (pcell p + 1 =? -1)%Z with false by lia.
  assert (Hv : vadd exact [y] (vscale exact ((xmax - y) / (x - y)) [x - y]) = [xmax]) by (cbn; unfold exact; f_equal; field; lra).
  rewrite Hv. unfold on_marker at 1. rewrite Hmk. cbn [Z.eqb]. cbn iota beta. unfold cr at 1. cbn [nbrs].
  unfold line_row at 1. rewrite Hl. cbn [pred]. replace (pcell p + 1 =? Z.of_nat n)%Z with true by lia.
  change (py_get [(pcell p - 1)%Z; (-1)%Z] 1) with (Ok (-1)%Z). cbn iota beta. change (-1 =? NO_CELL)%Z with true. cbn iota beta.
  change (is_deleted (set_px0 p [xmax])) with (is_deleted p). rewrite Hdel. change (px (set_px0 p [xmax])) with (px p). change (px0 (set_px0 p [xmax])) with [xmax].
  rewrite Hx. cbn [take]. rewrite Hni. replace (maxc <? 0 + 1 + 1)%Z with false by lia. cbn [vsub zip_with]. change (exact (x - xmax)) with (x - xmax). unfold cr at 1.
  pose proof (HI _ _ _ E1 E2). rewrite (find_facet_right x0 xmax _ _ xmax x) by lra. cbn iota beta. change (1 =? NO_FACET)%Z with false. cbn iota beta.
  unfold cr at 1. cbn [fids]. change (py_get [pcell p; (pcell p + 1)%Z] 1) with (Ok (pcell p + 1)%Z). cbn iota beta. by rewrite Z.eqb_refl.
Qed.

(** ** Examples *)

(** A shell from 1 to 5 with two cells and stretch factor 2: the vertices are 1, 2, 5, the volumes 28π/3 and 468π/3. *)
Example C35_example : radial_vertices 2 1 5 2 = [1; 2; 5] /\ cell_volumes [1; 2; 5] = [28 / 3 * PI; 468 / 3 * PI].
Proof.
  split.
  - unfold radial_vertices, unit_interval, map_coordinate. cbn [seq map].
    replace (INR 0 / INR 2) with 0 by (cbn; lra). replace (INR 1 / INR 2) with (/ 2) by (cbn; lra). replace (INR 2 / INR 2) with 1 by (cbn; lra).
    rewrite np_power_0, np_power_1 by lra. unfold np_power. rewrite (proj2 (Reqb_false _ 0)) by lra.
    assert (Rpower (/ 2) 2 = 1 / 4) as ->.
    { replace (Rpower (/ 2) 2) with (Rpower (/ 2) (INR 2)) by (f_equal; cbn; lra). rewrite Rpower_pow by lra. cbn. lra. }
    repeat f_equal; lra.
  - cbn. unfold shell_volume. f_equal; [lra|]. f_equal. lra.
Qed.

(** On that mesh, with absorbing ends, a particle that moves from 1.5 to 4 ends in cell 1, and one that moves from 3 to 0.5 is deleted. *)
Example C49_example :
  let bcs := fun v : Z => if (v =? 1)%Z || (v =? 2)%Z then Some (absorb_bc (K := unit)) else None in
  let recd := fun (c : tctx (K := unit)) (_ : Z) (_ : particle) (_ : R) => Ok c in
  exists m, interval_mesh [1; 2; 5] (radial_marker 2 1 2) = Ok m /\
  (exists q c', track exact bcs recd Charged m 100 0 1 1 (Particle [4] [3 / 2] [5 / 2] 1 0 0 7 0) (TCtx [0] tt) = Ok (q, c') /\ pcell q = 1%Z /\ pbits q = 0%Z /\ pcross q = 1%Z) /\
  (exists q c', track exact bcs recd Charged m 100 0 1 1 (Particle [1 / 2] [3] [- (5 / 2)] 1 0 1 8 0) (TCtx [0] tt) = Ok (q, c') /\ pcell q = (-1)%Z /\ pbits q = 1%Z /\ pcross q = 2%Z).
Proof.
  intros bcs recd. set (vs := [1; 2; 5]). assert (HI : Increasing vs).
  { intros [|[|[|i]]] x y Hx Hy; cbn in Hx, Hy; try discriminate; injection Hx as <-; injection Hy as <-; lra. }
  destruct (radial_marker_ends 2 1 2) as (M0 & M2 & Mo); [lia|]. change (Z.of_nat 2) with 2%Z in M2.
  destruct (interval_mesh_ok vs (radial_marker 2 1 2) HI) as (m & E & _). exists m. split; [exact E|].
  assert (Hall : forall p x y, px p = [x] -> px0 p = [y] -> Holds vs (pcell p) y -> exists q c', track exact bcs recd Charged m 100 0 1 1 p (TCtx [0] tt) = Ok (q, c') /\
    (1 <= x <= 5 -> pbits q = pbits p /\ Holds vs (pcell q) x /\ pcross q = Z.abs (pcell q - pcell p)) /\
    (x < 1 -> pbits q = Z.lor (pbits p) DELETE_FLAG /\ pcell q = NO_CELL /\ pcross q = (pcell p + 1)%Z)).
  { intros p x y Hx Hy HH.
    destruct (C49_tracking bcs recd Charged vs (radial_marker 2 1 2) m 100 0 1 1 p (TCtx [0] tt) x y 1 5 HI E) as (q & c' & Et & _ & _ & _ & _ & T1 & T2 & _); try done; try assumption.
    - intros f Hf. cbn in Hf. apply Mo; lia.
    - by rewrite M0.
    - by rewrite M0.
    - change (Z.of_nat (pred (length vs))) with 2%Z. by rewrite M2.
    - change (Z.of_nat (pred (length vs))) with 2%Z. by rewrite M2.
    - intros c i p' t. by exists c.
    - exists q, c'. done. }
  split.
  - destruct (Hall (Particle [4] [3 / 2] [5 / 2] 1 0 0 7 0) 4 (3 / 2) eq_refl eq_refl) as (q & c' & Et & T1 & _).
    { exists 1, 2. split; [cbn; lia|]. split; [done|]. split; [done|]. lra. }
    destruct T1 as (B & (x0 & x1 & H0 & G1 & G2 & Hx) & Hc); [lra|]. exists q, c'. split; [exact Et|].
    assert (pcell q = 1%Z).
    { remember (Z.to_nat (pcell q)) as w eqn:Ew. destruct w as [|[|[|w]]]; cbn in G1, G2; try discriminate.
      - injection G1 as <-. injection G2 as <-. lra.
      - lia. }
    split; [assumption|]. split; [exact B|]. rewrite Hc. rewrite H. reflexivity.
  - destruct (Hall (Particle [1 / 2] [3] [- (5 / 2)] 1 0 1 8 0) (1 / 2) 3 eq_refl eq_refl) as (q & c' & Et & _ & T2).
    { exists 2, 5. split; [cbn; lia|]. split; [done|]. split; [done|]. lra. }
    destruct T2 as (B1 & B2 & B3); [lra|]. exists q, c'. split; [exact Et|]. split; [exact B2|]. split; [exact B1|exact B3].
Qed.

Print Assumptions C35_vertices.
Print Assumptions C35_volumes.
Print Assumptions C35_widths.
Print Assumptions C49_conforming.
Print Assumptions C49_tracking.
Print Assumptions C49_radial.
Print Assumptions C49_unmarked_end_refuted.
