(** Proofs about meshes on the grid of a rectangle, for C55. *)
From stdpp Require Import list_numbers.
From Verif Require Import Vec VecProofs TrackModel Geometry Conforming MeshModel MeshProps InsideModel InsideProps.
From Verif Require Import TriMeshModel TriMeshProps.
Local Open Scope R_scope.

(** ** The grid *)

(** The vertices of the grid, and the sides of the triangles in terms of them. *)
Definition GV (nx ny : nat) (v : gvertex) : Prop :=
  match v with Corner i j => (i <= nx)%nat /\ (j <= ny)%nat | Middle i j => (i < nx)%nat /\ (j < ny)%nat end.
Definition GSide (t : gtri) (i : nat) (o u v : gvertex) : Prop := let '(a, b, d) := t in
  (i = 0%nat /\ o = a /\ u = b /\ v = d) \/ (i = 1%nat /\ o = b /\ u = a /\ v = d) \/ (i = 2%nat /\ o = d /\ u = a /\ v = b).
(** The triangles of a rectangle with their orientation ([true]: counterclockwise). *)
Definition signed_square (dg : diagonal) (i j : nat) : list (gtri * bool) :=
  zip (square_tris dg i j) (match dg with Crossed_ => [true; false; true; false] | _ => [true; false] end).
(** The orientation of the opposite vertex and the ends of a side. *)
Definition side_sign (s : bool) (k : nat) : bool := xorb s (k =? 1)%nat.
(** The sides of the whole rectangle. *)
Inductive border := BLeft | BRight | BBottom | BTop.
Definition OnBorder (nx ny : nat) (b : border) (u v : gvertex) : Prop :=
  match b with
  | BLeft => exists j, (j < ny)%nat /\ u = Corner 0 j /\ v = Corner 0 (S j)
  | BRight => exists j, (j < ny)%nat /\ u = Corner nx j /\ v = Corner nx (S j)
  | BBottom => exists i, (i < nx)%nat /\ u = Corner i 0 /\ v = Corner (S i) 0
  | BTop => exists i, (i < nx)%nat /\ u = Corner i ny /\ v = Corner (S i) ny
  end.

Section Grid.
Context (nx ny : nat) (dg : diagonal).

Lemma row_unique w i j i' j' : (i < w)%nat -> (i' < w)%nat -> (j * w + i = j' * w + i')%nat -> i = i' /\ j = j'.
Proof using.
  clear. intros Hi Hi' E. assert (j = j') as -> by (destruct (lt_eq_lt_dec j j') as [[H|H]|H]; [nia|exact H|nia]). lia.
Qed.
Lemma gnum_inj v v' : GV nx ny v -> GV nx ny v' -> gnum nx ny v = gnum nx ny v' -> v = v'.
Proof using.
  destruct v as [i j|i j], v' as [i' j'|i' j']; cbn [GV gnum]; intros [H1 H2] [H3 H4] E.
  - destruct (row_unique (S nx) i j i' j') as [-> ->]; [lia..|done].
  - exfalso. assert (j * S nx <= ny * S nx)%nat by (apply Nat.mul_le_mono_r; lia). lia.
  - exfalso. assert (j' * S nx <= ny * S nx)%nat by (apply Nat.mul_le_mono_r; lia). lia.
  - destruct (row_unique nx i j i' j') as [-> ->]; [lia..|done].
Qed.
(** A vertex of the mesh. *)
Definition Used (v : gvertex) : Prop := GV nx ny v /\ match v with Middle _ _ => dg = Crossed_ | _ => True end.
Lemma gvertex_at v : Used v -> rect_gvertices nx ny dg !! gnum nx ny v = Some v.
Proof using.
  intros [HV Hm]. unfold rect_gvertices. destruct v as [i j|i j]; cbn [GV gnum] in *; destruct HV as [H1 H2].
  - assert (Hlt : (j * S nx + i < S nx * S ny)%nat).
    { assert (j * S nx <= ny * S nx)%nat by (apply Nat.mul_le_mono_r; lia). lia. }
    rewrite lookup_app_l by (by rewrite map_length, seq_length). rewrite (list_lookup_fmap _ (seq 0 _)), lookup_seq_lt by exact Hlt. cbn [fmap option_fmap option_map Nat.add].
    f_equal. f_equal.
    + rewrite Nat.add_comm, Nat.mod_add by lia. apply Nat.mod_small. lia.
    + rewrite Nat.div_add_l by lia. rewrite Nat.div_small by lia. lia.
  - subst dg. rewrite lookup_app_r by (rewrite map_length, seq_length; lia). rewrite map_length, seq_length.
    replace (S nx * S ny + (j * nx + i) - S nx * S ny)%nat with (j * nx + i)%nat by lia.
    assert (Hlt : (j * nx + i < nx * ny)%nat) by nia.
    rewrite (list_lookup_fmap _ (seq 0 _)), lookup_seq_lt by exact Hlt. cbn [fmap option_fmap option_map Nat.add].
    f_equal. f_equal.
    + rewrite Nat.add_comm, Nat.mod_add by lia. apply Nat.mod_small. lia.
    + rewrite Nat.div_add_l by lia. rewrite Nat.div_small by lia. lia.
Qed.
Lemma gvertices_used k v : rect_gvertices nx ny dg !! k = Some v -> Used v.
Proof using.
  intros Hk. apply elem_of_list_lookup_2 in Hk. unfold rect_gvertices in Hk. apply elem_of_app in Hk as [Hk|Hk].
  - apply elem_of_list_fmap in Hk as (y & -> & Hy). apply elem_of_seq in Hy. split; [|done]. cbn [GV]. split.
    + pose proof (Nat.mod_upper_bound y (S nx)). lia.
    + enough (y / S nx < S ny)%nat by lia. apply Nat.div_lt_upper_bound; lia.
  - assert (dg = Crossed_) as Hd by (destruct dg; try done; by apply elem_of_nil in Hk).
    rewrite Hd in Hk. apply elem_of_list_fmap in Hk as (y & -> & Hy). apply elem_of_seq in Hy. split; [|done]. cbn [GV].
    assert (nx <> 0)%nat by lia. split.
    + by apply Nat.mod_upper_bound.
    + apply Nat.div_lt_upper_bound; lia.
Qed.

Lemma gtris_in t : t ∈ rect_gtris nx ny dg <-> exists i j, (i < nx)%nat /\ (j < ny)%nat /\ t ∈ square_tris dg i j.
Proof using.
  unfold rect_gtris. rewrite elem_of_list_In, in_concat. split.
  - intros (l & Hl & Ht). apply elem_of_list_In, elem_of_list_fmap in Hl as (y & -> & Hy). apply elem_of_seq in Hy. apply elem_of_list_In in Ht.
    assert (nx <> 0)%nat by lia. exists (y mod nx)%nat, (y / nx)%nat. split; [by apply Nat.mod_upper_bound|]. split; [apply Nat.div_lt_upper_bound; lia|exact Ht].
  - intros (i & j & Hi & Hj & Ht). exists (square_tris dg i j). split; [|by apply elem_of_list_In]. apply elem_of_list_In, elem_of_list_fmap.
    exists (j * nx + i)%nat. split.
    + f_equal; [rewrite Nat.add_comm, Nat.mod_add by lia; symmetry; apply Nat.mod_small; lia|rewrite Nat.div_add_l by lia; rewrite Nat.div_small by lia; lia].
    + apply elem_of_seq. nia.
Qed.
Lemma signed_in t i j : t ∈ square_tris dg i j -> exists s, (t, s) ∈ signed_square dg i j.
Proof using.
  intros H. unfold signed_square. apply elem_of_list_lookup in H as [k Hk].
  destruct ((match dg with Crossed_ => [true; false; true; false] | _ => [true; false] end) !! k) as [s|] eqn:E.
  - exists s. apply (elem_of_list_lookup_2 _ k). apply lookup_zip_with_Some. by exists t, s.
  - exfalso. apply lookup_lt_Some in Hk. apply lookup_ge_None in E. unfold square_tris in Hk. destruct dg; cbn in *; try (destruct (Nat.odd (i + j))); try (destruct (Nat.even (i + j))); cbn in *; lia.
Qed.

(** The kinds of triangles. *)
Lemma square_kinds t s i j : (t, s) ∈ signed_square dg i j ->
  let v0 := Corner i j in let v1 := Corner (S i) j in let v2 := Corner i (S j) in let v3 := Corner (S i) (S j) in let m := Middle i j in
  (dg <> Crossed_ /\ is_right dg i j = true /\ ((t = (v0, v1, v3) /\ s = true) \/ (t = (v0, v2, v3) /\ s = false))) \/
  (dg <> Crossed_ /\ is_right dg i j = false /\ ((t = (v0, v1, v2) /\ s = true) \/ (t = (v1, v2, v3) /\ s = false))) \/
  (dg = Crossed_ /\ ((t = (v0, v1, m) /\ s = true) \/ (t = (v0, v2, m) /\ s = false) \/ (t = (v1, v3, m) /\ s = true) \/ (t = (v2, v3, m) /\ s = false))).
Proof using.
  intros H. cbv zeta. unfold signed_square in H. assert (dg = Crossed_ \/ dg <> Crossed_) as [E|E] by (destruct dg; (by left) || (by right)).
  - right. right. split; [exact E|]. rewrite E in H. cbn [square_tris] in H. 
    repeat (apply elem_of_cons in H as [[= -> ->]|H]; [tauto|]). by apply elem_of_nil in H.
  - assert (zip (square_tris dg i j) [true; false] = zip (if is_right dg i j then [(Corner i j, Corner (S i) j, Corner (S i) (S j)); (Corner i j, Corner i (S j), Corner (S i) (S j))]
       else [(Corner i j, Corner (S i) j, Corner i (S j)); (Corner (S i) j, Corner i (S j), Corner (S i) (S j))]) [true; false]) as Hz by (destruct dg; done).
    assert (Hin : (t, s) ∈ zip (square_tris dg i j) [true; false]) by (destruct dg; done). rewrite Hz in Hin.
    destruct (is_right dg i j) eqn:Er; [left|right; left]; (split; [exact E|]); (split; [reflexivity|]);
      repeat (apply elem_of_cons in Hin as [[= -> ->]|Hin]; [tauto|]); by apply elem_of_nil in Hin.
Qed.
Ltac kinds H := 
  let E := fresh "Ec" in let R := fresh "Er" in
  destruct (square_kinds _ _ _ _ H) as [(E & R & [[-> ->]|[-> ->]])|[(E & R & [[-> ->]|[-> ->]])|(E & [[-> ->]|[[-> ->]|[[-> ->]|[-> ->]]]])]].
Ltac sides H := destruct H as [(-> & -> & -> & ->)|[(-> & -> & -> & ->)|(-> & -> & -> & ->)]].

(** A side belongs to one triangle on each of its sides. *)
Lemma side_unique t s i j t' s' i' j' k k' o o' u v : (t, s) ∈ signed_square dg i j -> (t', s') ∈ signed_square dg i' j' ->
  GSide t k o u v -> GSide t' k' o' u v -> side_sign s k = side_sign s' k' -> t = t' /\ i = i' /\ j = j'.
Proof using.
  intros H H' Hs Hs' E.
  kinds H; kinds H'; try (exfalso; congruence).
  all: sides Hs; destruct Hs' as [(-> & -> & Hu & Hv)|[(-> & -> & Hu & Hv)|(-> & -> & Hu & Hv)]]; cbn in E; try discriminate E;
    try discriminate Hu; try discriminate Hv; injection Hu as U1 U2; injection Hv as V1 V2; try (exfalso; lia).
  all: assert (i = i') by lia; assert (j = j') by lia; subst i' j'; try (exfalso; congruence); done.
Qed.

(** Every rectangle has a triangle at each of its four sides. *)
Ltac pick := eexists _, _, _, _; split;
  [(apply elem_of_list_here + (apply elem_of_list_further; apply elem_of_list_here) + (do 2 apply elem_of_list_further; apply elem_of_list_here)
    + (do 3 apply elem_of_list_further; apply elem_of_list_here))
  |split; [(left; split_and!; reflexivity) + (right; left; split_and!; reflexivity) + (right; right; split_and!; reflexivity)|reflexivity]].
Lemma has_sides i j :
  let has u v b := exists t s k o, (t, s) ∈ signed_square dg i j /\ GSide t k o u v /\ side_sign s k = b in
  has (Corner i j) (Corner (S i) j) true /\ has (Corner (S i) j) (Corner (S i) (S j)) true /\
  has (Corner i j) (Corner i (S j)) false /\ has (Corner i (S j)) (Corner (S i) (S j)) false.
Proof using.
  cbv zeta. unfold signed_square.
  destruct dg; cbn [square_tris]; try (destruct (is_right _ i j)); cbn [zip zip_with]; split_and!; pick.
Qed.
(** The inner sides of a rectangle have a triangle on both of their sides. *)
Lemma has_inner t s i j k o u v : (t, s) ∈ signed_square dg i j -> GSide t k o u v ->
  (u = Corner i j /\ v = Corner (S i) j /\ side_sign s k = true) \/ (u = Corner (S i) j /\ v = Corner (S i) (S j) /\ side_sign s k = true) \/
  (u = Corner i j /\ v = Corner i (S j) /\ side_sign s k = false) \/ (u = Corner i (S j) /\ v = Corner (S i) (S j) /\ side_sign s k = false) \/
  exists t' s' k' o', (t', s') ∈ signed_square dg i j /\ GSide t' k' o' u v /\ side_sign s' k' = negb (side_sign s k).
Proof using.
  intros H Hs. kinds H; sides Hs; try (left; split_and!; reflexivity); try (right; left; split_and!; reflexivity);
    try (right; right; left; split_and!; reflexivity); try (right; right; right; left; split_and!; reflexivity);
    right; right; right; right; unfold signed_square;
    try (rewrite Ec; cbn [square_tris zip zip_with]; pick); destruct dg; try done; cbn [square_tris]; rewrite Er; cbn [zip zip_with]; pick.
Qed.
(** A side that is not on the border of the whole rectangle has a triangle on both of its sides. *)
Lemma side_other t s i j k o u v : (i < nx)%nat -> (j < ny)%nat -> (t, s) ∈ signed_square dg i j -> GSide t k o u v ->
  (exists b, OnBorder nx ny b u v) \/
  exists t' s' i' j' k' o', (i' < nx)%nat /\ (j' < ny)%nat /\ (t', s') ∈ signed_square dg i' j' /\ GSide t' k' o' u v /\ side_sign s' k' <> side_sign s k.
Proof using.
  intros Hi Hj H Hs.
  destruct (has_inner t s i j k o u v H Hs) as [(-> & -> & E)|[(-> & -> & E)|[(-> & -> & E)|[(-> & -> & E)|(t' & s' & k' & o' & H1 & H2 & E)]]]].
  - destruct j as [|j']; [left; exists BBottom; exists i; done|]. right.
    destruct (has_sides i j') as (_ & _ & _ & t' & s' & k' & o' & H1 & H2 & E'). exists t', s', i, j', k', o'. split_and!; try done; [lia|congruence].
  - destruct (decide (S i = nx)) as [<-|Hn]; [left; exists BRight; exists j; done|]. right.
    destruct (has_sides (S i) j) as (_ & _ & (t' & s' & k' & o' & H1 & H2 & E') & _). exists t', s', (S i), j, k', o'. split_and!; try done; [lia|congruence].
  - destruct i as [|i']; [left; exists BLeft; exists j; done|]. right.
    destruct (has_sides i' j) as (_ & (t' & s' & k' & o' & H1 & H2 & E') & _). exists t', s', i', j, k', o'. split_and!; try done; [lia|congruence].
  - destruct (decide (S j = ny)) as [<-|Hn]; [left; exists BTop; exists i; done|]. right.
    destruct (has_sides i (S j)) as ((t' & s' & k' & o' & H1 & H2 & E') & _). exists t', s', i, (S j), k', o'. split_and!; try done; [lia|congruence].
  - right. exists t', s', i, j, k', o'. split_and!; try done. rewrite E. by destruct (side_sign s k).
Qed.
(** A side on the border has triangles on one side only. *)
Lemma border_sign b t s i j k o u v : (i < nx)%nat -> (j < ny)%nat -> (t, s) ∈ signed_square dg i j -> GSide t k o u v -> OnBorder nx ny b u v ->
  side_sign s k = match b with BLeft | BTop => false | BRight | BBottom => true end.
Proof using.
  intros Hi Hj H Hs Hb.
  kinds H; sides Hs; destruct b; destruct Hb as (z & Hz & Hu & Hv); try discriminate Hu; try discriminate Hv;
    injection Hu as U1 U2; injection Hv as V1 V2; try reflexivity; exfalso; lia.
Qed.
(** The vertices of a triangle. *)
Lemma tri_used t s i j : (i < nx)%nat -> (j < ny)%nat -> (t, s) ∈ signed_square dg i j -> let '(a, b, d) := t in
  Used a /\ Used b /\ Used d /\ (gnum nx ny a < gnum nx ny b < gnum nx ny d)%nat.
Proof using.
  intros Hi Hj H. assert (j * S nx + S nx <= ny * S nx)%nat by nia.
  kinds H; unfold Used; cbn [GV gnum]; split_and!; try done; lia.
Qed.
Lemma gside_used t s i j k o u v : (i < nx)%nat -> (j < ny)%nat -> (t, s) ∈ signed_square dg i j -> GSide t k o u v -> Used o /\ Used u /\ Used v.
Proof using.
  intros Hi Hj H Hs. pose proof (tri_used t s i j Hi Hj H) as HU. destruct t as [[a b] d]. destruct HU as (Ua & Ub & Ud & _). sides Hs; done.
Qed.

Lemma nodup_concat {A} (ls : list (list A)) : Forall NoDup ls ->
  (forall i j l l' x, ls !! i = Some l -> ls !! j = Some l' -> x ∈ l -> x ∈ l' -> i = j) -> NoDup (concat ls).
Proof using.
  clear. induction ls as [|l ls IH]; intros HF H; [constructor|]. cbn [concat]. apply list.Forall_cons in HF as [Hl HF]. apply NoDup_app. split; [exact Hl|]. split.
  - intros x Hx Hx'. apply elem_of_list_In, in_concat in Hx' as (l' & Hl' & Hx'). apply elem_of_list_In, elem_of_list_lookup in Hl' as [k Hk]. apply elem_of_list_In in Hx'.
    discriminate (H 0%nat (S k) l l' x eq_refl Hk Hx Hx').
  - apply IH; [exact HF|]. intros i j l1 l2 x H1 H2 Hx Hx'. by injection (H (S i) (S j) l1 l2 x H1 H2 Hx Hx').
Qed.
Lemma gtris_nodup : NoDup (rect_gtris nx ny dg).
Proof using.
  apply nodup_concat.
  - apply list.Forall_forall. intros l Hl. apply elem_of_list_fmap in Hl as (y & -> & _).
    assert (Hd : forall a b : gtri, a <> b -> NoDup [a; b]) by (intros a b Hab; apply list.NoDup_cons; split; [by rewrite elem_of_list_singleton|apply NoDup_singleton]).
    destruct dg; cbn [square_tris]; try (destruct (is_right _ _ _)); try (apply Hd; intros [=]; lia).
    repeat (apply list.NoDup_cons; split; [rewrite ?elem_of_cons, elem_of_nil; intros Hx; repeat (destruct Hx as [Hx|Hx]; [injection Hx; lia|]); done|]). constructor.
  - intros a b l l' x Ha Hb Hx Hx'. rewrite (list_lookup_fmap _ (seq 0 _)) in Ha, Hb.
    destruct (seq 0 (nx * ny) !! a) as [a'|] eqn:Ea; [|discriminate]. destruct (seq 0 (nx * ny) !! b) as [b'|] eqn:Eb; [|discriminate].
    apply lookup_seq in Ea as [-> Ha'], Eb as [-> Hb']. cbn in Ha, Hb. injection Ha as <-. injection Hb as <-.
    destruct (signed_in _ _ _ Hx) as [s Hs]. destruct (signed_in _ _ _ Hx') as [s' Hs'].
    assert (nx <> 0)%nat by lia.
    assert (Hsame : (a mod nx)%nat = (b mod nx)%nat /\ (a / nx)%nat = (b / nx)%nat).
    { kinds Hs; destruct (square_kinds _ _ _ _ Hs') as [(E1 & R1 & [[E2 ->]|[E2 ->]])|[(E1 & R1 & [[E2 ->]|[E2 ->]])|(E1 & [[E2 ->]|[[E2 ->]|[[E2 ->]|[E2 ->]]]])]];
        try (exfalso; congruence); injection E2; intros; subst; try (exfalso; lia); split; lia. }
    rewrite (Nat.div_mod a nx), (Nat.div_mod b nx) by done. by destruct Hsame as [-> ->].
Qed.
End Grid.

(** ** Meshes on the grid *)
Section Mesh.
Context (nx ny : nat) (dg : diagonal) (pos : gvertex -> vec) (num : nat * nat -> nat).
Let xs := map pos (rect_gvertices nx ny dg).
Let ts := rect_tris nx ny dg.
(** The triangles keep their orientation. *)
Definition Oriented : Prop := forall i j t s, (i < nx)%nat -> (j < ny)%nat -> (t, s) ∈ signed_square dg i j ->
  let '(a, b, d) := t in if s : bool then 0 < orient2d (pos a) (pos b) (pos d) else orient2d (pos a) (pos b) (pos d) < 0.
Context (Hlen : forall v, length (pos v) = 2%nat) (HO : Oriented) (Hnum : Numbering num ts).

Lemma pos_at v : Used nx ny dg v -> xs !! gnum nx ny v = Some (pos v).
Proof. intros H. subst xs. rewrite list_lookup_fmap. by rewrite (gvertex_at nx ny dg v H). Qed.
Lemma tris_in t : t ∈ ts -> exists g s i j, t = gtri_num nx ny g /\ (i < nx)%nat /\ (j < ny)%nat /\ (g, s) ∈ signed_square dg i j.
Proof.
  intros H. apply elem_of_list_fmap in H as (g & -> & Hg). apply gtris_in in Hg as (i & j & Hi & Hj & Hg). destruct (signed_in _ _ _ _ Hg) as [s Hs].
  by exists g, s, i, j.
Qed.
Lemma signed_tri g s i j : (g, s) ∈ signed_square dg i j -> g ∈ square_tris dg i j.
Proof. intros H. unfold signed_square in H. by apply elem_of_zip_l in H. Qed.
Lemma side_lift g k o u v : Side (gtri_num nx ny g) k o u v -> exists go gu gv, GSide g k go gu gv /\ o = gnum nx ny go /\ u = gnum nx ny gu /\ v = gnum nx ny gv.
Proof.
  destruct g as [[a b] d]. cbn [gtri_num Side GSide]. intros [(-> & -> & -> & ->)|[(-> & -> & -> & ->)|(-> & -> & -> & ->)]].
  - exists a, b, d. tauto.
  - exists b, a, d. tauto.
  - exists d, a, b. tauto.
Qed.
Lemma side_lower g k go gu gv : GSide g k go gu gv -> Side (gtri_num nx ny g) k (gnum nx ny go) (gnum nx ny gu) (gnum nx ny gv).
Proof. destruct g as [[a b] d]. cbn [gtri_num Side GSide]. intros [(-> & -> & -> & ->)|[(-> & -> & -> & ->)|(-> & -> & -> & ->)]]; tauto. Qed.
Lemma gtri_num_inj g s i j g' s' i' j' : (i < nx)%nat -> (j < ny)%nat -> (i' < nx)%nat -> (j' < ny)%nat -> (g, s) ∈ signed_square dg i j -> (g', s') ∈ signed_square dg i' j' ->
  gtri_num nx ny g = gtri_num nx ny g' -> g = g'.
Proof.
  intros Hi Hj Hi' Hj' H H'. pose proof (tri_used nx ny dg g s i j Hi Hj H) as HU. pose proof (tri_used nx ny dg g' s' i' j' Hi' Hj' H') as HU'.
  destruct g as [[a b] d], g' as [[a' b'] d']. destruct HU as ([Ua _] & [Ub _] & [Ud _] & _), HU' as ([Ua' _] & [Ub' _] & [Ud' _] & _).
  cbn [gtri_num]. intros [= E1 E2 E3]. by rewrite (gnum_inj nx ny a a' Ua Ua' E1), (gnum_inj nx ny b b' Ub Ub' E2), (gnum_inj nx ny d d' Ud Ud' E3).
Qed.
Lemma tris_nodup : NoDup ts.
Proof.
  apply NoDup_alt. intros a b t Ha Hb. subst ts. unfold rect_tris in *. rewrite list_lookup_fmap in Ha, Hb.
  destruct (rect_gtris nx ny dg !! a) as [g|] eqn:Ea; [|discriminate]. destruct (rect_gtris nx ny dg !! b) as [g'|] eqn:Eb; [|discriminate].
  cbn in Ha, Hb. injection Ha as Ha. injection Hb as Hb. assert (g = g') as <-.
  { pose proof (elem_of_list_lookup_2 _ _ _ Ea) as (i & j & Hi & Hj & Hg)%gtris_in. pose proof (elem_of_list_lookup_2 _ _ _ Eb) as (i' & j' & Hi' & Hj' & Hg')%gtris_in.
    destruct (signed_in _ _ _ _ Hg) as [s Hs]. destruct (signed_in _ _ _ _ Hg') as [s' Hs'].
    apply (gtri_num_inj g s i j g' s' i' j'); try assumption. congruence. }
  exact (NoDup_lookup _ _ _ _ (gtris_nodup nx ny dg) Ea Eb).
Qed.
Lemma side_orient g s i j k o u v : (i < nx)%nat -> (j < ny)%nat -> (g, s) ∈ signed_square dg i j -> GSide g k o u v ->
  if side_sign s k then 0 < orient2d (pos o) (pos u) (pos v) else orient2d (pos o) (pos u) (pos v) < 0.
Proof.
  intros Hi Hj H Hs. pose proof (HO i j g s Hi Hj H) as E. destruct g as [[a b] d].
  destruct Hs as [(-> & -> & -> & ->)|[(-> & -> & -> & ->)|(-> & -> & -> & ->)]]; unfold side_sign; destruct s; cbn; unfold orient2d in *; lra.
Qed.
(** Two different triangles with a common side. *)
Lemma two_sides g s i j k o u v g' s' i' j' k' o' : (i < nx)%nat -> (j < ny)%nat -> (i' < nx)%nat -> (j' < ny)%nat ->
  (g, s) ∈ signed_square dg i j -> (g', s') ∈ signed_square dg i' j' -> GSide g k o u v -> GSide g' k' o' u v -> g <> g' ->
  orient2d (pos o) (pos u) (pos v) * orient2d (pos o') (pos u) (pos v) < 0.
Proof.
  intros Hi Hj Hi' Hj' H H' Hs Hs' Hne. pose proof (side_orient g s i j k o u v Hi Hj H Hs) as O1. pose proof (side_orient g' s' i' j' k' o' u v Hi' Hj' H' Hs') as O2.
  destruct (bool_decide (side_sign s k = side_sign s' k')) eqn:E.
  - apply bool_decide_eq_true in E. destruct (side_unique dg g s i j g' s' i' j' k k' o o' u v H H' Hs Hs' E) as [E1 _]. done.
  - apply bool_decide_eq_false in E. destruct (side_sign s k), (side_sign s' k'); try done; nra.
Qed.
Lemma grid_triangulation : Triangulation num xs ts.
Proof.
  split.
  - exact tris_nodup.
  - intros i p H. subst xs. rewrite list_lookup_fmap in H. destruct (rect_gvertices nx ny dg !! i); [|discriminate]. injection H as <-. apply Hlen.
  - intros a b d (g & s & i & j & E & Hi & Hj & H)%tris_in. pose proof (tri_used nx ny dg g s i j Hi Hj H) as HU. pose proof (HO i j g s Hi Hj H) as HD.
    destruct g as [[ga gb] gd]. cbn in E. injection E as -> -> ->. destruct HU as (Ua & Ub & Ud & Hlt). split; [exact Hlt|].
    exists (pos ga), (pos gb), (pos gd). split_and!; try (by apply pos_at). destruct s; lra.
  - exact Hnum.
  - intros t t' i i' o o' u v po po' pu pv (g & s & a & b & -> & Ha & Hb & H)%tris_in (g' & s' & a' & b' & -> & Ha' & Hb' & H')%tris_in Hne Hs Hs' Po Po' Pu Pv.
    apply side_lift in Hs as (go & gu & gv & Hs & -> & -> & ->). apply side_lift in Hs' as (go' & gu' & gv' & Hs' & -> & Eu & Ev).
    destruct (gside_used _ _ _ _ _ _ _ _ _ _ _ Ha Hb H Hs) as (Uo & Uu & Uv). destruct (gside_used _ _ _ _ _ _ _ _ _ _ _ Ha' Hb' H' Hs') as (Uo' & Uu' & Uv').
    apply (gnum_inj nx ny gu gu' (proj1 Uu) (proj1 Uu')) in Eu as <-. apply (gnum_inj nx ny gv gv' (proj1 Uv) (proj1 Uv')) in Ev as <-.
    rewrite (pos_at go Uo) in Po. rewrite (pos_at go' Uo') in Po'. rewrite (pos_at gu Uu) in Pu. rewrite (pos_at gv Uv) in Pv. injection Po as <-. injection Po' as <-. injection Pu as <-. injection Pv as <-.
    apply (two_sides g s a b i go gu gv g' s' a' b' i' go'); try assumption. by intros ->.
Qed.

(** The facets with one cell are those on the border. *)
Lemma grid_border k g i go gu gv : rect_gtris nx ny dg !! k = Some g -> GSide g i go gu gv ->
  t_cells (tri_topo num ts) (num (gnum nx ny gu, gnum nx ny gv)) = [k] <-> exists b, OnBorder nx ny b gu gv.
Proof.
  intros Ek Hs. pose proof (elem_of_list_lookup_2 _ _ _ Ek) as (a & b & Ha & Hb & Hg)%gtris_in. destruct (signed_in _ _ _ _ Hg) as [s H].
  assert (Ek' : ts !! k = Some (gtri_num nx ny g)) by (subst ts; unfold rect_tris; rewrite list_lookup_fmap; by rewrite Ek).
  destruct (gside_used _ _ _ _ _ _ _ _ _ _ _ Ha Hb H Hs) as (Uo & Uu & Uv).
  assert (Hk : k ∈ t_cells (tri_topo num ts) (num (gnum nx ny gu, gnum nx ny gv))).
  { apply attached_in, facet_in. exists (gtri_num nx ny g), i, (gnum nx ny go), (gnum nx ny gu), (gnum nx ny gv). split; [exact Ek'|]. split; [by apply side_lower|done]. }
  split.
  - intros E. destruct (side_other nx ny dg g s a b i go gu gv Ha Hb H Hs) as [Hbd|(g' & s' & a' & b' & i' & go' & Ha' & Hb' & H' & Hs' & Hne)]; [exact Hbd|]. exfalso.
    assert (Hg' : g' ∈ rect_gtris nx ny dg) by (apply gtris_in; exists a', b'; split; [exact Ha'|split; [exact Hb'|by apply signed_tri in H']]).
    apply elem_of_list_lookup in Hg' as [k' Ek1].
    assert (Hk' : k' ∈ t_cells (tri_topo num ts) (num (gnum nx ny gu, gnum nx ny gv))).
    { apply attached_in, facet_in. exists (gtri_num nx ny g'), i', (gnum nx ny go'), (gnum nx ny gu), (gnum nx ny gv).
      split; [subst ts; unfold rect_tris; rewrite list_lookup_fmap; by rewrite Ek1|]. split; [by apply side_lower|done]. }
    rewrite E in Hk'. apply elem_of_list_singleton in Hk' as ->. rewrite Ek in Ek1. injection Ek1 as <-.
    apply Hne. destruct g as [[x y] z]. pose proof (tri_used _ _ _ _ _ _ _ Ha Hb H) as (_ & _ & _ & Hlt).
    assert (Hss : s = s' /\ i = i').
    { assert (i = i') as <-.
      { destruct Hs as [(-> & -> & -> & ->)|[(-> & -> & -> & ->)|(-> & -> & -> & ->)]], Hs' as [(-> & -> & E1 & E2)|[(-> & -> & E1 & E2)|(-> & -> & E1 & E2)]]; subst; try done; lia. }
      split; [|done]. pose proof (square_kinds _ _ _ _ _ H) as Q. pose proof (square_kinds _ _ _ _ _ H') as Q'. cbv zeta in Q, Q'.
      destruct Q as [(_ & R & [[E1 ->]|[E1 ->]])|[(_ & R & [[E1 ->]|[E1 ->]])|(R & [[E1 ->]|[[E1 ->]|[[E1 ->]|[E1 ->]]]])]];
      destruct Q' as [(R0 & R' & [[E2 ->]|[E2 ->]])|[(R0 & R' & [[E2 ->]|[E2 ->]])|(R' & [[E2 ->]|[[E2 ->]|[[E2 ->]|[E2 ->]]]])]];
        try reflexivity; exfalso; rewrite E1 in E2; injection E2; intros; try lia; try congruence. }
    by destruct Hss as [-> ->].
  - intros [bd Hbd].
    assert (Hall : forall k', k' ∈ t_cells (tri_topo num ts) (num (gnum nx ny gu, gnum nx ny gv)) -> k' = k).
    { intros k' Hk'. apply attached_in, facet_in in Hk' as (t' & i' & o' & u' & v' & Et' & Hs' & Hf).
      pose proof (elem_of_list_lookup_2 _ _ _ Et') as (g' & s' & a' & b' & -> & Ha' & Hb' & H')%tris_in.
      assert ((gnum nx ny gu, gnum nx ny gv) = (u', v')) as [= <- <-].
      { apply (Hnum (gtri_num nx ny g) (gtri_num nx ny g')); [by eapply elem_of_list_lookup_2|by eapply elem_of_list_lookup_2|eapply side_in_edges; by apply side_lower|by eapply side_in_edges|exact Hf]. }
      apply side_lift in Hs' as (go' & gu' & gv' & Hs' & -> & Eu & Ev). destruct (gside_used _ _ _ _ _ _ _ _ _ _ _ Ha' Hb' H' Hs') as (Uo' & Uu' & Uv').
      apply (gnum_inj nx ny gu gu' (proj1 Uu) (proj1 Uu')) in Eu as <-. apply (gnum_inj nx ny gv gv' (proj1 Uv) (proj1 Uv')) in Ev as <-.
      assert (g = g') as <-.
      { apply (side_unique dg g s a b g' s' a' b' i i' go go' gu gv H H' Hs Hs').
        rewrite (border_sign nx ny dg bd g s a b i go gu gv Ha Hb H Hs Hbd). by rewrite (border_sign nx ny dg bd g' s' a' b' i' go' gu gv Ha' Hb' H' Hs' Hbd). }
      exact (NoDup_lookup _ _ _ _ tris_nodup Et' Ek'). }
    assert (Hnd : NoDup (t_cells (tri_topo num ts) (num (gnum nx ny gu, gnum nx ny gv)))) by (cbn; apply list.NoDup_filter, NoDup_seq).
    destruct (t_cells _ _) as [|x [|y l]]; [by apply elem_of_nil in Hk| |].
    + f_equal. apply Hall. left.
    + exfalso. apply list.NoDup_cons in Hnd as [Hx _]. apply Hx. rewrite (Hall x), <- (Hall y) by (repeat (left || right)). left.
Qed.
End Mesh.
