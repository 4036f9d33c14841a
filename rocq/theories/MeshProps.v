(** C34: neighbours. *)
From stdpp Require Import list_numbers.
From Verif Require Import MeshModel.
Local Open Scope Z_scope.

(** ** What is meant *)

(** A mesh of simplices of dimension [tdim]: every cell has [tdim+1] different facets, a facet is listed for a cell exactly when the
    cell is attached to it, and one or two cells are attached to a facet. *)
Record Simplicial (t : topo) (tdim : nat) : Prop := {
  sm_len : forall c, (c < t_ncell t)%nat -> length (t_facets t c) = S tdim;
  sm_facets : forall c, (c < t_ncell t)%nat -> NoDup (t_facets t c);
  sm_inc : forall c f, (c < t_ncell t)%nat -> f ∈ t_facets t c <-> c ∈ t_cells t f;
  sm_cells : forall f, NoDup (t_cells t f);
  sm_two : forall f, (length (t_cells t f) <= 2)%nat;
  sm_range : forall f c, c ∈ t_cells t f -> (c < t_ncell t)%nat
}.
(** Entry of the table for local facet [j] of cell [c]. *)
Definition nbr (rows : list (list (option Z))) (c j : nat) : option Z := x ← rows !! c; y ← x !! j; y.

Section Neighbours.
Context (t : topo) (tdim : nat) (HM : Simplicial t tdim).
Let value (c f : nat) : Z := match attached t c f with b :: _ => Z.of_nat b | [] => NO_CELL_INDEX end.

Lemma row_ok c facets : forall fi row, (fi + length facets = length row)%nat ->
  neighbor_row t c (Z.of_nat fi) facets row = Ok (take fi row ++ map (fun f => Some (value c f)) facets).
Proof using.
  induction facets as [|f r IH]; intros fi row Hl.
  - cbn in *. rewrite app_nil_r. f_equal. symmetry. apply take_ge. lia.
  - cbn [neighbor_row map]. cbn in Hl. unfold py_set, py_pos. replace ((0 <=? Z.of_nat fi) && (Z.of_nat fi <? Z.of_nat (length row))) with true by lia.
    rewrite Nat2Z.id. replace (Z.of_nat fi + 1) with (Z.of_nat (S fi)) by lia. rewrite IH by (rewrite insert_length; lia).
    f_equal. rewrite (take_S_r _ fi (Some (value c f))) by (apply list_lookup_insert; lia). rewrite take_insert by lia. by rewrite <- app_assoc.
Qed.
Lemma rows_ok cells : (forall c, c ∈ cells -> length (t_facets t c) = S tdim) ->
  neighbor_rows t tdim cells = Ok (map (fun c => map (fun f => Some (value c f)) (t_facets t c)) cells).
Proof using.
  induction cells as [|c r IH]; intros Hl; [reflexivity|]. cbn [neighbor_rows map].
  rewrite (row_ok c (t_facets t c) 0) by (rewrite replicate_length, Hl by left; reflexivity).
  rewrite IH by (intros c' H; apply Hl; by right). reflexivity.
Qed.
Lemma dict_ok : compute_cell_neighbors_dict t tdim = Ok (map (fun c => map (fun f => Some (value c f)) (t_facets t c)) (seq 0 (t_ncell t))).
Proof using HM.
  apply rows_ok. intros c Hc. apply elem_of_seq in Hc. apply (sm_len _ _ HM). lia.
Qed.
Lemma nbr_at c j f : (c < t_ncell t)%nat -> t_facets t c !! j = Some f ->
  nbr (map (fun c => map (fun f => Some (value c f)) (t_facets t c)) (seq 0 (t_ncell t))) c j = Some (value c f).
Proof using.
  intros Hc Hf. unfold nbr. rewrite (list_lookup_fmap _ (seq 0 (t_ncell t)) c), lookup_seq_lt by lia. cbn.
  rewrite (list_lookup_fmap _ (t_facets t c) j), Hf. reflexivity.
Qed.
(** The value in terms of what is attached to the facet. *)
Lemma value_spec c f : (c < t_ncell t)%nat -> f ∈ t_facets t c ->
  (forall b, value c f = Z.of_nat b <-> b <> c /\ b ∈ t_cells t f) /\
  (value c f = NO_CELL_INDEX <-> t_cells t f = [c]).
Proof using HM.
  intros Hc Hf. apply (sm_inc _ _ HM) in Hf; [|exact Hc]. pose proof (sm_cells _ _ HM f) as Hnd. pose proof (sm_two _ _ HM f) as Htwo.
  unfold value, attached.
  destruct (t_cells t f) as [|x [|y [|z l]]] eqn:E.
  - inversion Hf.
  - apply elem_of_list_singleton in Hf. subst x. rewrite filter_cons_False by (intros H; by apply H). rewrite filter_nil. split.
    + intros b. split; [unfold NO_CELL_INDEX; lia|]. intros [Hb Hb'%elem_of_list_singleton]. done.
    + done.
  - inversion_clear Hnd as [|? ? Hni _]. assert (x <> y) by (intros ->; apply Hni; left).
    apply elem_of_cons in Hf as [<-|Hf%elem_of_list_singleton].
    + rewrite filter_cons_False by (intros H'; by apply H'). rewrite filter_cons_True by congruence. split.
      * intros b. split; [intros Hb; assert (b = y) as -> by lia; split; [congruence|right; left]|].
        intros [Hb Hb']. apply elem_of_cons in Hb' as [->|Hb'%elem_of_list_singleton]; [done|by subst].
      * split; [unfold NO_CELL_INDEX; lia|discriminate].
    + subst y. rewrite filter_cons_True by congruence. split.
      * intros b. split; [intros Hb; assert (b = x) as -> by lia; split; [congruence|left]|].
        intros [Hb Hb']. apply elem_of_cons in Hb' as [->|Hb'%elem_of_list_singleton]; [reflexivity|done].
      * split; [unfold NO_CELL_INDEX; lia|discriminate].
  - cbn in Htwo. lia.
Qed.
End Neighbours.

(** C34: the table has an entry for every facet of every cell.  The neighbour across a facet is the other cell attached to it,
    and the entry is NO_CELL when there is none. *)
Theorem C34_table t tdim : Simplicial t tdim -> exists rows, compute_cell_neighbors_dict t tdim = Ok rows /\
  length rows = t_ncell t /\ (forall row, row ∈ rows -> length row = S tdim) /\
  forall c j f, (c < t_ncell t)%nat -> t_facets t c !! j = Some f ->
    (forall b, nbr rows c j = Some (Z.of_nat b) <-> b <> c /\ b ∈ t_cells t f) /\
    (nbr rows c j = Some NO_CELL_INDEX <-> t_cells t f = [c]).
Proof.
  intros HM. eexists. split; [by apply dict_ok|]. split; [by rewrite map_length, seq_length|]. split.
  - intros row Hr. apply elem_of_list_fmap in Hr as (c & -> & Hc). apply elem_of_seq in Hc. rewrite map_length. apply (sm_len _ _ HM). lia.
  - intros c j f Hc Hf. rewrite (nbr_at t c j f Hc Hf).
    destruct (value_spec t tdim HM c f Hc) as [H1 H2]; [by eapply elem_of_list_lookup_2|]. split.
    + intros b. rewrite <- H1. split; [intros [= H]; exact H|by intros ->].
    + rewrite <- H2. split; [intros [= H]; exact H|by intros ->].
Qed.

(** Neighbours are mutual: the neighbour [b] of [c] has [c] as its neighbour across the same facet, at exactly one place, and is
    another cell of the mesh. *)
Theorem C34_mutual t tdim rows c j f b : Simplicial t tdim -> compute_cell_neighbors_dict t tdim = Ok rows ->
  (c < t_ncell t)%nat -> t_facets t c !! j = Some f -> nbr rows c j = Some (Z.of_nat b) ->
  (b < t_ncell t)%nat /\ b <> c /\ exists j', t_facets t b !! j' = Some f /\ nbr rows b j' = Some (Z.of_nat c) /\
    forall j2, t_facets t b !! j2 = Some f -> j2 = j'.
Proof.
  intros HM E Hc Hf Hb. destruct (C34_table t tdim HM) as (rows' & E' & _ & _ & H). rewrite E in E'. injection E' as <-.
  destruct (H c j f Hc Hf) as [H1 _]. apply H1 in Hb as [Hne Hin]. pose proof (sm_range _ _ HM f b Hin) as Hbn.
  split; [exact Hbn|]. split; [exact Hne|].
  assert (Hfb : f ∈ t_facets t b) by (by apply (sm_inc _ _ HM)). apply elem_of_list_lookup in Hfb as [j' Hj']. exists j'. split; [exact Hj'|]. split.
  - apply (H b j' f Hbn Hj'). split; [congruence|]. apply (sm_inc _ _ HM); [exact Hc|]. by eapply elem_of_list_lookup_2.
  - intros j2 Hj2. exact (NoDup_lookup _ _ _ _ (sm_facets _ _ HM b Hbn) Hj2 Hj').
Qed.

(** The C++ array is the same table. *)
Theorem C34_cpp_same t tdim : Simplicial t tdim -> exists arr,
  compute_cell_neighbors_array t (S tdim) = Ok arr /\ compute_cell_neighbors_dict t tdim = Ok (map (map Some) arr).
Proof.
  intros HM. set (value := fun c f => match attached t c f with b :: _ => Z.of_nat b | [] => NO_CELL_INDEX end).
  exists (map (fun c => map (value c) (t_facets t c)) (seq 0 (t_ncell t))). split.
  - unfold compute_cell_neighbors_array.
    assert (Hrow : forall c facets fi row, (forall f, f ∈ facets -> c ∈ t_cells t f) -> (fi + length facets = length row)%nat ->
      cpp_neighbor_row t c fi facets row = Ok (take fi row ++ map (value c) facets)).
    { intros c. induction facets as [|f r IH]; intros fi row Hin Hl.
      - cbn in *. rewrite app_nil_r. f_equal. symmetry. apply take_ge. lia.
      - cbn [cpp_neighbor_row map]. cbn in Hl. pose proof (Hin f ltac:(left)) as Hc. pose proof (sm_cells _ _ HM f) as Hnd. pose proof (sm_two _ _ HM f) as Htwo.
        assert (Hv : (1 <= length (t_cells t f))%nat /\ (if (length (t_cells t f) =? 2)%nat
             then (if (nth 0 (t_cells t f) 0 =? c)%nat then Z.of_nat (nth 1 (t_cells t f) 0%nat) else Z.of_nat (nth 0 (t_cells t f) 0%nat))
             else NO_CELL_INDEX) = value c f).
        { unfold value, attached. destruct (t_cells t f) as [|x [|y [|z l]]].
          - inversion Hc.
          - apply elem_of_list_singleton in Hc. subst x. rewrite filter_cons_False by (intros H; by apply H). split; [cbn; lia|reflexivity].
          - inversion_clear Hnd as [|? ? Hni _]. assert (x <> y) by (intros ->; apply Hni; left). split; [cbn; lia|]. cbn [length Nat.eqb nth].
            apply elem_of_cons in Hc as [<-|Hc%elem_of_list_singleton].
            + rewrite Nat.eqb_refl. rewrite filter_cons_False by (intros H'; by apply H'). by rewrite filter_cons_True by congruence.
            + subst y. rewrite (proj2 (Nat.eqb_neq x c)) by congruence. by rewrite filter_cons_True by congruence.
          - cbn in Htwo. lia. }
        destruct Hv as [Hone Hv]. rewrite Hv. rewrite (proj2 (Nat.leb_le 1 (length (t_cells t f))) Hone), (proj2 (Nat.leb_le (length (t_cells t f)) 2) Htwo). cbn [andb negb].
        rewrite (proj2 (Nat.ltb_lt fi (length row))) by lia. rewrite IH by (try (intros f' Hf'; apply Hin; by right); rewrite insert_length; lia).
        f_equal. rewrite (take_S_r _ fi (value c f)) by (apply list_lookup_insert; lia). rewrite take_insert by lia. by rewrite <- app_assoc. }
    assert (Hrows : forall cells, (forall c, c ∈ cells -> (c < t_ncell t)%nat) ->
      cpp_neighbor_rows t (S tdim) cells = Ok (map (fun c => map (value c) (t_facets t c)) cells)).
    { induction cells as [|c r IH]; intros Hl; [reflexivity|]. cbn [cpp_neighbor_rows map].
      rewrite (Hrow c (t_facets t c) 0%nat).
      - rewrite IH by (intros c' H; apply Hl; by right). reflexivity.
      - intros f Hf. apply (sm_inc _ _ HM); [apply Hl; left|exact Hf].
      - rewrite replicate_length. rewrite (sm_len _ _ HM) by (apply Hl; left). lia. }
    apply Hrows. intros c Hc. apply elem_of_seq in Hc. lia.
  - rewrite (dict_ok t tdim HM). f_equal. rewrite map_map. apply map_ext. intros c. by rewrite map_map.
Qed.

(** With three cells on a facet the Python table is not mutual, and the C++ code stops at its assertion. *)
Definition three : topo := Topo 3 (fun c => [0%nat; S c]) (fun f => if (f =? 0)%nat then [0; 1; 2]%nat else [(f - 1)%nat]).
Theorem C34_three_cells_refuted : exists rows, compute_cell_neighbors_dict three 1 = Ok rows /\
  nbr rows 2 0 = Some 0 /\ nbr rows 0 0 = Some 1 /\ compute_cell_neighbors_array three 2 = Raise AssertionError.
Proof. eexists. split; [vm_compute; reflexivity|]. split; [|split]; vm_compute; reflexivity. Qed.

(** Example: two triangles with a common edge 2; the edge is number 2 of cell 0 and number 0 of cell 1. *)
Definition two_triangles : topo :=
  Topo 2 (fun c => if (c =? 0)%nat then [0; 1; 2]%nat else [2; 3; 4]%nat)
         (fun f => if (f =? 2)%nat then [1; 0]%nat else if (f <? 2)%nat then [0%nat] else if (f <? 5)%nat then [1%nat] else []).
Example C34_example : Simplicial two_triangles 2 /\ exists rows, compute_cell_neighbors_dict two_triangles 2 = Ok rows /\
  rows = [[Some (-1); Some (-1); Some 1]; [Some 0; Some (-1); Some (-1)]] /\ nbr rows 0 2 = Some 1 /\ nbr rows 1 0 = Some 0.
Proof.
  split.
  - split.
    + intros [|[|c]] Hc; [reflexivity|reflexivity|cbn in Hc; lia].
    + intros [|[|c]] Hc; [apply (bool_decide_unpack _); vm_compute; exact I|apply (bool_decide_unpack _); vm_compute; exact I|cbn in Hc; lia].
    + intros c f Hc. cbn [two_triangles t_ncell t_facets t_cells] in *.
      destruct f as [|[|[|[|[|f]]]]]; cbn; destruct c as [|[|c]]; cbn; try lia; rewrite !elem_of_list_In; cbn; lia.
    + intros f. cbn. destruct f as [|[|[|[|[|f]]]]]; cbn; apply (bool_decide_unpack _); vm_compute; exact I.
    + intros f. cbn. destruct f as [|[|[|[|[|f]]]]]; cbn; lia.
    + intros f c Hc. cbn in *. destruct f as [|[|[|[|[|f]]]]]; cbn in Hc; rewrite elem_of_list_In in Hc; cbn in Hc; lia.
  - eexists. split; [vm_compute; reflexivity|]. split; [reflexivity|]. split; reflexivity.
Qed.

Print Assumptions C34_table.
Print Assumptions C34_mutual.
Print Assumptions C34_cpp_same.
Print Assumptions C34_three_cells_refuted.
