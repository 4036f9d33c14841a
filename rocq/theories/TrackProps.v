(** C12: the tracking loop ends, in the right cell.  For every arithmetic. *)
From Verif Require Import Vec VecProofs TrackModel BcModel TrackProofs FindFacetProps Conforming TrackEval.

(** A walk through the mesh: at every step one facet of the current cell is crossed;
    behind it is the neighbour, or nothing, in which case the walk stays. *)
Inductive walk (m : mesh) : Z -> list nat -> Z -> Prop :=
| walk_nil c : walk m c [] c
| walk_in c is c1 cr i cn : walk m c is c1 -> cells m c1 = Some cr ->
    nbrs cr !! i = Some cn -> cn <> NO_CELL -> walk m c (is ++ [i]) cn
| walk_edge c is c1 cr i : walk m c is c1 -> cells m c1 = Some cr ->
    nbrs cr !! i = Some NO_CELL -> walk m c (is ++ [i]) c1.

(** Requirement on the user's functions: they leave cell_index alone. *)
Definition keeps_cell {K} (bcs : Z -> option (bcfun (K:=K))) : Prop :=
  forall v b c p mf f n q c', bcs v = Some b -> b c p mf f n = Ok (q, c') -> pcell q = pcell p.

Theorem C12_tracking_ends_in_cell fl {K} (bcs : Z -> option (bcfun (K:=K))) recd k m maxc fi time dt p c q c' :
  keeps_cell bcs ->
  track fl bcs recd k m maxc fi time dt p c = Ok (q, c') ->
  exists is c1, walk m (pcell p) is c1 /\
    pcross q = Z.of_nat (length is) /\ (pcross q <= Z.max 0 maxc)%Z /\
    ((pcell q = c1 /\ is_Some (cells m c1) /\ inside m c1 (take (gdim m) (px q)) = true) \/
     (pcell q = NO_CELL /\ is_deleted q = true /\
      exists i cr, list.last is = Some i /\ cells m c1 = Some cr /\ nbrs cr !! i = Some NO_CELL)).
Proof.
  intros Hk.
  set (Inv := fun s : lstate (K:=K) => exists is, walk m (pcell p) is (l_ci s) /\
     pcell (l_p s) = l_ci s /\ l_cnt s = Z.of_nat (length is) /\
     (l_cnt s <= Z.max 0 maxc)%Z).
  set (Q := fun (q : particle) (n : Z) (c' : tctx (K:=K)) => exists is c1, walk m (pcell p) is c1 /\
    n = Z.of_nat (length is) /\ (n <= Z.max 0 maxc)%Z /\
    ((pcell q = c1 /\ is_Some (cells m c1) /\ inside m c1 (take (gdim m) (px q)) = true) \/
     (pcell q = NO_CELL /\ is_deleted q = true /\
      exists i cr, list.last is = Some i /\ cells m c1 = Some cr /\ nbrs cr !! i = Some NO_CELL))).
  assert (Hon : forall mf f n t p1 c1 p2 c2,
    on_marker bcs recd m fi mf f n t p1 c1 = Ok (p2, c2) -> pcell p2 = pcell p1).
  { intros mf f n t p1 c1 p2 c2. unfold on_marker. destruct (_ =? 0)%Z; [by intros [= <- _]|].
    destruct (if is_traj p1 then _ else _); [|done]. destruct (bcs _) as [b|] eqn:Eb; [|done].
    intros H. by eapply Hk. }
  pose proof (track_rule fl bcs recd k m maxc fi Inv Q (fun _ => True) time dt p c) as HR.
  intros Ht. rewrite Ht in HR.
  destruct HR as (q0 & n & -> & HQ).
  - intros s (is & Hw & Hpc & Hn & Hmx). destruct (iter_ok fl bcs recd k m maxc fi s)
      as [|cr Hcr Hin| | | |cr i f nn r Hcr Hin Hmax Hff Hcs]; try done.
    + exists is, (l_ci s). split; [done|]. split; [done|]. split; [done|]. left. eauto.
    + destruct Hcs as [| | | |cr i f nn mf p2 c2 Hfi Hne Ho Hnb Hd|cr i f nn mf p2 c2 Hfi Hne Ho Hnb Hd
        |cr i f nn mf p2 c2 cn Hfi Hne Ho Hnb Hcn]; try done.
      * exists (is ++ [i]), (l_ci s). split; [by eapply walk_edge|].
        rewrite app_length. cbn. split; [lia|]. split; [lia|]. right.
        split; [done|]. split; [done|]. exists i, cr. split; [by rewrite last_snoc|done].
      * exists (is ++ [i]). split; [by eapply walk_edge|]. cbn.
        apply Hon in Ho. rewrite Ho. split; [done|]. rewrite app_length. cbn. lia.
      * exists (is ++ [i]). split; [by eapply walk_in|]. cbn.
        split; [done|]. rewrite app_length. cbn. lia.
  - exists []. cbn. split; [constructor|]. split; [done|]. lia.
  - destruct HQ as (is & c1 & H1 & H2 & H3 & H4). exists is, c1. split; [done|]. cbn.
    split; [done|]. split; [done|]. exact H4.
Qed.

(** Errors: the loop always ends; if the mesh dictionaries are complete and the user's
    functions and the recording raise nothing, it ends normally or with one of the mover's own
    errors, with the exit of find_facet, or with KeyError for an unknown marker. *)
Record Complete (m : mesh) : Prop := {
  cm_nbr : forall c cr i cn, cells m c = Some cr -> nbrs cr !! i = Some cn ->
    cn <> NO_CELL -> is_Some (cells m cn);
  cm_shape : forall c cr, cells m c = Some cr ->
    length (normals cr) = length (facet_vertex (gdim m)) /\ length (verts cr) = S (gdim m) /\
    length (fids cr) = length (normals cr) /\ length (nbrs cr) = length (normals cr);
  cm_dim : (1 <= gdim m <= 3)%nat
}.

Lemma find_facet_errors fl m c cr r0 dr e : Complete m -> cells m c = Some cr ->
  find_facet fl (gdim m) cr r0 dr = Raise e -> e = SystemExit.
Proof.
  intros HC Hc. destruct (cm_shape m HC c cr Hc) as (H1 & H2 & _). pose proof (cm_dim m HC) as Hd.
  unfold find_facet. destruct (Reqb _ _); [done|].
  destruct (facet_planes (gdim m) cr) as [l|] eqn:El.
  2:{ exfalso. unfold facet_planes in El. destruct (mapM _ _) as [vs|] eqn:Em.
      - apply mapM_Some_1, Forall2_length in Em.
        destruct (Nat.eqb_spec (length (normals cr)) (length vs)); [done|lia].
      - assert (is_Some (mapM (fun j => verts cr !! j) (facet_vertex (gdim m)))) as [? Hx]; [|congruence].
        apply mapM_is_Some_2, Forall_lookup. intros i j Hij. apply lookup_lt_is_Some. rewrite H2.
        clear -Hd Hij. destruct (gdim m) as [|[|[|[|]]]]; try lia;
          destruct i as [|[|[|[|i]]]]; cbn in Hij; simplify_eq; lia. }
  set (x0 := take _ r0). set (dx := take _ dr).
  assert (Hlen : length l = length (normals cr)).
  { unfold facet_planes in El. destruct (mapM _ _) as [vs|]; [|done].
    destruct (Nat.eqb_spec (length (normals cr)) (length vs)); [|done].
    injection El as <-. rewrite zip_with_length. lia. }
  destruct (match gdim m with O => _ | S _ => _ end) as [k' f'] eqn:E.
  assert (Hr : k' = NO_FACET \/ (0 <= k' < Z.of_nat (length (normals cr)))%Z).
  { rewrite <- Hlen.
    pose proof (facet_scan_range fl x0 dx l 0 (NO_FACET, 1) ltac:(by left) ltac:(lia)) as Hs.
    destruct (gdim m) as [|[|d]]; [by rewrite E in Hs| |by rewrite E in Hs].
    destruct l as [|[n0 v0] l]; [by rewrite E in Hs|].
    assert (Hst : (fst (facet_step fl x0 dx (NO_FACET, 1%R) 0 n0 v0) = NO_FACET \/
      0 <= fst (facet_step fl x0 dx (NO_FACET, 1%R) 0 n0 v0) < 1)%Z).
    { unfold facet_step. destruct (Rltb _ _); [destruct (Rltb _ (fl _))|]; cbn; lia. }
    destruct (_ =? 0)%Z.
    - rewrite E in Hst. cbn [fst length] in *. lia.
    - pose proof (facet_scan_range fl x0 dx l 1 _ Hst ltac:(lia)) as Hs1. rewrite E in Hs1.
      cbn [fst length] in *. lia. }
  destruct (_ && _); [by intros [= <-]|].
  destruct (py_get (normals cr) k') eqn:Eg; [done|]. exfalso.
  assert (1 <= length (normals cr))%nat.
  { rewrite H1. destruct (gdim m) as [|[|[|[|]]]]; cbn; lia. }
  unfold py_get, py_pos in Eg. destruct Hr as [->|Hr].
  - replace ((0 <=? NO_FACET) && _)%Z with false in Eg by (unfold NO_FACET; lia).
    replace ((- Z.of_nat (length (normals cr)) <=? NO_FACET) && (NO_FACET <? 0))%Z with true in Eg
      by (unfold NO_FACET; lia).
    destruct (lookup_lt_is_Some_2 (normals cr) (Z.to_nat (NO_FACET + Z.of_nat (length (normals cr)))))
      as [? Hl]; [unfold NO_FACET; lia|]. by rewrite Hl in Eg.
  - replace ((0 <=? k') && (k' <? Z.of_nat (length (normals cr))))%Z with true in Eg by lia.
    destruct (lookup_lt_is_Some_2 (normals cr) (Z.to_nat k')) as [? Hl]; [lia|]. by rewrite Hl in Eg.
Qed.

Theorem C12_tracking_errors fl {K} (bcs : Z -> option (bcfun (K:=K))) recd k m maxc fi time dt p c e :
  Complete m -> is_Some (cells m (pcell p)) ->
  (forall c i p t e, recd c i p t <> Raise e) ->
  (forall v b c p mf f n e, bcs v = Some b -> b c p mf f n <> Raise e) ->
  track fl bcs recd k m maxc fi time dt p c = Raise e ->
  (exists msg, e = track_fail k msg) \/ e = SystemExit \/
  (e = KeyError /\ exists mf, marker m mf <> 0%Z /\ bcs (marker m mf) = None).
Proof.
  intros HC Hp Hrec Hbc Ht.
  set (Inv := fun s : lstate (K:=K) => is_Some (cells m (l_ci s))).
  set (E := fun e => (exists msg, e = track_fail k msg) \/ e = SystemExit \/
    (e = KeyError /\ exists mf, marker m mf <> 0%Z /\ bcs (marker m mf) = None)).
  pose proof (track_rule fl bcs recd k m maxc fi Inv (fun _ _ _ => True) E time dt p c) as HR.
  rewrite Ht in HR. apply HR; [|exact Hp].
  intros s Hs. destruct (iter_ok fl bcs recd k m maxc fi s)
      as [Hno|cr Hcr Hin|cr Hcr Hin Hmx|cr e' Hcr Hin Hmx Hff|cr f n Hcr Hin Hmx Hff|cr i f nn r Hcr Hin Hmax Hff Hcs]; try done.
  - destruct Hs. congruence.
  - left. eauto.
  - right. left. by eapply find_facet_errors.
  - left. eauto.
  - destruct (cm_shape m HC _ cr Hcr) as (H1 & H2 & H3 & H4).
    destruct (find_facet_range _ _ _ _ _ _ _ _ Hff) as [|Hrg]; [unfold NO_FACET in *; lia|].
    destruct Hcs as [cr i f nn Hfi|cr i f nn mf Hfi Heq|cr i f nn mf e' Hfi Hne Ho|cr i f nn mf p2 c2 Hfi Hne Ho Hnb
        |cr i f nn mf p2 c2 Hfi Hne Ho Hnb Hd|cr i f nn mf p2 c2 Hfi Hne Ho Hnb Hd
        |cr i f nn mf p2 c2 cn Hfi Hne Ho Hnb Hcn]; try done.
    + apply lookup_ge_None_1 in Hfi. lia.
    + left. eauto.
    + unfold on_marker in Ho. destruct (marker m mf =? 0)%Z eqn:Ez; [done|].
      destruct (if is_traj _ then _ else _) as [c1|e1] eqn:Er.
      2:{ destruct (is_traj _); [|done]. by apply Hrec in Er. }
      destruct (bcs (marker m mf)) as [b|] eqn:Eb.
      * by eapply Hbc in Ho.
      * injection Ho as <-. right. right. split; [done|]. exists mf. split; [lia|done].
    + apply lookup_ge_None_1 in Hnb. lia.
    + eapply cm_nbr; eauto.
Qed.

(** Example: on the line mesh (cells [0,1], [1,3], reflecting at 0, absorbing at 3) a particle
    that starts at 1/2 towards the right and ends at 5/2 crosses one facet into cell 1; one that goes on to
    7/2 crosses two and is absorbed. *)
Definition to_right (x : R) : particle := Particle [x] [1/2] [2 * (x - 1/2)] 1 0 0 5 0.
Lemma line_keeps_cell : keeps_cell (line_bcs (K:=unit)).
Proof.
  intros v b c p mf f n q c'. unfold line_bcs.
  destruct (v =? 1)%Z; [|destruct (v =? 2)%Z; [|done]]; intros [= <-]; unfold reflect_bc, absorb_bc.
  - destruct n as [nv|]; [|done]. destruct (_ || _); [done|]. by intros [= <- _].
  - by intros [= <- _].
Qed.
Lemma line_complete : Complete line_mesh.
Proof.
  split; [|intros c cr Hc; line_cases Hc; cbn; lia|cbn; lia].
  intros c cr i cn Hc Hn Hne. line_cases Hc; destruct i as [|[|i]]; cbn in Hn; simplify_eq; try done;
    cbn; by eexists.
Qed.
Example C12_example_moves :
  track exact (line_bcs (K:=unit)) (fun c _ _ _ => Ok c) Charged line_mesh 10 0 1 (1/2) (to_right (5/2)) (TCtx [0] tt)
    = Ok (Particle [5/2] [1] [4] 1 0 1 5 1, TCtx [2] tt).
Proof.
  rewrite track_eq. change (track_fuel 10) with 12%nat. unfold to_right.
  erewrite (loop_again _ _ _ _ _ _ _ _ _
    (LState 1 1 1 (5/8) (3/8) (Particle [5/2] [1] [4] 1 0 1 5 0) (TCtx [2] tt))) by ieval.
  erewrite loop_leave by ieval. done.
Qed.
Example C12_example_absorbed :
  track exact (line_bcs (K:=unit)) (fun c _ _ _ => Ok c) Charged line_mesh 10 0 1 (1/2) (to_right (7/2)) (TCtx [0] tt)
    = Ok (Particle [7/2] [3] [6] 1 1 (-1) 5 2, TCtx [5/2] tt).
Proof.
  rewrite track_eq. change (track_fuel 10) with 12%nat. unfold to_right.
  erewrite (loop_again _ _ _ _ _ _ _ _ _
    (LState 1 1 1 (7/12) (5/12) (Particle [7/2] [1] [6] 1 0 1 5 0) (TCtx [3] tt))) by ieval.
  erewrite (loop_leave _ _ _ _ _ _ _ _ _ (Particle [7/2] [3] [6] 1 1 (-1) 5 0) 2 (TCtx [5/2] tt)) by ieval. done.
Qed.

Print Assumptions C12_tracking_ends_in_cell.
Print Assumptions C12_tracking_errors.
