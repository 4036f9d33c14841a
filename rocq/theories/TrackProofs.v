(** The tracking loop as an iteration, and an invariant rule for it. *)
From Verif Require Import Vec VecProofs TrackModel BcModel.

(** The facet that [find_facet] returns is NO_FACET or an index of a normal. *)
Lemma facet_scan_range fl x0 dx l : forall i st,
  (fst st = NO_FACET \/ 0 <= fst st < i)%Z -> (0 <= i)%Z ->
  (fst (facet_scan fl x0 dx i l st) = NO_FACET \/
   0 <= fst (facet_scan fl x0 dx i l st) < i + Z.of_nat (length l))%Z.
Proof.
  induction l as [|[n v] l IH]; intros i st Hst Hi; cbn [facet_scan length].
  { destruct Hst; [by left|right; lia]. }
  destruct (IH (i + 1)%Z (facet_step fl x0 dx st i n v)) as [H|H]; try lia.
  unfold facet_step. destruct (Rltb _ _); [destruct (Rltb _ (fl _))|]; cbn; lia.
Qed.

Lemma find_facet_range fl d c r0 dr k f n : find_facet fl d c r0 dr = Ok (k, f, n) ->
  k = NO_FACET \/ (0 <= k < Z.of_nat (length (normals c)))%Z.
Proof.
  unfold find_facet. destruct (Reqb _ _); [intros [= <- _ _]; by left|].
  destruct (facet_planes d c) as [l|] eqn:El; [|done].
  assert (Hlen : length l = length (normals c)).
  { unfold facet_planes in El. destruct (mapM _ _) as [vs|]; [|done].
    destruct (Nat.eqb_spec (length (normals c)) (length vs)); [|done].
    injection El as <-. rewrite zip_with_length. lia. }
  set (x0 := take d r0). set (dx := take d dr).
  destruct (match d with O => _ | S _ => _ end) as [k' f'] eqn:E.
  assert (Hr : k' = NO_FACET \/ (0 <= k' < Z.of_nat (length (normals c)))%Z).
  { rewrite <- Hlen.
    pose proof (facet_scan_range fl x0 dx l 0 (NO_FACET, 1) ltac:(by left) ltac:(lia)) as Hs.
    destruct d as [|[|d]]; [by rewrite E in Hs| |by rewrite E in Hs].
    destruct l as [|[n0 v0] l]; [by rewrite E in Hs|].
    assert (Hst : (fst (facet_step fl x0 dx (NO_FACET, 1%R) 0 n0 v0) = NO_FACET \/
      0 <= fst (facet_step fl x0 dx (NO_FACET, 1%R) 0 n0 v0) < 1)%Z).
    { unfold facet_step. destruct (Rltb _ _); [destruct (Rltb _ (fl _))|]; cbn; lia. }
    destruct (_ =? 0)%Z.
    - rewrite E in Hst. cbn [fst length] in *. lia.
    - pose proof (facet_scan_range fl x0 dx l 1 _ Hst ltac:(lia)) as Hs1. rewrite E in Hs1.
      cbn [fst length] in *. lia. }
  destruct (_ && _); [done|]. destruct (py_get _ _) eqn:Eg; [|done].
  intros [= <- <- <-]. exact Hr.
Qed.

(** The fraction that [find_facet] returns lies in [0, 1] in exact arithmetic,
    whatever the cell. *)
Lemma facet_step_frac x0 dx st i n v : 0 <= snd st <= 1 ->
  0 <= snd (facet_step exact x0 dx st i n v) <= 1.
Proof.
  intros H. unfold facet_step. destruct (Rltb 0 _) eqn:E1; [|done].
  destruct (Rltb _ (exact _)) eqn:E2; [|done].
  apply Rltb_true in E1, E2. cbn. unfold exact in *.
  set (ndx := vdot _ n dx) in *. set (D := if Rltb _ 0 then _ else _) in *.
  assert (0 <= D).
  { subst D. destruct (Rltb _ 0) eqn:E; [apply Rltb_true in E|apply Rltb_false in E]; unfold exact in *; lra. }
  assert (D / ndx * ndx = D) by (field; lra).
  assert (0 <= D / ndx) by (apply Rle_mult_inv_pos; lra). nra.
Qed.
Lemma facet_scan_frac x0 dx l : forall i st, 0 <= snd st <= 1 ->
  0 <= snd (facet_scan exact x0 dx i l st) <= 1.
Proof.
  induction l as [|[n v] l IH]; intros i st H; cbn; [done|].
  apply IH. by apply facet_step_frac.
Qed.
Lemma find_facet_frac d c r0 dr k f n : find_facet exact d c r0 dr = Ok (k, f, n) -> 0 <= f <= 1.
Proof.
  unfold find_facet. destruct (Reqb _ _); [intros [= _ <- _]; lra|].
  destruct (facet_planes d c) as [l|] eqn:El; [|done].
  set (x0 := take d r0). set (dx := take d dr).
  destruct (match d with O => _ | S _ => _ end) as [k' f'] eqn:E.
  assert (Hr : 0 <= f' <= 1).
  { pose proof (facet_scan_frac x0 dx l 0 (NO_FACET, 1) ltac:(cbn; lra)) as Hs.
    destruct d as [|[|d]]; [by rewrite E in Hs| |by rewrite E in Hs].
    destruct l as [|[n0 v0] l]; [by rewrite E in Hs|].
    pose proof (facet_step_frac x0 dx (NO_FACET, 1) 0 n0 v0 ltac:(cbn; lra)) as Hst.
    destruct (_ =? 0)%Z; [by rewrite E in Hst|].
    pose proof (facet_scan_frac x0 dx l 1 _ Hst) as Hs1. by rewrite E in Hs1. }
  destruct (_ && _); [done|]. destruct (py_get _ _) eqn:Eg; [|done].
  intros [= _ <- _]. exact Hr.
Qed.

Section Loop.
Context (fl : R -> R) {K : Type}.
Context (bcs : Z -> option (bcfun (K:=K)))
        (recd : tctx (K:=K) -> Z -> particle -> R -> res (tctx (K:=K))).
Context (k : mkind) (m : mesh) (maxc fi : Z).

(** The variables of the loop. *)
Record lstate := LState {
  l_ci : Z; l_ml : Z; l_cnt : Z; l_t : R; l_dt : R; l_p : particle; l_c : tctx (K:=K)
}.

(** One pass through the loop: leave it, or go on with new values. *)
Inductive outcome := Leave (p : particle) (cnt : Z) (c : tctx (K:=K)) | Again (s : lstate).

Definition iter (s : lstate) : res outcome :=
  match cells m (l_ci s) with
  | None => Raise KeyError
  | Some cr =>
    if inside m (l_ci s) (take (gdim m) (px (l_p s))) then Ok (Leave (l_p s) (l_cnt s) (l_c s)) else
    let cnt1 := (l_cnt s + 1)%Z in
    if (maxc <? cnt1)%Z then Raise (track_fail k CrossCountMsg) else
    let dx := vsub fl (px (l_p s)) (px0 (l_p s)) in
    let c1 := put_move k (l_c s) dx in
    match find_facet fl (gdim m) cr (px0 (l_p s)) dx with
    | Raise e => Raise e
    | Ok (cf, f, n) =>
      if (cf =? NO_FACET)%Z then Raise (track_fail k NoFacetMsg) else
      let tS1 := fl (l_t s + fl (f * l_dt s)) in
      let dtR1 := dt_after fl k f (l_dt s) in
      let p1 := set_px0 (l_p s) (vadd fl (px0 (l_p s)) (vscale fl f dx)) in
      match py_get (fids cr) cf with
      | Raise e => Raise e
      | Ok mf =>
        if (mf =? l_ml s)%Z then Raise (track_fail k SameFacetMsg) else
        match on_marker bcs recd m fi mf f n tS1 p1 c1 with
        | Raise e => Raise e
        | Ok (p2, c2) =>
          match py_get (nbrs cr) cf with
          | Raise e => Raise e
          | Ok cn =>
            if (cn =? NO_CELL)%Z then
              if is_deleted p2 then Ok (Leave (set_pcell p2 NO_CELL) cnt1 c2)
              else Ok (Again (LState (l_ci s) mf cnt1 tS1 dtR1 p2 c2))
            else Ok (Again (LState cn mf cnt1 tS1 dtR1 (set_pcell p2 cn) c2))
          end
        end
      end
    end
  end.

Definition loop (fuel : nat) (s : lstate) :=
  track_loop fl bcs recd fuel k m maxc fi (l_ci s) (l_ml s) (l_cnt s) (l_t s) (l_dt s) (l_p s) (l_c s).

Lemma loop_iter fuel s : loop (S fuel) s =
  match iter s with
  | Raise e => Raise e
  | Ok (Leave p n c) => Ok (p, n, c)
  | Ok (Again s') => loop fuel s'
  end.
Proof.
  unfold loop, iter. destruct s as [ci ml cnt t dt p c]. cbn [l_ci l_ml l_cnt l_t l_dt l_p l_c track_loop].
  destruct (cells m ci) as [cr|]; [|done].
  destruct (inside _ _ _); [done|]. destruct (maxc <? cnt + 1)%Z; [done|].
  destruct (find_facet _ _ _ _ _) as [[[cf f] n]|]; [|done].
  destruct (cf =? NO_FACET)%Z; [done|].
  destruct (py_get (fids cr) cf) as [mf|]; [|done].
  destruct (mf =? ml)%Z; [done|].
  destruct (on_marker _ _ _ _ _ _ _ _ _ _) as [[p2 c2]|]; [|done].
  destruct (py_get (nbrs cr) cf) as [cn|]; [|done].
  destruct (cn =? NO_CELL)%Z; [|done]. destruct (is_deleted p2); done.
Qed.

(** A pass that goes on has counted one more crossing and stayed within the limit. *)
Lemma iter_count s s' : iter s = Ok (Again s') ->
  l_cnt s' = (l_cnt s + 1)%Z /\ (l_cnt s' <= maxc)%Z.
Proof.
  unfold iter. destruct (cells m _) as [cr|]; [|done].
  destruct (inside _ _ _); [done|]. destruct (maxc <? l_cnt s + 1)%Z eqn:E; [done|].
  destruct (find_facet _ _ _ _ _) as [[[cf f] n]|]; [|done].
  destruct (cf =? NO_FACET)%Z; [done|].
  destruct (py_get (fids cr) cf) as [mf|]; [|done].
  destruct (mf =? _)%Z; [done|].
  destruct (on_marker _ _ _ _ _ _ _ _ _ _) as [[p2 c2]|]; [|done].
  destruct (py_get (nbrs cr) cf) as [cn|]; [|done].
  destruct (cn =? NO_CELL)%Z; [destruct (is_deleted p2)|]; intros H; try done;
    injection H as <-; cbn; lia.
Qed.

Lemma loop_rule (Inv : lstate -> Prop) (Q : particle -> Z -> tctx (K:=K) -> Prop) (E : exn -> Prop) :
  (forall s, Inv s -> match iter s with
     | Ok (Leave p n c) => Q p n c | Ok (Again s') => Inv s' | Raise e => E e end) ->
  forall fuel s, Inv s -> (Z.to_nat (maxc - l_cnt s) + 2 <= fuel)%nat ->
  match loop fuel s with Ok (p, n, c) => Q p n c | Raise e => E e end.
Proof.
  intros Hstep. induction fuel as [|fuel IH]; intros s Hs Hf; [lia|].
  rewrite loop_iter. pose proof (Hstep s Hs) as H. pose proof (iter_count s) as Hc.
  destruct (iter s) as [[p n c|s']|e]; [done| |done].
  destruct (Hc s' eq_refl) as [H1 H2]. apply IH; [done|]. lia.
Qed.

Lemma track_rule (Inv : lstate -> Prop) (Q : particle -> Z -> tctx (K:=K) -> Prop) (E : exn -> Prop) time dt p c :
  (forall s, Inv s -> match iter s with
     | Ok (Leave p n c) => Q p n c | Ok (Again s') => Inv s' | Raise e => E e end) ->
  Inv (LState (pcell p) NO_FACET 0 (fl (time - dt)) dt p c) ->
  match track fl bcs recd k m maxc fi time dt p c with
  | Ok (q, c') => exists q0 n, q = set_pcross q0 n /\ Q q0 n c'
  | Raise e => E e
  end.
Proof.
  intros Hstep Hs. unfold track.
  pose proof (loop_rule Inv Q E Hstep (track_fuel maxc) _ Hs) as H.
  unfold loop in H. cbn [l_ci l_ml l_cnt l_t l_dt l_p l_c] in H.
  destruct (track_loop _ _ _ _ _ _ _ _ _ _ _ _ _ _ _) as [[[q n] c']|e].
  - exists q, n. split; [done|]. apply H. unfold track_fuel. lia.
  - apply H. unfold track_fuel. lia.
Qed.

(** Stepping through the loop on explicit data. *)
Lemma loop_again fuel s s' : iter s = Ok (Again s') -> loop (S fuel) s = loop fuel s'.
Proof. intros H. by rewrite loop_iter, H. Qed.
Lemma loop_leave fuel s p n c : iter s = Ok (Leave p n c) -> loop (S fuel) s = Ok (p, n, c).
Proof. intros H. by rewrite loop_iter, H. Qed.
Lemma loop_raise fuel s e : iter s = Raise e -> loop (S fuel) s = Raise e.
Proof. intros H. by rewrite loop_iter, H. Qed.
Lemma track_eq time dt p c : track fl bcs recd k m maxc fi time dt p c =
  match loop (track_fuel maxc) (LState (pcell p) NO_FACET 0 (fl (time - dt)) dt p c) with
  | Ok (q, cnt, c1) => Ok (set_pcross q cnt, c1) | Raise e => Raise e end.
Proof. done. Qed.

(** What one pass can do, case by case. *)
Definition moved (s : lstate) : vec := vsub fl (px (l_p s)) (px0 (l_p s)).
Definition crossed (s : lstate) (f : R) : particle :=
  set_px0 (l_p s) (vadd fl (px0 (l_p s)) (vscale fl f (moved s))).
Definition next_t (s : lstate) (f : R) : R := fl (l_t s + fl (f * l_dt s)).

Inductive iter_spec (s : lstate) : res outcome -> Prop :=
| is_key : cells m (l_ci s) = None -> iter_spec s (Raise KeyError)
| is_inside cr : cells m (l_ci s) = Some cr ->
    inside m (l_ci s) (take (gdim m) (px (l_p s))) = true ->
    iter_spec s (Ok (Leave (l_p s) (l_cnt s) (l_c s)))
| is_max cr : cells m (l_ci s) = Some cr ->
    inside m (l_ci s) (take (gdim m) (px (l_p s))) = false ->
    (maxc < l_cnt s + 1)%Z -> iter_spec s (Raise (track_fail k CrossCountMsg))
| is_ff cr e : cells m (l_ci s) = Some cr ->
    inside m (l_ci s) (take (gdim m) (px (l_p s))) = false ->
    (l_cnt s + 1 <= maxc)%Z ->
    find_facet fl (gdim m) cr (px0 (l_p s)) (moved s) = Raise e -> iter_spec s (Raise e)
| is_nofacet cr f n : cells m (l_ci s) = Some cr ->
    inside m (l_ci s) (take (gdim m) (px (l_p s))) = false ->
    (l_cnt s + 1 <= maxc)%Z ->
    find_facet fl (gdim m) cr (px0 (l_p s)) (moved s) = Ok (NO_FACET, f, n) ->
    iter_spec s (Raise (track_fail k NoFacetMsg))
| is_cross cr (i : nat) f n r : cells m (l_ci s) = Some cr ->
    inside m (l_ci s) (take (gdim m) (px (l_p s))) = false ->
    (l_cnt s + 1 <= maxc)%Z ->
    find_facet fl (gdim m) cr (px0 (l_p s)) (moved s) = Ok (Z.of_nat i, f, n) ->
    cross_spec s cr i f n r -> iter_spec s r
with cross_spec (s : lstate) : cellrec -> nat -> R -> option vec -> res outcome -> Prop :=
| cs_fid cr i f n : fids cr !! i = None -> cross_spec s cr i f n (Raise IndexError)
| cs_same cr i f n mf : fids cr !! i = Some mf -> mf = l_ml s ->
    cross_spec s cr i f n (Raise (track_fail k SameFacetMsg))
| cs_bc cr i f n mf e : fids cr !! i = Some mf -> mf <> l_ml s ->
    on_marker bcs recd m fi mf f n (next_t s f) (crossed s f) (put_move k (l_c s) (moved s)) = Raise e ->
    cross_spec s cr i f n (Raise e)
| cs_nbr cr i f n mf p2 c2 : fids cr !! i = Some mf -> mf <> l_ml s ->
    on_marker bcs recd m fi mf f n (next_t s f) (crossed s f) (put_move k (l_c s) (moved s)) = Ok (p2, c2) ->
    nbrs cr !! i = None -> cross_spec s cr i f n (Raise IndexError)
| cs_absorb cr i f n mf p2 c2 : fids cr !! i = Some mf -> mf <> l_ml s ->
    on_marker bcs recd m fi mf f n (next_t s f) (crossed s f) (put_move k (l_c s) (moved s)) = Ok (p2, c2) ->
    nbrs cr !! i = Some NO_CELL -> is_deleted p2 = true ->
    cross_spec s cr i f n (Ok (Leave (set_pcell p2 NO_CELL) (l_cnt s + 1)%Z c2))
| cs_bounce cr i f n mf p2 c2 : fids cr !! i = Some mf -> mf <> l_ml s ->
    on_marker bcs recd m fi mf f n (next_t s f) (crossed s f) (put_move k (l_c s) (moved s)) = Ok (p2, c2) ->
    nbrs cr !! i = Some NO_CELL -> is_deleted p2 = false ->
    cross_spec s cr i f n
      (Ok (Again (LState (l_ci s) mf (l_cnt s + 1) (next_t s f) (dt_after fl k f (l_dt s)) p2 c2)))
| cs_pass cr i f n mf p2 c2 cn : fids cr !! i = Some mf -> mf <> l_ml s ->
    on_marker bcs recd m fi mf f n (next_t s f) (crossed s f) (put_move k (l_c s) (moved s)) = Ok (p2, c2) ->
    nbrs cr !! i = Some cn -> cn <> NO_CELL ->
    cross_spec s cr i f n
      (Ok (Again (LState cn mf (l_cnt s + 1) (next_t s f) (dt_after fl k f (l_dt s)) (set_pcell p2 cn) c2))).

Lemma py_get_nat' {A} (l : list A) (i : nat) :
  py_get l (Z.of_nat i) = match l !! i with Some x => Ok x | None => Raise IndexError end.
Proof.
  unfold py_get, py_pos. destruct ((0 <=? Z.of_nat i) && (Z.of_nat i <? Z.of_nat (length l)))%Z eqn:E.
  - rewrite Nat2Z.id. done.
  - replace ((- Z.of_nat (length l) <=? Z.of_nat i) && (Z.of_nat i <? 0))%Z with false by lia.
    rewrite lookup_ge_None_2 by lia. done.
Qed.

Lemma iter_ok s : iter_spec s (iter s).
Proof.
  unfold iter. destruct (cells m (l_ci s)) as [cr|] eqn:Ec; [|by constructor].
  destruct (inside _ _ _) eqn:Ei; [by eapply is_inside|].
  destruct (maxc <? l_cnt s + 1)%Z eqn:Em; [eapply is_max; eauto; lia|].
  cbv zeta. fold (moved s). fold (@crossed s).
  destruct (find_facet _ _ _ _ _) as [[[cf f] n]|] eqn:Ef; [|eapply is_ff; eauto; lia].
  destruct (cf =? NO_FACET)%Z eqn:E0.
  { assert (cf = NO_FACET) by lia. subst cf. eapply is_nofacet; eauto. lia. }
  destruct (find_facet_range _ _ _ _ _ _ _ _ Ef) as [->|Hr]; [done|].
  destruct (Z_of_nat_complete cf) as [i ->]; [lia|].
  eapply is_cross; eauto; [lia|].
  rewrite !py_get_nat'. destruct (fids cr !! i) as [mf|] eqn:Efi; [|by constructor].
  destruct (mf =? l_ml s)%Z eqn:Es; [eapply cs_same; eauto; lia|].
  assert (mf <> l_ml s) by lia.
  fold (crossed s f). fold (next_t s f).
  destruct (on_marker _ _ _ _ _ _ _ _ _ _) as [[p2 c2]|] eqn:Eo; [|by eapply cs_bc].
  destruct (nbrs cr !! i) as [cn|] eqn:En; [|by eapply cs_nbr].
  destruct (cn =? NO_CELL)%Z eqn:Ecn.
  - assert (cn = NO_CELL) by lia. subst cn.
    destruct (is_deleted p2) eqn:Ed; [by eapply cs_absorb|by eapply cs_bounce].
  - eapply cs_pass; eauto. lia.
Qed.

End Loop.
Arguments LState {K} _ _ _ _ _ _ _.
Arguments Leave {K} _ _ _.
Arguments Again {K} _.

Lemma py_get_nat {A} (l : list A) (i : nat) x : py_get l (Z.of_nat i) = Ok x <-> l !! i = Some x.
Proof.
  unfold py_get, py_pos. destruct ((0 <=? Z.of_nat i) && (Z.of_nat i <? Z.of_nat (length l)))%Z eqn:E.
  - rewrite Nat2Z.id. destruct (l !! i); split; congruence.
  - replace ((- Z.of_nat (length l) <=? Z.of_nat i) && (Z.of_nat i <? 0))%Z with false by lia.
    split; [done|]. intros H. apply lookup_lt_Some in H. lia.
Qed.
