(** C14 and C15: tracking on a conforming mesh in exact arithmetic. *)
From Verif Require Import Vec VecProofs TrackModel BcModel Geometry FindFacetProofs FindFacetProps.
From Verif Require Import TrackProofs TrackGeomProofs Conforming TrackEval.

Lemma take_all {A} (l : list A) d : length l = d -> take d l = l.
Proof. intros <-. apply firstn_all. Qed.

(** The data of a crossing on a conforming mesh. *)
Lemma crossing_facts m c cr (p : particle) i f n :
  Conforming m -> cells m c = Some cr ->
  length (px p) = gdim m -> length (px0 p) = gdim m ->
  InCell (gdim m) cr (px0 p) ->
  find_facet exact (gdim m) cr (px0 p) (vsub exact (px p) (px0 p)) = Ok (Z.of_nat i, f, n) ->
  let dx := vsub exact (px p) (px0 p) in
  let y := vadd exact (px0 p) (vscale exact f dx) in
  exists nk, normals cr !! i = Some nk /\ n = Some nk /\ dot nk nk = 1 /\ length nk = gdim m /\
    0 <= f < 1 /\ 0 < dot nk dx /\ InCell (gdim m) cr y /\ length y = gdim m /\
    (forall j v, verts cr !! j = Some v -> on_facet (gdim m) i j -> dot nk y = dot nk v).
Proof.
  intros HC Hc Hx Hx0 HI Hff dx y.
  pose proof (cf_simplex m HC c cr Hc) as HS.
  assert (Ldx : length dx = gdim m) by (subst dx; rewrite vsub_length; lia).
  destruct (find_facet_exact (gdim m) cr (px0 p) dx HS ltac:(lia) ltac:(lia)) as (k & f' & n' & Hff' & Hf & Hcase).
  fold dx in Hff. rewrite Hff in Hff'. injection Hff' as <- <- <-.
  rewrite (take_all (px0 p)), (take_all dx) in Hcase by done.
  destruct Hcase as [(Hk & _)|(i' & nk & v & Hk & Hid & Hnk & Hn & (j & Hv & Hon) & Hpos & Hlt & Hrest)].
  { unfold NO_FACET in Hk. lia. }
  assert (i' = i) by lia. subst i'.
  destruct (Hrest HI) as [Heq Hin].
  exists nk. split; [done|]. split; [done|].
  split; [exact (Forall_lookup_1 _ _ _ _ (cf_unit m HC c cr Hc) Hnk)|].
  split; [exact (Forall_lookup_1 _ _ _ _ (sx_ln _ _ HS) Hnk)|].
  split; [lra|]. split; [done|].
  split; [apply Hin; lra|]. split; [subst y; rewrite vadd_length; rewrite ?vscale_length; lia|].
  intros j' v' Hv' Hon'. change y with (along (px0 p) dx f).
  rewrite dot_along by lia. rewrite (sx_flat _ _ HS i nk j' v' j v) by done. lra.
Qed.

Theorem C14_no_impossible_errors {K} (bcs : Z -> option (bcfun (K:=K))) recd k m maxc fi time dt p c cr :
  Conforming m -> Bounded_by k m bcs ->
  (forall c i p t, exists u, recd c i p t = Ok (TCtx (scr c) u)) ->
  length (px p) = gdim m -> length (px0 p) = gdim m -> length (pu p) = gdim m ->
  cells m (pcell p) = Some cr -> InCell (gdim m) cr (px0 p) ->
  match track exact bcs recd k m maxc fi time dt p c with
  | Ok (q, _) => True
  | Raise e => e = track_fail k CrossCountMsg
  end.
Proof.
  intros HC HB Hrec Hx Hx0 Hu Hcr HI.
  set (Inv := fun s : lstate (K:=K) => exists cr, cells m (l_ci s) = Some cr /\
    length (px (l_p s)) = gdim m /\ length (px0 (l_p s)) = gdim m /\ length (pu (l_p s)) = gdim m /\
    InCell (gdim m) cr (px0 (l_p s)) /\
    (forall i n, fids cr !! i = Some (l_ml s) -> normals cr !! i = Some n ->
       dot n (px (l_p s)) <= dot n (px0 (l_p s)))).
  pose proof (track_rule exact bcs recd k m maxc fi Inv (fun _ _ _ => True)
    (fun e => e = track_fail k CrossCountMsg) time dt p c) as HR.
  assert (Hgoal : match track exact bcs recd k m maxc fi time dt p c with
    | Ok (q, c') => exists q0 n, q = set_pcross q0 n /\ True
    | Raise e => e = track_fail k CrossCountMsg end).
  2:{ destruct (track _ _ _ _ _ _ _ _ _ _ _) as [[q c']|e]; [done|exact Hgoal]. }
  apply HR.
  2:{ exists cr. cbn. repeat (split; [done|]). intros i n Hf. exfalso.
      destruct (cf_fids m HC _ cr Hcr) as (_ & _ & Hno). apply Hno.
      by eapply elem_of_list_lookup_2. }
  clear dependent p. clear dependent cr. intros s (cr & Hcr & Hx & Hx0 & Hu & HI & Hml).
  pose proof (cf_simplex m HC _ cr Hcr) as HS.
  destruct (iter_ok exact bcs recd k m maxc fi s)
      as [Hno|cr' Hcr' Hin|cr' Hcr' Hin Hmx|cr' e' Hcr' Hin Hmx Hff|cr' f n Hcr' Hin Hmx Hff|cr' i f nn r Hcr' Hin Hmax Hff Hcs];
    try (rewrite Hcr in Hcr'; injection Hcr' as <-); try done.
  - congruence.
  - exfalso. unfold moved in Hff.
    destruct (find_facet_exact (gdim m) cr (px0 (l_p s)) (vsub exact (px (l_p s)) (px0 (l_p s))) HS)
      as (k1 & f1 & n1 & Hff1 & _); [lia|rewrite vsub_length; lia|]. congruence.
  - exfalso. unfold moved in Hff.
    destruct (find_facet_exact (gdim m) cr (px0 (l_p s)) (vsub exact (px (l_p s)) (px0 (l_p s))) HS)
      as (k1 & f1 & n1 & Hff1 & _ & Hcase); [lia|rewrite vsub_length; lia|].
    rewrite Hff in Hff1. injection Hff1 as <- <- <-.
    destruct Hcase as [(_ & _ & Hend)|(i & nk & v & Hk & _)]; [|unfold NO_FACET in Hk; lia].
    rewrite !take_all in Hend by (rewrite ?vsub_length; lia). specialize (Hend HI).
    assert (Heq : along (px0 (l_p s)) (vsub exact (px (l_p s)) (px0 (l_p s))) 1 = px (l_p s)).
    { apply vec_co_ext.
      - unfold along. rewrite vadd_length; rewrite ?vscale_length, ?vsub_length; lia.
      - intros i. unfold along. rewrite co_vadd, co_vscale, co_vsub by (rewrite ?vscale_length, ?vsub_length; lia). lra. }
    rewrite Heq in Hend. rewrite take_all in Hin by lia.
    apply (cf_inside m HC _ cr (px (l_p s)) Hcr Hx) in Hend. congruence.
  - destruct (crossing_facts m (l_ci s) cr (l_p s) i f nn HC Hcr Hx Hx0 HI Hff)
      as (nk & Hnk & -> & Hunit & Lnk & Hf & Hpos & HIy & Ly & Hony).
    fold (moved exact s) in Hpos, HIy, Ly, Hony.
    destruct (cf_fids m HC _ cr Hcr) as (Lf & Hnd & Hnof).
    pose proof (cf_nbrs m HC _ cr Hcr) as Lnb.
    pose proof (lookup_lt_Some _ _ _ Hnk) as Hlt. rewrite (sx_nn _ _ HS) in Hlt.
    set (y := vadd exact (px0 (l_p s)) (vscale exact f (moved exact s))) in *.
    assert (Ldx : length (moved exact s) = gdim m) by (unfold moved; rewrite vsub_length; lia).
    assert (Edx : forall w, dot w (moved exact s) = dot w (px (l_p s)) - dot w (px0 (l_p s))).
    { intros w. unfold moved. rewrite dot_sub; [done|lia]. }
    assert (Ey : forall w, dot w y = dot w (px0 (l_p s)) + f * dot w (moved exact s)).
    { intros w. change y with (along (px0 (l_p s)) (moved exact s) f). apply dot_along. lia. }
    (* the particle after the boundary function *)
    assert (Hmark : forall mf cn p2 c2, fids cr !! i = Some mf -> nbrs cr !! i = Some cn ->
      on_marker bcs recd m fi mf f (Some nk) (next_t exact s f) (crossed exact s f)
        (put_move k (l_c s) (moved exact s)) = Ok (p2, c2) ->
      length (px p2) = gdim m /\ px0 p2 = y /\ length (pu p2) = gdim m /\
      (cn = NO_CELL -> is_deleted p2 = false -> dot nk (px p2) <= dot nk y) /\
      (cn <> NO_CELL -> px p2 = px (l_p s))).
    { intros mf cn p2 c2 Hfi Hnb. unfold on_marker.
      destruct (HB _ cr i mf cn Hcr Hfi Hnb) as [HB1 HB2].
      destruct (marker m mf =? 0)%Z eqn:Ez.
      { intros [= <- <-]. cbn. repeat (split; [done|]). split; [|done].
        intros Hcn. destruct (HB1 Hcn) as [Hm0 _]. lia. }
      assert (Hc1 : exists c1, (if is_traj (crossed exact s f)
         then recd (put_move k (l_c s) (moved exact s)) fi (crossed exact s f) (next_t exact s f)
         else Ok (put_move k (l_c s) (moved exact s))) = Ok c1 /\ scr c1 = scr (put_move k (l_c s) (moved exact s))).
      { destruct (is_traj _); [|eauto]. destruct (Hrec (put_move k (l_c s) (moved exact s)) fi (crossed exact s f) (next_t exact s f)) as [u ->]. eauto. }
      destruct Hc1 as (c1 & -> & Hscr).
      assert (Habs : bcs (marker m mf) = Some absorb_bc ->
        match bcs (marker m mf) with Some b => b c1 (crossed exact s f) mf f (Some nk) | None => Raise KeyError end = Ok (p2, c2) ->
        length (px p2) = gdim m /\ px0 p2 = y /\ length (pu p2) = gdim m /\
        (cn = NO_CELL -> is_deleted p2 = false -> dot nk (px p2) <= dot nk y) /\
        (cn <> NO_CELL -> px p2 = px (l_p s))).
      { intros ->. rewrite absorb_eq. intros [= <- <-]. split; [done|]. split; [done|]. split; [done|].
        split; [|done]. intros _ Hd.
        pose proof (absorb_deletes (crossed exact s f)) as Ht. exfalso.
        assert (Htf : true = false) by (etransitivity; [symmetry; exact Ht|exact Hd]). done. }
      destruct (decide (cn = NO_CELL)) as [Hcn|Hcn].
      - destruct (HB1 Hcn) as [_ [Hb|[-> Hb]]]; [by apply Habs|]. rewrite Hb. intros Hr.
        apply reflect_bc_eq in Hr as (nv & [= <-] & L1 & L2 & -> & ->).
        assert (Lp : length (px (crossed exact s f)) = gdim m) by done.
        assert (Lu : length (pu (crossed exact s f)) = gdim m) by done.
        destruct (reflect_lengths nk (vscale exact (1 - f) (scr c1)) (crossed exact s f) (gdim m) Lnk Lp Lu) as [A B].
        split; [done|]. split; [done|]. split; [done|]. split; [|done]. intros _ _.
        rewrite (reflect_px_dot nk _ _ (gdim m) Lnk Lp) by done.
        rewrite dot_scale, Hscr, Hunit, Ey. cbn [put_move scr]. rewrite Edx.
        cbn [crossed px set_px0]. pose proof (Edx nk). rewrite Edx in Hpos. nra.
      - destruct (HB2 Hcn) as [Hb|[Hb|Hb]]; [lia|by apply Habs|].
        rewrite Hb. intros [= <- <-]. repeat (split; [done|]). done. }
    assert (Hsame : forall mf, fids cr !! i = Some mf -> mf <> l_ml s).
    { intros mf Hfi ->. specialize (Hml i nk Hfi Hnk). rewrite Edx in Hpos. lra. }
    inversion Hcs; subst; clear Hcs; try done;
      try match goal with H : (?l !! i) = None |- _ => apply lookup_ge_None_1 in H; lia end.
    + exfalso. by eapply Hsame.
    + (* the boundary function raises: impossible *)
      match goal with H : fids cr !! i = Some ?x |- _ => rename H into Hfi; set (mf' := x) in * end.
      match goal with H : on_marker _ _ _ _ _ _ _ _ _ _ = Raise _ |- _ => rename H into Ho end.
      destruct (lookup_lt_is_Some_2 (nbrs cr) i) as [cn Hnb]; [lia|].
      exfalso. unfold on_marker in Ho. destruct (HB _ cr i mf' cn Hcr Hfi Hnb) as [HB1 HB2].
      destruct (marker m mf' =? 0)%Z eqn:Ez; [done|].
      assert (Hc1 : exists c1, (if is_traj (crossed exact s f)
         then recd (put_move k (l_c s) (moved exact s)) fi (crossed exact s f) (next_t exact s f)
         else Ok (put_move k (l_c s) (moved exact s))) = Ok c1 /\ scr c1 = scr (put_move k (l_c s) (moved exact s))).
      { destruct (is_traj _); [|eauto]. destruct (Hrec (put_move k (l_c s) (moved exact s)) fi (crossed exact s f) (next_t exact s f)) as [u ->]. eauto. }
      destruct Hc1 as (c1 & Hc1 & Hscr). rewrite Hc1 in Ho.
      destruct (decide (cn = NO_CELL)) as [Hcn|Hcn].
      * destruct (HB1 Hcn) as [_ [Hb|[-> Hb]]]; rewrite Hb in Ho; [done|].
        unfold reflect_bc in Ho. rewrite Hscr in Ho. cbn [put_move scr crossed pu set_px0] in Ho.
        rewrite Lnk, Ldx, Hu, Nat.eqb_refl in Ho. done.
      * destruct (HB2 Hcn) as [Hb|[Hb|Hb]]; [lia| |]; rewrite Hb in Ho; done.
    + (* reflected: same cell *)
      match goal with H : fids cr !! i = Some _ |- _ => rename H into Hfi end.
      match goal with H : on_marker _ _ _ _ _ _ _ _ _ _ = Ok _ |- _ => rename H into Ho end.
      match goal with H : nbrs cr !! i = Some _ |- _ => rename H into Hnb end.
      destruct (Hmark _ _ _ _ Hfi Hnb Ho) as (M1 & M2 & M3 & M4 & _).
      exists cr. cbn [l_ci l_ml l_p]. split; [done|]. split; [done|]. rewrite M2.
      split; [done|]. split; [done|]. split; [done|].
      intros i2 n2 Hf2 Hn2. assert (i2 = i) by (by eapply NoDup_lookup). subst i2.
      rewrite Hnk in Hn2. injection Hn2 as <-. by apply M4.
    + (* into the neighbour *)
      match goal with H : fids cr !! i = Some _ |- _ => rename H into Hfi end.
      match goal with H : on_marker _ _ _ _ _ _ _ _ _ _ = Ok _ |- _ => rename H into Ho end.
      match goal with H : nbrs cr !! i = Some _ |- _ => rename H into Hnb end.
      destruct (Hmark _ _ _ _ Hfi Hnb Ho) as (M1 & M2 & M3 & _ & M5).
      destruct (cf_shared m HC _ cr i cn nk mf Hcr Hnb) as (cr2 & i2 & Hcr2 & Hfi2 & Hn2 & Hpts); [done..|].
      exists cr2. cbn [l_ci l_ml l_p set_pcell px px0 pu]. split; [done|]. split; [done|]. rewrite M2.
      split; [done|]. split; [done|]. split; [by apply Hpts|].
      intros i3 n3 Hf3 Hn3. destruct (cf_fids m HC _ cr2 Hcr2) as (_ & Hnd2 & _).
      assert (i3 = i2) by (by eapply NoDup_lookup). subst i3.
      rewrite Hn2 in Hn3. injection Hn3 as <-. rewrite M5 by done.
      rewrite !dot_scale_l, Ey. pose proof (Edx nk). nra.
Qed.

(** C15.  The log that the recording keeps: time, position (the start-of-path coordinates, as
    [record_trajectory_datum] does for a crossing, Particle_Module.py line 2516) and velocity
    of every recorded crossing. *)
Definition log_entry : Type := R * vec * vec.
Definition log_rec (c : tctx (K := list log_entry)) (fi : Z) (p : particle) (t : R) :=
  Ok (TCtx (scr c) (usr c ++ [(t, px0 p, pu p)])).

(** Free flight from (t0, x0): every entry is reached from the one before it by moving for
    the time difference with the velocity that the particle had on the way. *)
Fixpoint flights (t0 : R) (x0 : vec) (l : list log_entry) : Prop :=
  match l with
  | [] => True
  | (t, x, u) :: r => t0 <= t /\ x = vadd exact x0 (vscale exact (t - t0) u) /\ flights t x r
  end.
Definition flight_end (t0 : R) (x0 : vec) (l : list log_entry) : R * vec :=
  match list.last l with Some (t, x, _) => (t, x) | None => (t0, x0) end.

Lemma flights_app t0 x0 l t x u :
  flights t0 x0 (l ++ [(t, x, u)]) <->
  flights t0 x0 l /\ fst (flight_end t0 x0 l) <= t /\
  x = vadd exact (snd (flight_end t0 x0 l)) (vscale exact (t - fst (flight_end t0 x0 l)) u).
Proof.
  revert t0 x0. induction l as [|[[t1 x1] u1] l IH]; intros t0 x0; cbn -[vadd vscale].
  { tauto. }
  rewrite IH.
  assert (Ef : flight_end t0 x0 ((t1, x1, u1) :: l) = flight_end t1 x1 l).
  { unfold flight_end. rewrite last_cons. by destruct (@list.last log_entry l) as [[[? ?] ?]|]. }
  rewrite Ef. tauto.
Qed.

(** Boundary functions for which the statement is made: absorbing, doing nothing and (charged
    mover only, see C18) reflecting. *)
Definition Shipped {K} (k : mkind) (bcs : Z -> option (bcfun (K:=K))) : Prop :=
  forall v b, bcs v = Some b -> b = absorb_bc \/ b = noop_bc \/ (k = Charged /\ b = reflect_bc exact).

Theorem C15_crossing_times_and_positions (bcs : Z -> option bcfun) k m maxc fi time dt p c q c' d :
  Shipped k bcs -> 0 <= dt ->
  length (px p) = d -> length (px0 p) = d -> length (pu p) = d ->
  is_traj p = true ->
  (* the particle has just been moved freely from px0 *)
  px p = vadd exact (px0 p) (vscale exact dt (pu p)) ->
  track exact bcs log_rec k m maxc fi time dt p c = Ok (q, c') ->
  exists l, usr c' = usr c ++ l /\
    Forall (fun e => time - dt <= fst (fst e) <= time) l /\
    flights (time - dt) (px0 p) l /\
    (forall t x u, head l = Some (t, x, u) -> u = pu p) /\
    let '(t1, x1) := flight_end (time - dt) (px0 p) l in
    px q = vadd exact x1 (vscale exact (time - t1) (pu q)).
Proof.
  intros HS Hdt Hx Hx0 Hu Htr Hfree Ht.
  set (Good := fun (p' : particle) (c1 : tctx) (ts : R) =>
    length (px p') = d /\ length (px0 p') = d /\ length (pu p') = d /\ is_traj p' = true /\
    0 <= time - ts /\ time - dt <= ts /\
    (forall i, co (px p') i = co (px0 p') i + (time - ts) * co (pu p') i) /\
    exists l, usr c1 = usr c ++ l /\
      Forall (fun e => time - dt <= fst (fst e) <= time) l /\
      flights (time - dt) (px0 p) l /\
      (forall t x u, head l = Some (t, x, u) -> u = pu p) /\
      (l = [] -> pu p' = pu p) /\
      fst (flight_end (time - dt) (px0 p) l) <= ts /\
      length (snd (flight_end (time - dt) (px0 p) l)) = d /\
      (forall i, co (px0 p') i = co (snd (flight_end (time - dt) (px0 p) l)) i +
         (ts - fst (flight_end (time - dt) (px0 p) l)) * co (pu p') i)).
  set (Inv := fun s : lstate => Good (l_p s) (l_c s) (l_t s) /\ l_dt s = time - l_t s).
  set (Q := fun (q : particle) (n : Z) (c1 : tctx) => exists ts, Good q c1 ts).
  pose proof (track_rule exact bcs log_rec k m maxc fi Inv Q (fun _ => True) time dt p c) as HR.
  rewrite Ht in HR. destruct HR as (q0 & n & -> & ts & HQ).
  - intros s [(G1 & G2 & G3 & G4 & G5 & G6 & G7 & l & U1 & U2 & U3 & U4 & U5 & U6 & U7 & U8) Hdts].
    destruct (iter_ok exact bcs log_rec k m maxc fi s)
      as [|cr Hcr Hin| | | |cr i f nn r Hcr Hin Hmax Hff Hcs]; try done.
    { exists (l_t s). repeat (split; [done|]). exists l. repeat (split; [done|]). done. }
    pose proof (find_facet_frac _ _ _ _ _ _ _ Hff) as Hf.
    assert (Edt : dt_after exact k f (l_dt s) = time - next_t exact s f).
    { unfold next_t, dt_after, exact. rewrite Hdts. destruct k; lra. }
    assert (Ldx : length (moved exact s) = d) by (unfold moved; rewrite vsub_length; lia).
    assert (Cdx : forall i, co (moved exact s) i = (time - l_t s) * co (pu (l_p s)) i).
    { intros j. unfold moved. rewrite co_vsub by lia. rewrite G7. lra. }
    assert (Cy : forall i, co (px0 (crossed exact s f)) i =
      co (px0 (l_p s)) i + f * ((time - l_t s) * co (pu (l_p s)) i)).
    { intros j. unfold crossed. cbn [px0 set_px0]. rewrite co_vadd by (rewrite vscale_length; lia).
      rewrite co_vscale, Cdx. done. }
    assert (Ly : length (px0 (crossed exact s f)) = d).
    { unfold crossed. cbn [px0 set_px0]. rewrite vadd_length; rewrite ?vscale_length; lia. }
    assert (Et : next_t exact s f = l_t s + f * (time - l_t s)).
    { unfold next_t, exact. rewrite Hdts. done. }
    assert (Hmark : forall mf p2 c2,
      on_marker bcs log_rec m fi mf f nn (next_t exact s f) (crossed exact s f)
        (put_move k (l_c s) (moved exact s)) = Ok (p2, c2) -> Good p2 c2 (next_t exact s f)).
    { intros mf p2 c2. unfold on_marker.
      assert (Uput : usr (put_move k (l_c s) (moved exact s)) = usr c ++ l) by (destruct k; exact U1).
      destruct (marker m mf =? 0)%Z.
      - intros [= <- <-]. split; [done|]. split; [done|]. split; [done|]. split; [done|].
        rewrite Et. split; [nra|]. split; [nra|]. split.
        { intros j. rewrite Cy. unfold crossed. cbn [px pu set_px0]. rewrite G7. lra. }
        exists l. repeat (split; [done|]). split; [nra|]. split; [done|].
        intros j. rewrite Cy, U8. unfold crossed. cbn [pu set_px0]. lra.
      - assert (is_traj (crossed exact s f) = true) as -> by exact G4.
        unfold log_rec at 1. rewrite Uput.
        set (e := (next_t exact s f, px0 (crossed exact s f), pu (crossed exact s f))).
        set (c1 := TCtx _ _).
        (* whatever the function does, the entry is in the log *)
        assert (HG : forall p2, length (px p2) = d -> px0 p2 = px0 (crossed exact s f) -> length (pu p2) = d ->
          is_traj p2 = true ->
          (forall i, co (px p2) i = co (px0 (crossed exact s f)) i + (time - next_t exact s f) * co (pu p2) i) ->
          Good p2 c1 (next_t exact s f)).
        { intros p3 A1 A2 A3 A4 A5. rewrite <- A2 in A5. split; [done|]. split; [by rewrite A2|].
          split; [done|]. split; [done|]. rewrite Et in *. split; [nra|]. split; [nra|].
          split; [exact A5|].
          exists (l ++ [e]). split; [cbn; by rewrite app_assoc|].
          split. { apply Forall_app. split; [done|]. constructor; [|constructor]. cbn. rewrite Et. nra. }
          assert (Efl : flight_end (time - dt) (px0 p) (l ++ [e]) = (next_t exact s f, px0 (crossed exact s f))).
          { unfold flight_end. rewrite last_snoc. done. }
          split. { apply flights_app. split; [done|]. split; [rewrite Et; nra|].
            apply vec_co_ext; [rewrite vadd_length; rewrite ?vscale_length; cbn [crossed pu set_px0]; lia|].
            intros j. rewrite co_vadd by (rewrite vscale_length; cbn [crossed pu set_px0]; lia).
            rewrite co_vscale, Cy, U8, Et. cbn [crossed pu set_px0]. lra. }
          split. { intros t x u. destruct l as [|e0 l0]; cbn; [|by apply U4].
            intros [= _ _ <-]. by apply U5. }
          split; [by destruct l|]. rewrite Efl. cbn [fst snd]. split; [rewrite Et; lra|]. split; [done|].
          intros j. rewrite A2, Et. lra. }
        destruct (bcs (marker m mf)) as [b|] eqn:Eb; [|done].
        destruct (HS _ b Eb) as [->|[->|[-> ->]]].
        + rewrite absorb_eq. intros [= <- <-]. apply HG; try done.
          { exact (eq_trans (absorb_traj (crossed exact s f)) G4). }
          intros j. rewrite Cy, Et. unfold crossed. cbn [px pu set_px0 set_pbits]. rewrite G7. lra.
        + intros [= <- <-]. apply HG; try done.
          intros j. rewrite Cy, Et. unfold crossed. cbn [px pu set_px0]. rewrite G7. lra.
        + intros Hr. apply reflect_bc_eq in Hr as (nv & -> & L1 & L2 & -> & ->).
          assert (Lp : length (px (crossed exact s f)) = d) by done.
          assert (Lu : length (pu (crossed exact s f)) = d) by done.
          assert (Ln : length nv = d) by lia.
          destruct (reflect_lengths nv (vscale exact (1 - f) (scr c1)) (crossed exact s f) d Ln Lp Lu) as [A B].
          apply HG; try done.
          intros j. rewrite (reflect_px_co nv _ _ d Ln Lp Lu), (reflect_pu_co nv _ _ d Ln Lp Lu).
          rewrite dot_scale. cbn [c1 scr put_move]. rewrite Cy, Et.
          unfold c1. cbn [scr put_move].
          assert (Edot : dot nv (moved exact s) = (time - l_t s) * dot nv (pu (l_p s))).
          { rewrite <- dot_scale. f_equal. apply vec_co_ext; [rewrite vscale_length; lia|].
            intros j'. rewrite co_vscale. apply Cdx. }
          rewrite Edot. unfold crossed. cbn [px pu set_px0]. rewrite G7. nra. }
    destruct Hcs as [| | | |cr i f nn mf p2 c2 Hfi Hne Ho Hnb Hd|cr i f nn mf p2 c2 Hfi Hne Ho Hnb Hd
        |cr i f nn mf p2 c2 cn Hfi Hne Ho Hnb Hcn]; try done.
    + apply Hmark in Ho. exists (next_t exact s f). exact Ho.
    + apply Hmark in Ho. split; [exact Ho|exact Edt].
    + apply Hmark in Ho. split; [exact Ho|exact Edt].
  - split; [|cbn; unfold exact; lra]. cbn [l_p l_c l_t]. unfold exact at 1.
    repeat (split; [done || lra|]).
    split. { intros j. rewrite Hfree at 1. rewrite co_vadd by (rewrite vscale_length; lia).
      rewrite co_vscale. unfold exact. lra. }
    exists []. rewrite app_nil_r. split; [done|]. split; [constructor|]. split; [done|].
    split; [done|]. split; [done|]. unfold flight_end, exact. cbn [list.last fst snd]. split; [lra|]. split; [done|].
    intros j. lra.
  - destruct HQ as (G1 & G2 & G3 & G4 & G5 & G6 & G7 & l & U1 & U2 & U3 & U4 & U5 & U6 & U7 & U8).
    exists l. repeat (split; [done|]).
    destruct (flight_end (time - dt) (px0 p) l) as [t1 x1]. cbn [fst snd] in *.
    cbn [px pu set_pcross]. apply vec_co_ext; [rewrite vadd_length; rewrite ?vscale_length; lia|].
    intros j. rewrite co_vadd by (rewrite vscale_length; lia). rewrite co_vscale, G7, U8. lra.
Qed.

(** Example for C14 and C15: on the line mesh a trajectory particle leaves 1/2 with velocity -2 at time 0,
    hits the reflecting end 0 at time 1/4, and is at 3/2 in cell 1 at time 1. *)
Example C15_example :
  Shipped Charged (line_bcs (K:=list log_entry)) /\ Conforming line_mesh /\
  Bounded_by (K:=list log_entry) Charged line_mesh line_bcs /\
  track exact line_bcs log_rec Charged line_mesh 10 0 1 1
      (Particle [-3/2] [1/2] [-2] 1 2 0 5 0) (TCtx [0] [])
    = Ok (Particle [3/2] [1] [2] 1 2 1 5 2, TCtx [3/2] [(1/4, [0], [-2])]).
Proof.
  split; [|split; [exact line_conforming|split; [exact line_bounded|]]].
  { intros v b. unfold line_bcs. destruct (v =? 1)%Z; [|destruct (v =? 2)%Z; [|done]];
      intros [= <-]; tauto. }
  rewrite track_eq. change (track_fuel 10) with 12%nat.
  erewrite (loop_again _ _ _ _ _ _ _ _ _ (LState 0 0 1 (1/4) (3/4)
    (Particle [3/2] [0] [2] 1 2 0 5 0) (TCtx [-2] [(1/4, [0], [-2])]))) by (unfold log_rec; ieval).
  erewrite (loop_again _ _ _ _ _ _ _ _ _
    (LState 1 1 2 (3/4) (1/4) (Particle [3/2] [1] [2] 1 2 1 5 0) (TCtx [3/2] [(1/4, [0], [-2])]))) by ieval.
  erewrite loop_leave by ieval. done.
Qed.

Print Assumptions C14_no_impossible_errors.
Print Assumptions C15_crossing_times_and_positions.
