(** C17 and C18: specular reflection, and the move vector that the callback sees. *)
From Verif Require Import Vec VecProofs TrackModel BcModel Geometry FindFacetProofs FindFacetProps.
From Verif Require Import TrackProofs TrackGeomProofs Conforming TrackEval.

(** C17.  The callback is called with the particle whose start point [px0] has been
    advanced to the crossing point, [xs + f*move], and with the move in the scratch array. *)
Theorem C17_specular_reflection {K} d nv xs p (c : tctx (K:=K)) mf f :
  length nv = d -> length xs = d -> length (px p) = d -> length (pu p) = d ->
  dot nv nv = 1 ->
  scr c = vsub exact (px p) xs -> px0 p = vadd exact xs (vscale exact f (scr c)) ->
  exists q, reflect_bc exact c p mf f (Some nv) = Ok (q, c) /\
    (* velocity: energy, normal and tangential components *)
    dot (pu q) (pu q) = dot (pu p) (pu p) /\
    dot nv (pu q) = - dot nv (pu p) /\
    (forall w, length w = d -> dot w nv = 0 -> dot w (pu q) = dot w (pu p)) /\
    (* end point: mirror image in the plane through the crossing point *)
    dot nv (vsub exact (px q) (px0 p)) = - dot nv (vsub exact (px p) (px0 p)) /\
    (forall w, length w = d -> dot w nv = 0 -> dot w (px q) = dot w (px p)) /\
    (* on the inner side *)
    (0 < dot nv (scr c) -> f < 1 -> dot nv (px q) < dot nv (px0 p)) /\
    (* the rest of the record is untouched *)
    px0 q = px0 p /\ pw q = pw p /\ pbits q = pbits p /\ pcell q = pcell p /\ puid q = puid p /\
    (* reflecting again gives back the original record *)
    reflect_from_surface exact nv (vsub exact (px q) (px0 q)) q = p.
Proof.
  intros Ln Lxs Lx Lu Hunit Hscr Hx0.
  assert (Ls : length (scr c) = d) by (rewrite Hscr, vsub_length; lia).
  assert (Lx0 : length (px0 p) = d) by (rewrite Hx0, vadd_length; rewrite ?vscale_length; lia).
  set (out := vscale exact (1 - f) (scr c)).
  set (q := reflect_from_surface exact nv out p).
  assert (Eout : dot nv out = (1 - f) * dot nv (scr c)) by (apply dot_scale).
  assert (Erem : dot nv (px p) - dot nv (px0 p) = (1 - f) * dot nv (scr c)).
  { rewrite Hx0, dot_add by (rewrite vscale_length; lia). rewrite dot_scale.
    rewrite Hscr, dot_sub by lia. lra. }
  destruct (reflect_lengths nv out p d Ln Lx Lu) as [Lqx Lqu]. fold q in Lqx, Lqu.
  pose proof (reflect_px_dot nv out p d Ln Lx Lu) as Pq. fold q in Pq.
  pose proof (reflect_pu_dot nv out p d Ln Lx Lu) as Uq. fold q in Uq.
  pose proof (reflect_px_co nv out p d Ln Lx Lu) as Pc. fold q in Pc.
  pose proof (reflect_pu_co nv out p d Ln Lx Lu) as Uc. fold q in Uc.
  exists q. split.
  { unfold reflect_bc. rewrite Ln, Ls, Lu, Nat.eqb_refl. done. }
  split. { rewrite (Uq (pu q) Lqu). rewrite (dot_comm (pu q) (pu p)), (dot_comm (pu q) nv).
    rewrite (Uq (pu p) Lu), (Uq nv Ln). rewrite Hunit, (dot_comm (pu p) nv). lra. }
  split. { rewrite (Uq nv Ln), Hunit. lra. }
  split. { intros w Lw Hw. rewrite (Uq w Lw), Hw. lra. }
  split. { rewrite !dot_sub by lia. rewrite (Pq nv Ln), Hunit, Eout. lra. }
  split. { intros w Lw Hw. rewrite (Pq w Lw), Hw. lra. }
  split. { intros Hpos Hf. rewrite (Pq nv Ln), Hunit, Eout. nra. }
  do 5 (split; [done|]).
  assert (Hrec : forall a b : particle, px a = px b -> px0 a = px0 b -> pu a = pu b -> pw a = pw b ->
    pbits a = pbits b -> pcell a = pcell b -> puid a = puid b -> pcross a = pcross b -> a = b).
  { intros [] []; cbn. intros; by subst. }
  set (out2 := vsub exact (px q) (px0 q)).
  destruct (reflect_lengths nv out2 q d Ln Lqx Lqu) as [Lrx Lru].
  assert (Eo2 : dot nv out2 = - (1 - f) * dot nv (scr c)).
  { subst out2. change (px0 q) with (px0 p). rewrite dot_sub by lia. rewrite (Pq nv Ln), Hunit, Eout. lra. }
  apply Hrec; try done.
  - apply vec_co_ext; [lia|]. intros i.
    rewrite (reflect_px_co nv out2 q d Ln Lqx Lqu), Pc, Eo2, Eout. lra.
  - apply vec_co_ext; [lia|]. intros i.
    rewrite (reflect_pu_co nv out2 q d Ln Lqx Lqu), Uc, (Uq nv Ln), Hunit. lra.
Qed.

(** A particle that left the 3-4-5 triangle through its slanted side (C13_example), from
    (1,1) with move (3,1).  Its end point (4,2) is mirrored to (52/25, -14/25) and its velocity
    (3,1) becomes (-3/25, -79/25). *)
Example C17_example :
  reflect_bc exact (TCtx [3; 1] tt)
    (Particle [4; 2] [28/13; 18/13] [3; 1] 1 0 0 7 0) 10%Z (5/13) (Some [3/5; 4/5]) =
  Ok (Particle [52/25; -14/25] [28/13; 18/13] [-3/25; -79/25] 1 0 0 7 0, TCtx [3; 1] tt).
Proof. reval. rsolve. Qed.

(** The C++ versions write the formula out for one, two and three coordinates:
    cpp/Pstruct.h lines 112-121 and 517-527, 236-247, 377-391.  [sn] is the normal, [dx] the part of the
    move outside.  Result: (position, velocity). *)
Definition cpp_reflect_1 (sn0 dx0 x ux : R) : R * R :=
  let n_dot_dx := sn0 * dx0 in
  let n_dot_u := sn0 * ux in
  (x - 2 * n_dot_dx * sn0, ux - 2 * n_dot_u * sn0).
Definition cpp_reflect_2 (sn0 sn1 dx0 dx1 x y ux uy : R) : R * R * R * R :=
  let n_dot_dx := sn0 * dx0 + sn1 * dx1 in
  let n_dot_u := sn0 * ux + sn1 * uy in
  (x - 2 * n_dot_dx * sn0, y - 2 * n_dot_dx * sn1, ux - 2 * n_dot_u * sn0, uy - 2 * n_dot_u * sn1).
Definition cpp_reflect_3 (sn0 sn1 sn2 dx0 dx1 dx2 x y z ux uy uz : R) : R * R * R * R * R * R :=
  let n_dot_dx := sn0 * dx0 + sn1 * dx1 + sn2 * dx2 in
  let n_dot_u := sn0 * ux + sn1 * uy + sn2 * uz in
  (x - 2 * n_dot_dx * sn0, y - 2 * n_dot_dx * sn1, z - 2 * n_dot_dx * sn2,
   ux - 2 * n_dot_u * sn0, uy - 2 * n_dot_u * sn1, uz - 2 * n_dot_u * sn2).

(** They compute the same as the Python callback in exact arithmetic. *)
Theorem C17_cpp_same p :
  (forall n0 d0 x u, px p = [x] -> pu p = [u] ->
     let q := reflect_from_surface exact [n0] [d0] p in
     px q = [fst (cpp_reflect_1 n0 d0 x u)] /\ pu q = [snd (cpp_reflect_1 n0 d0 x u)]) /\
  (forall n0 n1 d0 d1 x y u v, px p = [x; y] -> pu p = [u; v] ->
     let q := reflect_from_surface exact [n0; n1] [d0; d1] p in
     let '(x', y', u', v') := cpp_reflect_2 n0 n1 d0 d1 x y u v in
     px q = [x'; y'] /\ pu q = [u'; v']) /\
  (forall n0 n1 n2 d0 d1 d2 x y z u v w, px p = [x; y; z] -> pu p = [u; v; w] ->
     let q := reflect_from_surface exact [n0; n1; n2] [d0; d1; d2] p in
     let '(x', y', z', u', v', w') := cpp_reflect_3 n0 n1 n2 d0 d1 d2 x y z u v w in
     px q = [x'; y'; z'] /\ pu q = [u'; v'; w']).
Proof.
  split; [|split]; intros; unfold cpp_reflect_1, cpp_reflect_2, cpp_reflect_3; subst q;
    unfold reflect_from_surface; cbn [px pu set_px set_pu]; rewrite H, H0; unfold vsub, vdot, exact; cbn;
    split; repeat (f_equal; try lra).
Qed.

(** C18.  A boundary function that notes what it is given - the scratch array, the particle and the
    fraction - and then does anything [g] to the particle. *)
Definition seen : Type := vec * particle * R.
Definition spy (g : particle -> Z -> R -> option vec -> particle) : bcfun (K := list seen) :=
  fun c p mf f n => Ok (g p mf f n, TCtx (scr c) (usr c ++ [(scr c, p, f)])).
Definition spies (g : Z -> option (particle -> Z -> R -> option vec -> particle)) (v : Z) :=
  match g v with Some h => Some (spy h) | None => None end.
Definition no_rec (c : tctx (K := list seen)) (fi : Z) (p : particle) (t : R) := Ok c.

Theorem C18_move_seen_by_callback g k m maxc fi time dt p c q c' d :
  track exact (spies g) no_rec k m maxc fi time dt p c = Ok (q, c') ->
  length (px p) = d -> length (px0 p) = d ->
  (forall v h p mf f n, g v = Some h -> length (px p) = d -> length (px0 p) = d ->
     length (px (h p mf f n)) = d /\ length (px0 (h p mf f n)) = d) ->
  exists l, usr c' = usr c ++ l /\
  match k with
  | Neutral => (* always the array as it was before the whole move *)
      Forall (fun e => fst (fst e) = scr c) l
  | Charged => (* the part (1-f) of it is what is left of the move *)
      Forall (fun e => let '(s, p', f) := e in
        vscale exact (1 - f) s = vsub exact (px p') (px0 p')) l
  end.
Proof.
  intros Ht Hx Hx0 Hg.
  set (P := fun e : seen => match k with Neutral => fst (fst e) = scr c
     | Charged => let '(s, p', f) := e in vscale exact (1 - f) s = vsub exact (px p') (px0 p') end).
  set (Good := fun (p : particle) (c1 : tctx (K := list seen)) =>
    length (px p) = d /\ length (px0 p) = d /\
    (k = Neutral -> scr c1 = scr c) /\ exists l, usr c1 = usr c ++ l /\ Forall P l).
  pose proof (track_rule exact (spies g) no_rec k m maxc fi (fun s => Good (l_p s) (l_c s))
    (fun q _ c1 => Good q c1) (fun _ => True) time dt p c) as HR.
  rewrite Ht in HR. destruct HR as (q0 & n & -> & HQ).
  - intros s (L1 & L2 & Hs & l & U1 & U2).
    destruct (iter_ok exact (spies g) no_rec k m maxc fi s)
      as [|cr Hcr Hin| | | |cr i f nn r Hcr Hin Hmax Hff Hcs]; try done.
    { repeat (split; [done|]). eauto. }
    assert (Ldx : length (moved exact s) = d) by (unfold moved; rewrite vsub_length; lia).
    assert (Ly : length (px0 (crossed exact s f)) = d).
    { unfold crossed. cbn [px0 set_px0]. rewrite vadd_length; rewrite ?vscale_length; lia. }
    assert (Lpx : length (px (crossed exact s f)) = d) by done.
    assert (Hmark : forall mf p2 c2,
      on_marker (spies g) no_rec m fi mf f nn (next_t exact s f) (crossed exact s f)
        (put_move k (l_c s) (moved exact s)) = Ok (p2, c2) -> Good p2 c2).
    { intros mf p2 c2. unfold on_marker.
      assert (Uput : usr (put_move k (l_c s) (moved exact s)) = usr c ++ l) by (destruct k; exact U1).
      assert (Sput : k = Neutral -> scr (put_move k (l_c s) (moved exact s)) = scr c) by (intros ->; by apply Hs).
      destruct (marker m mf =? 0)%Z.
      - intros [= <- <-]. split; [done|]. split; [done|]. split; [done|]. eauto.
      - set (r1 := if is_traj _ then _ else _). assert (Er1 : r1 = Ok (put_move k (l_c s) (moved exact s))).
        { subst r1. unfold no_rec. by destruct (is_traj _). }
        rewrite Er1. clear r1 Er1. unfold spies. destruct (g _) as [h|] eqn:Eg; [|done].
        unfold spy. intros [= <- <-]. destruct (Hg _ h (crossed exact s f) mf f nn Eg L1 Ly) as [A B].
        split; [done|]. split; [done|]. split; [done|].
        eexists. cbn [usr]. rewrite Uput, <- app_assoc. split; [reflexivity|].
        apply Forall_app. split; [done|]. constructor; [|constructor]. subst P. cbn beta.
        destruct k; [|by apply Sput]. cbn [put_move scr].
        apply vec_co_ext; [rewrite vscale_length, vsub_length; lia|]. intros j.
        rewrite co_vscale, co_vsub by lia. unfold crossed. cbn [px px0 set_px0].
        rewrite co_vadd by (rewrite vscale_length; lia). rewrite co_vscale. unfold moved.
        rewrite co_vsub by lia. lra. }
    destruct Hcs as [| | | |cr i f nn mf p2 c2 Hfi Hne Ho Hnb Hd|cr i f nn mf p2 c2 Hfi Hne Ho Hnb Hd
        |cr i f nn mf p2 c2 cn Hfi Hne Ho Hnb Hcn]; try done; apply Hmark in Ho; exact Ho.
  - split; [done|]. split; [done|]. split; [done|]. exists []. by rewrite app_nil_r.
  - destruct HQ as (_ & _ & _ & l & U1 & U2). exists l. split; [done|]. by destruct k.
Qed.

(** Consequence for a reflection from a stale vector [s]: it is the mirror image exactly when [s]
    has the normal component of the true move. *)
Theorem C18_stale_reflection_wrong d nv xs p s f :
  length nv = d -> length xs = d -> length (px p) = d -> length (pu p) = d -> length s = d ->
  dot nv nv = 1 -> f < 1 ->
  let dx := vsub exact (px p) xs in
  px0 p = vadd exact xs (vscale exact f dx) ->
  let q := reflect_from_surface exact nv (vscale exact (1 - f) s) p in
  dot nv (vsub exact (px q) (px0 p)) = - dot nv (vsub exact (px p) (px0 p)) <-> dot nv s = dot nv dx.
Proof.
  intros Ln Lxs Lx Lu Ls Hunit Hf dx Hx0 q.
  assert (Ldx : length dx = d) by (subst dx; rewrite vsub_length; lia).
  assert (Lx0 : length (px0 p) = d) by (rewrite Hx0, vadd_length; rewrite ?vscale_length; lia).
  destruct (reflect_lengths nv (vscale exact (1 - f) s) p d Ln Lx Lu) as [Lqx Lqu]. fold q in Lqx, Lqu.
  rewrite !dot_sub by lia. subst q. rewrite (reflect_px_dot nv _ p d Ln Lx Lu nv Ln), Hunit, dot_scale.
  assert (Erem : dot nv (px p) - dot nv (px0 p) = (1 - f) * dot nv dx).
  { rewrite Hx0, dot_add by (rewrite vscale_length; lia). rewrite dot_scale. subst dx.
    rewrite dot_sub by lia. lra. }
  split; intros H; [|rewrite H; lra].
  assert (E : (1 - f) * (dot nv s - dot nv dx) = 0) by lra.
  apply Rmult_integral in E as [E|E]; lra.
Qed.

(** Witness: the line mesh reflects at 0.  A particle at 1/2 with velocity -2 and dt = 1 hits 0 after
    1/4 of the step.  The charged mover reflects it to 3/2; the neutral mover, with zeros in the scratch
    array, stops with the NameError of the "same facet twice" message. *)
Definition to_left : particle := Particle [-3/2] [1/2] [-2] 1 0 0 5 0.

Theorem C18_neutral_reflection_refuted :
  Conforming line_mesh /\ to_left = free_move exact 1 (Particle [1/2] [0] [-2] 1 0 0 5 0) /\
  track exact (line_bcs (K:=unit)) (fun c _ _ _ => Ok c) Charged line_mesh 10 0 1 1 to_left (TCtx [0] tt)
    = Ok (Particle [3/2] [1] [2] 1 0 1 5 2, TCtx [3/2] tt) /\
  track exact (line_bcs (K:=unit)) (fun c _ _ _ => Ok c) Neutral line_mesh 10 0 1 1 to_left (TCtx [0] tt)
    = Raise (NameErrorAt SameFacetMsg).
Proof.
  split; [exact line_conforming|]. split; [|split].
  - unfold to_left, free_move. reval. rsolve.
  - rewrite track_eq. change (track_fuel 10) with 12%nat. unfold to_left.
    erewrite (loop_again _ _ _ _ _ _ _ _ _
      (LState 0 0 1 (1/4) (3/4) (Particle [3/2] [0] [2] 1 0 0 5 0) (TCtx [-2] tt))) by ieval.
    erewrite (loop_again _ _ _ _ _ _ _ _ _
      (LState 1 1 2 (3/4) (1/4) (Particle [3/2] [1] [2] 1 0 1 5 0) (TCtx [3/2] tt))) by ieval.
    erewrite loop_leave by ieval. done.
  - rewrite track_eq. change (track_fuel 10) with 12%nat. unfold to_left.
    erewrite (loop_again _ _ _ _ _ _ _ _ _
      (LState 0 0 1 (1/4) (3/4) (Particle [-3/2] [0] [2] 1 0 0 5 0) (TCtx [0] tt))) by ieval.
    erewrite loop_raise by ieval. done.
Qed.

Print Assumptions C17_specular_reflection.
Print Assumptions C17_cpp_same.
Print Assumptions C18_move_seen_by_callback.
Print Assumptions C18_stale_reflection_wrong.
Print Assumptions C18_neutral_reflection_refuted.
