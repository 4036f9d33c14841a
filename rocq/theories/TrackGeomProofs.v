(** Facts about the shipped boundary functions in exact arithmetic. *)
From Verif Require Import Vec VecProofs TrackModel BcModel TrackProofs.

Section Bc.
Context {K : Type}.
Notation tctx := (tctx (K:=K)).

Lemma absorb_eq c p mf f n :
  absorb_bc (K:=K) c p mf f n = Ok (set_pbits p (Z.lor (pbits p) DELETE_FLAG), c).
Proof. done. Qed.

Lemma absorb_deletes p : is_deleted (set_pbits p (Z.lor (pbits p) DELETE_FLAG)) = true.
Proof.
  unfold is_deleted, set_pbits, DELETE_FLAG. cbn [pbits].
  destruct (Z.land _ 1 =? 0)%Z eqn:E; [|done]. exfalso.
  assert (H : Z.testbit (Z.land (Z.lor (pbits p) 1) 1) 0 = false).
  { assert (Z.land (Z.lor (pbits p) 1) 1 = 0%Z) by lia. by rewrite H. }
  rewrite Z.land_spec, Z.lor_spec in H. cbn in H. rewrite orb_true_r in H. done.
Qed.
Lemma absorb_traj p : is_traj (set_pbits p (Z.lor (pbits p) DELETE_FLAG)) = is_traj p.
Proof.
  unfold is_traj, set_pbits, DELETE_FLAG, TRAJECTORY_FLAG. cbn [pbits].
  rewrite Z.land_lor_distr_l. change (Z.land 1 2) with 0%Z. by rewrite Z.lor_0_r.
Qed.

(** What [reflect_from_surface] does to the coordinates. *)
Section Reflect.
Context (n out : vec) (p : particle) (d : nat).
Context (Hn : length n = d) (Hx : length (px p) = d) (Hu : length (pu p) = d).
Let q := reflect_from_surface exact n out p.

Lemma reflect_lengths : length (px q) = d /\ length (pu q) = d.
Proof.
  subst q. unfold reflect_from_surface. cbn [px pu set_px set_pu]. split; rewrite vsub_length; rewrite ?map_length; lia.
Qed.
Lemma reflect_same : px0 q = px0 p /\ pbits q = pbits p /\ pcell q = pcell p /\ pw q = pw p /\ puid q = puid p.
Proof. done. Qed.
Lemma reflect_px_co i : co (px q) i = co (px p) i - 2 * dot n out * co n i.
Proof.
  subst q. unfold reflect_from_surface. cbn [px pu set_px set_pu]. rewrite co_vsub by (rewrite map_length; lia).
  rewrite (co_map_mul (2 * vdot exact n out)), vdot_exact. done.
Qed.
Lemma reflect_pu_co i : co (pu q) i = co (pu p) i - 2 * dot n (pu p) * co n i.
Proof.
  subst q. unfold reflect_from_surface. cbn [px pu set_px set_pu]. rewrite co_vsub by (rewrite map_length; lia).
  rewrite (co_map_mul (2 * vdot exact n (pu p))), vdot_exact. done.
Qed.
Lemma reflect_px_dot w : length w = d -> dot w (px q) = dot w (px p) - 2 * dot n out * dot w n.
Proof.
  intros. subst q. unfold reflect_from_surface. cbn [px pu set_px set_pu]. rewrite dot_sub by (rewrite map_length; lia).
  pose proof (dot_scale w (2 * vdot exact n out) n) as Hs. unfold vscale in Hs.
  unfold exact at 2. rewrite Hs, vdot_exact. done.
Qed.
Lemma reflect_pu_dot w : length w = d -> dot w (pu q) = dot w (pu p) - 2 * dot n (pu p) * dot w n.
Proof.
  intros. subst q. unfold reflect_from_surface. cbn [px pu set_px set_pu]. rewrite dot_sub by (rewrite map_length; lia).
  pose proof (dot_scale w (2 * vdot exact n (pu p)) n) as Hs. unfold vscale in Hs.
  unfold exact at 2. rewrite Hs, vdot_exact. done.
Qed.
End Reflect.

Lemma reflect_bc_eq c p mf f n q c' : reflect_bc exact (K:=K) c p mf f n = Ok (q, c') ->
  exists nv, n = Some nv /\ length nv = length (scr c) /\ length nv = length (pu p) /\
    q = reflect_from_surface exact nv (vscale exact (1 - f) (scr c)) p /\ c' = c.
Proof.
  unfold reflect_bc. destruct n as [nv|]; [|done].
  destruct (negb _ || negb _) eqn:E; [done|]. intros [= <- <-].
  exists nv. split; [done|].
  destruct (Nat.eqb_spec (length nv) (length (scr c))); [|done].
  destruct (Nat.eqb_spec (length nv) (length (pu p))); [|done]. done.
Qed.

End Bc.
