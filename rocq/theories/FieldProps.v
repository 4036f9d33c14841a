(** C20: what a charged-particle pass does to velocities and positions. *)
From Verif Require Import Vec VecProofs Geometry TrackModel BcModel Conforming TrackProofs TrackGeomProofs TrackEval ReflectProps.
From Verif Require Import SapModel MoverModel StorageProps TrajModel TrajProofs TrajProps.

(** As [track_preserves], with boundary functions that are only called with normals of the mesh. *)
Definition mesh_normal (m : mesh) (n : option vec) : Prop :=
  match n with None => True | Some nv => exists ci cr, cells m ci = Some cr /\ nv ∈ normals cr end.
Lemma find_facet_normal fl d c r0 dr k f n : find_facet fl d c r0 dr = Ok (k, f, n) ->
  match n with None => True | Some nv => nv ∈ normals c end.
Proof.
  unfold find_facet. destruct (Reqb _ _); [by intros [= _ _ <-]|].
  destruct (facet_planes d c) as [l|]; [|done].
  destruct (match d with O => _ | S _ => _ end) as [k' f'].
  destruct (_ && _); [done|]. destruct (py_get (normals c) k') as [nv|] eqn:En; [|done]. intros [= _ _ <-].
  unfold py_get in En. destruct (py_pos _ _) as [j|]; [|done].
  destruct (normals c !! j) eqn:Ej; [|done]. injection En as <-. by eapply elem_of_list_lookup_2.
Qed.
Lemma track_preserves_n fl {K} (bcs : Z -> option (bcfun (K:=K))) recd k m maxc fi time dt
    (P : particle -> Prop) p c q c' :
  (forall p v, P p -> P (set_px0 p v)) -> (forall p n, P p -> P (set_pcell p n)) ->
  (forall p n, P p -> P (set_pcross p n)) ->
  (forall v b c p mf f n q c', bcs v = Some b -> mesh_normal m n -> P p -> b c p mf f n = Ok (q, c') -> P q) ->
  P p -> track fl bcs recd k m maxc fi time dt p c = Ok (q, c') -> P q.
Proof.
  intros P1 P2 P3 B Hp Ht.
  set (Inv := fun s : lstate (K:=K) => P (l_p s)).
  set (Q := fun (q : particle) (n : Z) (c' : tctx (K:=K)) => P q).
  pose proof (track_rule fl bcs recd k m maxc fi Inv Q (fun _ => True) time dt p c) as HR.
  rewrite Ht in HR. destruct HR as (q0 & n & -> & HQ1); [|done|by apply P3].
  assert (Hon : forall mf f n t p1 c1 p2 c2, mesh_normal m n -> P p1 ->
    on_marker bcs recd m fi mf f n t p1 c1 = Ok (p2, c2) -> P p2).
  { intros mf f n0 t p1 c1 p2 c2 Hn H1. unfold on_marker. destruct (marker m mf =? 0)%Z.
    { by intros [= <- <-]. }
    destruct (if is_traj p1 then _ else _) as [c3|] eqn:Er; [|done].
    destruct (bcs _) as [b|] eqn:Eb; [|done]. by eapply B. }
  intros s I1. destruct (iter_ok fl bcs recd k m maxc fi s)
      as [|cr Hcr Hin| | | |cr i f nn r Hcr Hin Hmax Hff Hcs]; try done.
  assert (Hn : mesh_normal m nn).
  { apply find_facet_normal in Hff. destruct nn as [nv|]; [|done]. by exists (l_ci s), cr. }
  destruct Hcs as [| | | |cr i f nn mf p2 c2 Hfi Hne Ho Hnb Hd|cr i f nn mf p2 c2 Hfi Hne Ho Hnb Hd
        |cr i f nn mf p2 c2 cn Hfi Hne Ho Hnb Hcn]; try done;
    (apply Hon in Ho as Ho1; [|done|by apply P1]); try done; by apply P2.
Qed.

(** Component [i] of a vector. *)
Notation comp v i := (List.nth i v 0).
(** The two parts of the applied field at a particle: minus the solved negative field, unless it is not given or
    switched off for the species; and the external field, unless it is not given or switched off. *)
Definition solved_part (negE : option (particle -> vec)) (solved : option bool) (p : particle) (i : nat) : R :=
  match negE, solved with
  | None, _ | Some _, Some false => 0
  | Some g, _ => - comp (g p) i
  end.
Definition external_part (Eext : option (particle -> vec)) (ext : option bool) (p : particle) (i : nat) : R :=
  match Eext, ext with
  | None, _ | Some _, Some false => 0
  | Some h, _ => comp (h p) i
  end.
(** Fields with [dE] components. *)
Definition fields_of (dE : nat) (F : option (particle -> vec)) : Prop :=
  match F with Some g => forall p, length (g p) = dE | None => True end.
(** Boundary functions that absorb or do nothing. *)
Definition Passive {K} (bcs : Z -> option (bcfun (K:=K))) : Prop :=
  forall v b, bcs v = Some b -> b = absorb_bc \/ b = noop_bc.

Lemma comp_vadd a b i : length a = length b -> comp (vadd exact a b) i = comp a i + comp b i.
Proof.
  unfold vadd, exact. revert b i. induction a as [|x a IH]; intros [|y b] i Hl; cbn in Hl; try lia.
  - destruct i; cbn; lra.
  - destruct i; cbn; [done|]. apply IH. lia.
Qed.
Lemma comp_vscale s a i : comp (vscale exact s a) i = s * comp a i.
Proof.
  unfold vscale, exact. revert i. induction a as [|x a IH]; intros i; [destruct i; cbn; lra|]. destruct i; cbn; [done|apply IH].
Qed.
Lemma comp_map_mul s a i : comp (map (fun u => exact (u * s)) a) i = comp a i * s.
Proof.
  unfold exact. revert i. induction a as [|x a IH]; intros i; [destruct i; cbn; lra|]. destruct i; cbn; [done|apply IH].
Qed.
Lemma comp_zeros n i : comp (replicate n 0) i = 0.
Proof. revert i. induction n as [|n IH]; intros [|i]; cbn; done. Qed.

Ltac sel := match goal with
  | |- _ /\ _ => split; [unfold vadd; rewrite ?zip_with_length, ?map_length, ?replicate_length;
      repeat match goal with H : forall p, length _ = _ |- _ => rewrite H end; lia|]
  | _ => idtac end.
Lemma select_parts dE negE Eext solved ext p Es : fields_of dE negE -> fields_of dE Eext ->
  select_E exact dE negE Eext solved ext p = Ok Es ->
  match Es with
  | Some e => length e = dE /\ forall i, comp e i = solved_part negE solved p i + external_part Eext ext p i
  | None => forall i, solved_part negE solved p i + external_part Eext ext p i = 0
  end.
Proof.
  intros Hn He. unfold select_E, solved_part, external_part. destruct negE as [g|], Eext as [h|]; cbn in Hn, He.
  - destruct solved as [[]|], ext as [[]|]; intros [= <-]; sel; intros i;
      rewrite ?comp_vadd, ?comp_map_mul by (rewrite map_length; congruence); lra.
  - destruct solved as [[]|]; intros [= <-]; sel; intros i; rewrite ?comp_map_mul; lra.
  - destruct ext as [[]|]; intros [= <-]; sel; intros i;
      rewrite ?comp_vadd, ?comp_zeros by (rewrite replicate_length; congruence); lra.
  - intros [= <-]. sel. intros i. rewrite comp_zeros. lra.
Qed.

(** How one charged particle [p] becomes [q]. *)
Definition pushed (dt qom : R) (negE Eext : option (particle -> vec)) (solved ext : option bool) (ao : bool)
    (p q : particle) : Prop :=
  length (pu q) = length (pu p) /\ length (px q) = length (px p) /\
  (forall i, comp (pu q) i = comp (pu p) i
     + (if (i <? length (pu p))%nat then qom * dt * (solved_part negE solved p i + external_part Eext ext p i) else 0)) /\
  (if ao then px q = px p
   else forall i, comp (px q) i = comp (px p) i + (if (i <? length (px p))%nat then comp (pu q) i * dt else 0)).

Lemma comp_over (v : vec) i : (length v <= i)%nat -> comp v i = 0.
Proof. apply nth_overflow. Qed.
Lemma comp_vadd_gen a b i : length a = length b ->
  comp (vadd exact a b) i = comp a i + (if (i <? length a)%nat then comp b i else 0).
Proof.
  intros Hl. rewrite comp_vadd by done. destruct (i <? length a)%nat eqn:E; [done|].
  rewrite (comp_over b) by lia. done.
Qed.

Theorem C20_particle_push sn step time dt qom maxc m bcs dE negE Eext solved ext ao c fi p q c1 :
  Passive bcs -> fields_of dE negE -> fields_of dE Eext ->
  length (px p) = dE -> length (pu p) = dE ->
  adv (charged_hooks exact sn step time dt qom maxc m bcs dE negE Eext solved ext ao) c fi p = Ok (q, c1) ->
  pushed dt qom negE Eext solved ext ao p q.
Proof.
  intros HB Hn He Hx Hu. cbn [adv charged_hooks]. destruct (select_E _ _ _ _ _ _ _) as [Es|] eqn:EE; [|done].
  apply select_parts in EE; [|done..]. unfold advance_charged. intros Ht.
  set (p2 := if ao then _ else _) in Ht.
  assert (Hq : px q = px p2 /\ pu q = pu p2).
  { eapply (track_preserves_n _ _ _ _ _ _ _ _ _ (fun q => px q = px p2 /\ pu q = pu p2)) in Ht; try done.
    intros v b c0 p0 mf f n q0 c0' Hb _ HP. destruct (HB v b Hb) as [->| ->]; unfold absorb_bc, noop_bc; by intros [= <- _]. }
  destruct Hq as [Hqx Hqu]. unfold pushed. rewrite Hqx, Hqu.
  assert (Hpu : pu p2 = pu (accelerate exact (exact (qom * dt)) Es p)) by (by destruct ao).
  assert (Hl : length (pu p2) = length (pu p)).
  { rewrite Hpu. destruct Es as [e|]; [|done]. cbn. destruct EE as [El _]. rewrite vadd_length; [done|]. rewrite vscale_length. congruence. }
  assert (Hpx : px (accelerate exact (exact (qom * dt)) Es p) = px p) by (by destruct Es).
  split; [done|]. split; [|split].
  - destruct ao; [by rewrite <- Hpx|]. cbn. rewrite Hpx, vadd_length; [done|]. rewrite map_length. rewrite <- Hpu. congruence.
  - intros i. rewrite Hpu. destruct Es as [e|]; cbn [accelerate set_pu pu].
    + destruct EE as [El EE]. rewrite comp_vadd_gen by (rewrite vscale_length; congruence).
      rewrite comp_vscale, EE. done.
    + rewrite EE. destruct (i <? length (pu p))%nat; ring.
  - destruct ao; [done|]. intros i. cbn. rewrite Hpx, comp_vadd_gen; [|rewrite map_length, <- Hpu; congruence].
    by rewrite comp_map_mul.
Qed.

(** A whole pass: every survivor was pushed so. *)
Theorem C20_pass_push sn (L : Z) s xs c s' c' step time dt qom maxc m bcs dE negE Eext solved ext ao : (1 <= L)%Z ->
  Reachable L s -> Stores s xs ->
  Passive bcs -> fields_of dE negE -> fields_of dE Eext ->
  Forall (fun p => length (px p) = dE /\ length (pu p) = dE) xs ->
  guarded_mover (py_ops particle)
    (charged_hooks exact sn step time dt qom maxc m bcs dE negE Eext solved ext ao) s c = Ok (s', c') ->
  exists fate, Stores s' (survivors fate) /\
    Forall2 (fun p r => match r with Some q => pushed dt qom negE Eext solved ext ao p q | None => True end) xs fate.
Proof.
  intros HL HR Hs HB Hn He Hx E. revert E. set (hk := charged_hooks _ _ _ _ _ _ _ _ _ _ _ _ _ _ _). intros E.
  pose proof (C04_pass_is_sequential L s xs hk c HL HR Hs) as H.
  destruct (seq_pass hk 0 [] false c xs) as [[ys c1]|e] eqn:Ep; [|congruence].
  destruct H as (s1 & E1 & Hs1 & _). rewrite E in E1. injection E1 as <- <-.
  apply seq_pass_fate in Ep as (fate & -> & HF). exists fate. split; [done|].
  clear -HF HB Hn He Hx. revert Hx. induction HF as [|p r xs fate Hr HF IH]; intros Hx; [constructor|].
  inversion_clear Hx as [|? ? [H1 H2] Hx']. constructor; [|by apply IH].
  destruct Hr as (c0 & i & q & c2 & Ea & ->). destruct (deleted hk q); [done|].
  by eapply C20_particle_push in Ea.
Qed.

(** The flags: a species for which the solved field is switched off but the external one is applied makes the
    mover fail before it moves anything; with both switched off the velocity does not change. *)
Theorem C20_flag_failure fl sn step time dt qom maxc m bcs dE g h ext ao c fi p :
  ext <> Some false ->
  adv (charged_hooks fl sn step time dt qom maxc m bcs dE (Some g) (Some h) (Some false) ext ao) c fi p
    = Raise AttributeError.
Proof. intros He. cbn [adv charged_hooks]. unfold select_E. by destruct ext as [[]|]. Qed.

(** The neutral mover: velocity unchanged, position moved by velocity times dt. *)
Theorem C20_neutral_push sn step time dt maxc m bcs c fi p q c1 :
  Passive bcs -> length (px p) = length (pu p) ->
  adv (neutral_hooks exact sn step time dt maxc m bcs) c fi p = Ok (q, c1) ->
  pu q = pu p /\ length (px q) = length (px p) /\
  forall i, comp (px q) i = comp (px p) i + (if (i <? length (px p))%nat then comp (pu p) i * dt else 0).
Proof.
  intros HB Hl. cbn [adv neutral_hooks]. unfold advance_neutral. intros Ht. set (p2 := free_move _ _ _) in Ht.
  assert (Hq : px q = px p2 /\ pu q = pu p2).
  { eapply (track_preserves_n _ _ _ _ _ _ _ _ _ (fun q => px q = px p2 /\ pu q = pu p2)) in Ht; try done.
    intros v b c0 p0 mf f n q0 c0' Hb _ HP. destruct (HB v b Hb) as [->| ->]; unfold absorb_bc, noop_bc; by intros [= <- _]. }
  destruct Hq as [-> ->]. split; [done|]. cbn. split; [rewrite vadd_length; [done|by rewrite map_length]|].
  intros i. rewrite comp_vadd_gen by (by rewrite map_length). by rewrite comp_map_mul.
Qed.

(** With reflecting boundaries the velocity may turn, but the kinetic energy is the one that the field gave. *)
Definition unit_normals (m : mesh) (d : nat) : Prop :=
  forall ci cr nv, cells m ci = Some cr -> nv ∈ normals cr -> length nv = d /\ dot nv nv = 1.
Theorem C20_energy sn step time dt qom maxc m bcs dE negE Eext solved ext ao c fi p q c1 :
  Ships exact bcs -> unit_normals m dE -> fields_of dE negE -> fields_of dE Eext ->
  length (px p) = dE -> length (pu p) = dE ->
  adv (charged_hooks exact sn step time dt qom maxc m bcs dE negE Eext solved ext ao) c fi p = Ok (q, c1) ->
  exists v, length v = dE /\
    (forall i, (i < dE)%nat -> comp v i = comp (pu p) i + qom * dt * (solved_part negE solved p i + external_part Eext ext p i)) /\
    dot (pu q) (pu q) = dot v v.
Proof.
  intros HB Hm Hn He Hx Hu. cbn [adv charged_hooks]. destruct (select_E _ _ _ _ _ _ _) as [Es|] eqn:EE; [|done].
  apply select_parts in EE; [|done..]. unfold advance_charged. intros Ht.
  set (p2 := if ao then _ else _) in Ht.
  assert (Hpu : pu p2 = pu (accelerate exact (exact (qom * dt)) Es p)) by (by destruct ao).
  assert (Hl : length (pu p2) = dE).
  { rewrite Hpu. destruct Es as [e|]; [|done]. cbn. destruct EE as [El _]. rewrite vadd_length; [done|]. rewrite vscale_length. congruence. }
  assert (Hpx : px (accelerate exact (exact (qom * dt)) Es p) = px p) by (by destruct Es).
  assert (Hlx : length (px p2) = dE).
  { unfold p2. destruct ao; [by rewrite Hpx|]. cbn. rewrite Hpx, vadd_length; [done|]. rewrite map_length. rewrite <- Hpu. congruence. }
  exists (pu p2). split; [done|]. split.
  - intros i Hi. rewrite Hpu. destruct Es as [e|]; cbn [accelerate set_pu pu].
    + destruct EE as [El EE]. rewrite comp_vadd by (rewrite vscale_length; congruence). by rewrite comp_vscale, EE.
    + rewrite EE. ring.
  - eapply (track_preserves_n _ _ _ _ _ _ _ _ _ (fun q => length (px q) = dE /\ length (pu q) = dE /\
      dot (pu q) (pu q) = dot (pu p2) (pu p2))) in Ht; try done; [by destruct Ht as (_ & _ & ?)|].
    intros v b c0 p0 mf f n q0 c0' Hb Hmn (P1 & P2 & P3).
    destruct (HB v b Hb) as [->|[->| ->]]; unfold absorb_bc, noop_bc, reflect_bc; try (by intros [= <- _]).
    destruct n as [nv|]; [|done]. destruct (_ || _); [done|]. intros [= <- _].
    destruct Hmn as (ci & cr & Hc & Hin). destruct (Hm ci cr nv Hc Hin) as [Hln H1].
    set (out := vscale exact _ _).
    destruct (reflect_lengths nv out p0 dE Hln P1 P2) as [L1 L2].
    pose proof (reflect_pu_dot nv out p0 dE Hln P1 P2) as U.
    split; [done|]. split; [done|]. rewrite <- P3.
    rewrite (U _ L2), (dot_comm _ (pu p0)), (dot_comm _ nv), (U _ P2), (U _ Hln), H1, (dot_comm (pu p0) nv). lra.
Qed.

(** Example: an electron (q/m = -2) at rest at 1/4 in the first cell of the line mesh, in the negative field 1/4 and
    external field 1/8, for a step of 1: velocity -2*(-1/4 + 1/8) = 1/4, position 1/2. *)
Example C20_example c :
  adv (charged_hooks exact "e" 1 1 1 (-2) 10 line_mesh line_bcs 1 (Some (fun _ => [1/4])) (Some (fun _ => [1/8]))
    None (Some true) false) c 0 (Particle [1/4] [0] [0] 1 0 0 5 0) =
  Ok (Particle [1/2] [1/4] [1/4] 1 0 0 5 0, c).
Proof.
  cbn [adv charged_hooks]. unfold select_E, advance_charged, accelerate, free_move. rewrite track_eq.
  change (track_fuel 10) with 12%nat.
  erewrite (loop_leave _ _ _ _ _ _ _ _ _ (Particle [1/2] [1/4] [1/4] 1 0 0 5 0) 0 c) by ieval. done.
Qed.
(** The hypothesis on the normals holds for that mesh. *)
Example C20_example_normals : unit_normals line_mesh 1.
Proof.
  intros ci cr nv Hc. line_cases Hc; cbn; rewrite !elem_of_cons; intros [->|[->|?%elem_of_nil]]; try done; cbn; split; try done; lra.
Qed.

Print Assumptions C20_particle_push.
Print Assumptions C20_pass_push.
Print Assumptions C20_flag_failure.
Print Assumptions C20_neutral_push.
Print Assumptions C20_energy.
