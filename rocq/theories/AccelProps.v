(** C62: steps that change only the velocities. *)
From stdpp Require Import strings list_numbers.
From Verif Require Import SapModel MoverModel SapProofs SapSpec SapRefine MoverProofs StorageProps Vec VecProofs SumProps TrackModel TrajModel TrajProps.
From Verif Require Import DensityModel DensityProps MeshFieldModel MeshFieldProps BatchProofs BatchProps.
From Verif Require Import OldMoverModel OldMoverProps.
From Verif Require Import FieldProps.
From Coq Require Import ZifyBool ZifyNat.
Ltac Zify.zify_post_hook ::= Z.div_mod_to_equations.
Local Open Scope R_scope.
Local Notation nonzero := MeshFieldProps.nonzero.

(** ** What is meant *)

(** The particle is in the cell that its record names. *)
Definition settled (m : mesh) (p : particle) : Prop :=
  (exists cr, cells m (pcell p) = Some cr) /\ inside m (pcell p) (take (gdim m) (px p)) = true.
(** [q] is [p] with other velocities and no crossings. *)
Definition only_faster (p q : particle) : Prop := q = set_pcross (set_pu p (pu q)) 0.

(** ** Proof *)

Lemma track_settled fl (bcs : Z -> option (bcfun (K:=option traj))) r k m maxc fi time dt p c : settled m p -> track fl bcs r k m maxc fi time dt p c = Ok (set_pcross p 0, c).
Proof. intros [[cr H1] H2]. unfold track, track_fuel. cbn [track_loop]. rewrite H1, H2. reflexivity. Qed.
Lemma accel_adv fl (bcs : Z -> option (bcfun (K:=option traj))) r m maxc fi time dt qmdt E p c : settled m p ->
  advance_charged fl bcs r true m maxc fi time dt qmdt E p c = Ok (set_pcross (accelerate fl qmdt E p) 0, c).
Proof. intros H. unfold advance_charged. cbv zeta. apply track_settled. destruct E; exact H. Qed.

Section One.
Context (fl : R -> R) (z : nat -> R) (dE gdim : nat) (negE Eext : option (vspace * list R)) (step : Z) (time dt : R) (maxc : Z) (m : mesh).
Context (solved ext : option bool) (sn : string) (qom : R).
Notation sel k xs i p := (select_E fl dE (option_map (fun _ => value fl dE gdim negE) negE)
    (option_map (fun _ _ => random_value fl z dE gdim Eext k xs i) Eext) solved ext p).
Notation hk bcs k xs := (each_hooks fl dE negE Eext solved ext sn step time dt qom maxc m bcs true (value fl dE gdim negE)
      (fun (i : Z) (_ : particle) => random_value fl z dE gdim Eext k xs (Z.to_nat i))).

Lemma accel_seq bcs k xs (E : nat -> particle -> option vec) : (forall p, p ∈ xs -> settled m p /\ is_deleted p = false) ->
  (forall i p, xs !! i = Some p -> sel k xs i p = Ok (E i p)) ->
  forall rest pre kept c, xs = pre ++ rest ->
    seq_pass (hk bcs k xs) (Z.of_nat (length pre)) kept false c rest =
      Ok (kept ++ imap (fun i p => set_pcross (accelerate fl (fl (qom * dt)) (E (length pre + i)%nat p) p) 0) rest, c).
Proof.
  intros Hp HE. induction rest as [|p rest IH]; intros pre kept c Hx; [cbn; by rewrite app_nil_r|].
  assert (Hi : xs !! length pre = Some p) by (rewrite Hx; by apply list_lookup_middle).
  destruct (Hp p) as [H1 H2]; [by eapply elem_of_list_lookup_2|].
  rewrite (seq_keep _ _ _ _ _ _ _ (set_pcross (accelerate fl (fl (qom * dt)) (E (length pre) p) p) 0) c c).
  - replace (Z.of_nat (length pre) + 1)%Z with (Z.of_nat (length (pre ++ [p]))) by (rewrite app_length; cbn; lia).
    rewrite (IH (pre ++ [p])) by (rewrite Hx, <- app_assoc; reflexivity). cbn [imap]. rewrite <- app_assoc. cbn [app].
    rewrite Nat.add_0_r. do 4 f_equal. apply imap_ext. intros i q _. unfold compose. cbn.
    rewrite app_length. cbn. by replace (length pre + 1 + i)%nat with (length pre + S i)%nat by lia.
  - unfold each_hooks, charged_hooks. cbn [adv]. rewrite Nat2Z.id. rewrite (HE _ _ Hi). by apply accel_adv.
  - unfold each_hooks. cbn [deleted]. destruct (E (length pre) p); exact H2.
  - unfold each_hooks, keep_particle. cbn [on_keep]. destruct (usr c); [|reflexivity]. by rewrite andb_false_r.
Qed.

Lemma accel_once bcs L s xs c f (E : nat -> particle -> option vec) : (1 <= L)%Z -> Reachable L s -> Stores s xs -> arrays_of L f ->
  (forall V a, Eext = Some (V, a) -> a <> []) -> (forall p, p ∈ xs -> in_fields fl dE gdim negE Eext solved ext p) ->
  (forall p, p ∈ xs -> settled m p /\ is_deleted p = false) ->
  (forall i p, xs !! i = Some p -> sel (sf_rng f) xs i p = Ok (E i p)) ->
  exists s' f', charged_guarded_bmover fl z dE gdim negE Eext solved ext sn step time dt qom maxc m bcs true s c f = Ok (s', c, f') /\
    old_bmover fl z dE gdim negE Eext step time dt maxc m true solved ext sn qom bcs s c f = Ok (s', c, f') /\
    Stores s' (imap (fun i p => set_pcross (accelerate fl (fl (qom * dt)) (E i p) p) 0) xs) /\ Reachable L s' /\ arrays_of L f' /\
    (ext_on Eext ext -> sf_rng f' = (sf_rng f + drawn fl (map (value fl dE gdim Eext) xs))%nat) /\ (~ ext_on Eext ext -> sf_rng f' = sf_rng f).
Proof.
  intros HL HR Hs Hf Hv Hin Hp HE.
  pose proof (accel_seq (refuse_traj bcs) (sf_rng f) xs E Hp HE xs [] [] c eq_refl) as Hsq. cbn [length app] in Hsq. change (Z.of_nat 0) with 0%Z in Hsq.
  pose proof (C04_pass_is_sequential L s xs (hk (refuse_traj bcs) (sf_rng f) xs) c HL HR Hs) as H. rewrite Hsq in H. destruct H as (s' & Em & Hst & HR').
  destruct (proj2 (C59_fields fl z dE gdim negE Eext solved ext sn step time dt qom maxc m (refuse_traj bcs) true L s xs c f HL HR Hs Hf Hv s' c) (conj Hin Em)) as (f' & Ef).
  exists s', f'. apply old_refuse in Ef. pose proof (old_new _ _ _ _ _ _ _ _ _ _ _ _ _ _ _ _ _ _ _ _ _ Ef) as En.
  split; [exact En|]. split; [exact Ef|]. split; [exact Hst|]. split; [exact HR'|].
  exact (C59_draws fl z dE gdim negE Eext solved ext sn step time dt qom maxc m bcs true L s xs c f s' c f' HL HR Hs Hf Hv En).
Qed.

(** A step with [accel_only] over particles that are in their cells succeeds in both functions and changes nothing but velocities
    (and the numbers of crossings, which become zero).  The particles need not have trajectories or be without them. *)
Theorem C62_accel_only bcs L s xs c f : (1 <= L)%Z -> Reachable L s -> Stores s xs -> arrays_of L f ->
  (forall V a, Eext = Some (V, a) -> a <> []) -> (forall p, p ∈ xs -> in_fields fl dE gdim negE Eext solved ext p) ->
  ~ (negE <> None /\ solved = Some false /\ ext_on Eext ext) ->
  (forall p, p ∈ xs -> settled m p /\ is_deleted p = false) ->
  exists s' f' ys, charged_guarded_bmover fl z dE gdim negE Eext solved ext sn step time dt qom maxc m bcs true s c f = Ok (s', c, f') /\
    old_bmover fl z dE gdim negE Eext step time dt maxc m true solved ext sn qom bcs s c f = Ok (s', c, f') /\
    Stores s' ys /\ Forall2 only_faster xs ys.
Proof.
  intros HL HR Hs Hf Hv Hin Hno Hp.
  set (E := fun (i : nat) (p : particle) => match sel (sf_rng f) xs i p with Ok e => e | Raise _ => None end).
  destruct (accel_once bcs L s xs c f E HL HR Hs Hf Hv Hin Hp) as (s' & f' & En & Eo & Hst & _).
  - intros i p Hi. unfold E.
    assert (HX : exists e, sel (sf_rng f) xs i p = Ok e).
    { unfold select_E. destruct Eext as [G|] eqn:EX; cbn [option_map].
      - destruct (decide (ext = Some false)) as [->|Hne]; [by eexists|].
        assert (HY : exists e, match option_map (fun _ => value fl dE gdim negE) negE with
          | Some g => match solved with Some false => None | _ => Some (map (fun x => fl (x * -1)) (g p)) end | None => Some (replicate dE 0) end = Some e).
        { destruct negE as [G'|]; cbn [option_map]; [|by eexists]. destruct (decide (solved = Some false)) as [Hs'|Hs']; [|destruct solved as [[]|]; [by eexists|done|by eexists]].
          exfalso. apply Hno. split; [done|]. split; [exact Hs'|]. split; [done|exact Hne]. }
        destruct HY as (e & ->). destruct ext as [[]|]; [by eexists|done|by eexists].
      - by eexists. }
    destruct HX as (e & ->). reflexivity.
  - eexists s', f', _. split; [exact En|]. split; [exact Eo|]. split; [exact Hst|].
    apply Forall2_same_length_lookup_2; [by rewrite imap_length|]. intros i p q Hi Hq. rewrite list_lookup_imap, Hi in Hq. cbn in Hq. injection Hq as <-.
    unfold only_faster. destruct (E i p); destruct p; reflexivity.
Qed.
End One.

(** ** Many steps in a random field *)

Lemma drawn_nonzero vs : drawn exact vs = nonzero vs.
Proof.
  induction vs as [|v vs IH]; [reflexivity|]. rewrite drawn_cons. unfold nonzero in *. rewrite filter_cons.
  assert (Hv : zero_vec v <-> existsb (fun x => negb (Reqb x 0)) v <> true).
  { clear. induction v as [|x v IH]; cbn [existsb].
    - split; [done|]. intros _ d. by destruct d.
    - unfold Reqb at 1. destruct (Req_EM_T x 0) as [->|Hx]; cbn [negb orb].
      + rewrite <- IH. split; [intros H d; exact (H (S d))|]. intros H [|d]; [reflexivity|apply H].
      + split; [|done]. intros H. exfalso. exact (Hx (H 0%nat)). }
  rewrite <- norm_zero in Hv. unfold Reqb at 1. destruct (Req_EM_T (norm exact v) 0) as [E|E].
  - rewrite decide_False by (by apply Hv). exact IH.
  - destruct (decide _) as [_|Hn]; [cbn [length]; by rewrite IH|]. exfalso. apply E. by apply Hv.
Qed.

(** The velocities of [q] are those of [p] plus [k] times [w]; the rest is the same, up to the number of crossings. *)
Definition kicked (p : particle) (k : R) (w : vec) (q : particle) : Prop :=
  px q = px p /\ px0 q = px0 p /\ pw q = pw p /\ pbits q = pbits p /\ pcell q = pcell p /\ puid q = puid p /\
  length (pu q) = length (pu p) /\ forall d, comp (pu q) d = comp (pu p) d + k * comp w d.

Section Walk.
Context (z : nat -> R) (dE gdim : nat) (V : vspace) (a : list R) (dt : R) (maxc : Z) (m : mesh).
Context (solved ext : string -> option bool) (qom : string -> R) (bcs : string -> Z -> option (bcfun (K:=option traj))).
Context (Ha : a <> []) (HV : MeshFieldProps.Proper V dE (length a)).

(** The particles can be given the field. *)
Definition fit (p : particle) : Prop :=
  settled m p /\ is_deleted p = false /\ length (pu p) = dE /\ vs_locate V (take gdim (px p)) <> None.

Notation val := (value exact dE gdim (Some (V, a))).
Lemma fit_val p : fit p -> field_at V dE a (take gdim (px p)) (val p).
Proof using HV.
  intros (_ & _ & _ & Hl). unfold value. destruct (fe_eval exact V dE a (take gdim (px p))) as [v|] eqn:E; [by apply eval_iff in E|].
  exfalso. unfold fe_eval in E. destruct (vs_locate V (take gdim (px p))) as [c|] eqn:Ec; [|done].
  destruct (HV _ _ Ec) as [H1 _]. rewrite gather_ok in E by (by apply list.Forall_forall). discriminate.
Qed.
Lemma walk_steps n : forall L sn step time saps xs c f, (1 <= L)%Z -> Reachable L (saps sn) -> Stores (saps sn) xs -> arrays_of L f ->
  ext sn <> Some false -> (forall p, p ∈ xs -> fit p) ->
  exists saps' f' ys, accel_steps exact z dE gdim (Some (V, a)) dt maxc m solved ext qom bcs [sn] n step time saps c f = Ok (saps', c, f') /\
    Stores (saps' sn) ys /\ length ys = length xs /\
    sf_rng f' = (sf_rng f + n * nonzero (map val xs))%nat /\
    forall i p q, xs !! i = Some p -> ys !! i = Some q ->
      kicked p (qom sn * dt * Rsum (map (fun j => z (sf_rng f + j * nonzero (map val xs) + nonzero (take i (map val xs)))%nat) (seq 0 n))) (val p) q.
Proof using All.
  induction n as [|n IH]; intros L sn step time saps xs c f HL HR Hs Hf He Hp.
  - exists saps, f, xs. split; [reflexivity|]. split; [exact Hs|]. split; [reflexivity|]. split; [lia|]. intros i p q Hi Hq. rewrite Hi in Hq. injection Hq as <-.
    repeat split. intros d. cbn [seq map]. rewrite Rsum_nil. ring.
  - assert (Hon : ext_on (Some (V, a)) (ext sn)) by (split; [done|exact He]).
    set (rv i := random_value exact z dE gdim (Some (V, a)) (sf_rng f) xs i).
    set (E := fun (i : nat) (_ : particle) => Some (vadd exact (replicate dE 0) (rv i))).
    destruct (accel_once exact z dE gdim None (Some (V, a)) (step + 1) (exact (time + dt)) dt maxc m (solved sn) (ext sn) sn (qom sn) (bcs sn)
      L (saps sn) xs c (fields_at_start f) E HL HR Hs Hf) as (s1 & f1 & _ & Eo & Hst & HR1 & Hf1 & Hrng & _).
    + intros V' a' [= <- <-]. exact Ha.
    + intros p Hpx. split; [intros [? _]; done|]. intros _. exists (val p), V, a. split; [reflexivity|]. apply eval_iff; [exact HV|]. by apply fit_val, Hp.
    + intros p Hpx. destruct (Hp p Hpx) as (H1 & H2 & _). by split.
    + intros i p Hi. unfold select_E. cbn [option_map]. unfold E, rv. cbn [sf_rng fields_at_start]. destruct (ext sn) as [[]|]; [reflexivity|done|reflexivity].
    + set (xs1 := imap _ xs) in Hst.
      assert (Hx1 : forall i p, xs !! i = Some p -> xs1 !! i = Some (set_pcross (accelerate exact (exact (qom sn * dt)) (E i p) p) 0)).
      { intros i p Hi. unfold xs1. rewrite list_lookup_imap, Hi. reflexivity. }
      assert (Hl1 : length xs1 = length xs) by (unfold xs1; apply imap_length).
      assert (Hmv : map val xs1 = map val xs).
      { apply list_eq. intros i. change (map ?g ?l) with (g <$> l). rewrite !list_lookup_fmap. destruct (xs !! i) as [p|] eqn:Hi.
        - rewrite (Hx1 _ _ Hi). reflexivity.
        - apply lookup_ge_None in Hi. rewrite lookup_ge_None_2 by lia. reflexivity. }
      assert (Hrv : forall i p, xs !! i = Some p -> length (rv i) = dE /\
        forall d, comp (rv i) d = z (sf_rng f + nonzero (take i (map val xs)))%nat * comp (val p) d).
      { intros i p Hi. unfold rv, random_value. rewrite Hi. destruct (fit_val p (Hp p ltac:(by eapply elem_of_list_lookup_2))) as [Hlen _].
        unfold Reqb. destruct (Req_EM_T (norm exact (val p)) 0) as [Ez|Ez].
        - split; [exact Hlen|]. intros d. apply norm_zero in Ez. rewrite (Ez d). ring.
        - split; [by rewrite map_length|]. intros d. rewrite comp_map_mul. rewrite drawn_nonzero, <- firstn_map. unfold exact. ring. }
      set (saps1 := fun s => if String.eqb s sn then s1 else saps s).
      assert (Hs1 : saps1 sn = s1) by (unfold saps1; by rewrite String.eqb_refl).
      destruct (IH L sn (step + 1)%Z (exact (time + dt)) saps1 xs1 c f1) as (saps' & f' & ys & Er & Hys & Hly & Hrn & Hk);
        [exact HL|by rewrite Hs1|by rewrite Hs1|exact Hf1|exact He| |].
      { intros q Hq. apply elem_of_list_lookup in Hq as [i Hi]. pose proof (lookup_lt_Some _ _ _ Hi) as Hlt. rewrite Hl1 in Hlt.
        destruct (lookup_lt_is_Some_2 xs i Hlt) as [p Hpi]. rewrite (Hx1 _ _ Hpi) in Hi. injection Hi as <-.
        destruct (Hp p ltac:(by eapply elem_of_list_lookup_2)) as (F1 & F2 & F3 & F4). split; [exact F1|]. split; [exact F2|]. split; [|exact F4].
        cbn [set_pcross accelerate E set_pu pu]. unfold vadd, vscale. rewrite zip_with_length, map_length, zip_with_length, replicate_length.
        rewrite (proj1 (Hrv i p Hpi)). lia. }
      exists saps', f', ys. split.
      { cbn [accel_steps]. unfold move_particles_in_electrostatic_field. cbn [over_species]. rewrite Eo. exact Er. }
      split; [exact Hys|]. split; [lia|]. rewrite Hmv in Hrn, Hk. specialize (Hrng Hon). cbn [sf_rng fields_at_start] in Hrng. rewrite drawn_nonzero in Hrng.
      split; [rewrite Hrn, Hrng; lia|]. intros i p q Hi Hq. destruct (Hk i _ q (Hx1 i p Hi) Hq) as (K1 & K2 & K3 & K4 & K5 & K6 & K7 & K8).
      destruct (Hrv i p Hi) as [Hrl Hrc]. destruct (Hp p ltac:(by eapply elem_of_list_lookup_2)) as (_ & _ & F3 & _).
      split; [exact K1|]. split; [exact K2|]. split; [exact K3|]. split; [exact K4|]. split; [exact K5|]. split; [exact K6|].
      assert (Hlu : length (vscale exact (exact (qom sn * dt)) (vadd exact (replicate dE 0) (rv i))) = dE).
      { unfold vadd, vscale. rewrite map_length, zip_with_length, replicate_length, Hrl. lia. }
      split.
      { rewrite K7. cbn [set_pcross accelerate E set_pu pu]. unfold vadd at 1. rewrite zip_with_length, Hlu. lia. }
      intros d. rewrite K8. cbn [set_pcross accelerate E set_pu pu]. rewrite comp_vadd by (rewrite Hlu; exact F3). rewrite comp_vscale.
      rewrite comp_vadd by (by rewrite replicate_length). rewrite comp_zeros, Hrc. cbn [seq map]. rewrite Rsum_cons.
      assert (Hv : val (set_pcross (set_pu p (vadd exact (pu p) (vscale exact (exact (qom sn * dt)) (vadd exact (replicate dE 0) (rv i))))) 0) = val p) by reflexivity.
      change (accelerate exact (exact (qom sn * dt)) (E i p) p) with (set_pu p (vadd exact (pu p) (vscale exact (exact (qom sn * dt)) (vadd exact (replicate dE 0) (rv i))))).
      rewrite Hv. rewrite Hrng. rewrite <- seq_shift, map_map. 
      replace (map (fun j => z (sf_rng f + S j * nonzero (map val xs) + nonzero (take i (map val xs)))%nat) (seq 0 n))
        with (map (fun j => z (sf_rng f + nonzero (map val xs) + j * nonzero (map val xs) + nonzero (take i (map val xs)))%nat) (seq 0 n)).
      2: { apply map_ext. intros j. f_equal. lia. }
      replace (sf_rng f + 0 * nonzero (map val xs) + nonzero (take i (map val xs)))%nat with (sf_rng f + nonzero (take i (map val xs)))%nat by lia.
      unfold exact. ring.
Qed.

(** [n] steps of the program: particle [i] is kicked by its field at its position times the sum of [n] random numbers.  Of the [M]
    numbers that are drawn in a step, with [M] the number of particles with a field other than zero, it uses the one at its
    place among those. *)
Theorem C62_walk n : forall L sn step time saps xs c f, (1 <= L)%Z -> Reachable L (saps sn) -> Stores (saps sn) xs -> arrays_of L f ->
  ext sn <> Some false -> (forall p, p ∈ xs -> fit p) ->
  exists saps' f' ys vs, accel_steps exact z dE gdim (Some (V, a)) dt maxc m solved ext qom bcs [sn] n step time saps c f = Ok (saps', c, f') /\
    Stores (saps' sn) ys /\ length ys = length xs /\ Forall2 (fun p v => field_at V dE a (take gdim (px p)) v) xs vs /\
    sf_rng f' = (sf_rng f + n * nonzero vs)%nat /\
    forall i p v q, xs !! i = Some p -> vs !! i = Some v -> ys !! i = Some q ->
      kicked p (qom sn * dt * Rsum (map (fun j => z (sf_rng f + j * nonzero vs + nonzero (take i vs))%nat) (seq 0 n))) v q.
Proof using All.
  intros L sn step time saps xs c f HL HR Hs Hf He Hp.
  destruct (walk_steps n L sn step time saps xs c f HL HR Hs Hf He Hp) as (saps' & f' & ys & E & Hy & Hl & Hr & Hk).
  exists saps', f', ys, (map val xs). split; [exact E|]. split; [exact Hy|]. split; [exact Hl|]. split.
  - change (map val xs) with (val <$> xs). apply Forall2_fmap_r, Forall_Forall2_diag, list.Forall_forall. intros p Hpx. by apply fit_val, Hp.
  - split; [exact Hr|]. intros i p v q Hi Hv Hq. change (map val xs) with (val <$> xs) in Hv. rewrite list_lookup_fmap, Hi in Hv. injection Hv as <-.
    exact (Hk i p q Hi Hq).
Qed.
End Walk.

(** *** A concrete case *)

(** Three particles at 0, 1 and 2 in segments of two, in the field 5 x, for two steps of 1 with q/m = 1; the random numbers are
    0, 1, 2, ..., of which four have been used.  The first particle has no field, so each step draws two numbers: 4 and 5, then 6
    and 7. *)
Definition wp3 : list particle := [bp 0 0 1; bp 1 0 2; bp 2 0 3].
Example C62_example : exists s s' c' f' ys, push_all (sap_init 2) wp3 = Ok (s, [(0, 0); (1, 1); (0, 2)])%Z /\
  accel_steps exact INR 1 1 (Some (line1, [0; 5])) 1 100 one_cell (fun _ => None) (fun _ => None) (fun _ => 1) (fun _ _ => None) ["e"] 2 0 0
    (fun _ => s) (TCtx [0] None) bf = Ok (s', c', f') /\
  Stores (s' "e") ys /\ map pu ys = [[0]; [50]; [120]] /\ map px ys = [[0]; [1]; [2]] /\ sf_rng f' = 8%nat.
Proof.
  destruct (C01_push_keeps_place 2 wp3) as (s & Ep & Hs); [lia|].
  assert (HR : Reachable 2 s) by exact (push_all_reach 2 wp3 _ _ _ (r_new 2) Ep).
  assert (HP : MeshFieldProps.Proper line1 1 (length [0; 5])).
  { intros x c _. split; [|repeat constructor]. intros i Hi. cbn in Hi. rewrite !elem_of_cons, elem_of_nil in Hi. cbn. lia. }
  destruct (C62_walk INR 1 1 line1 [0; 5] 1 100 one_cell (fun _ => None) (fun _ => None) (fun _ => 1) (fun _ _ => None) ltac:(discriminate) HP
    2 2 "e" 0 0 (fun _ => s) wp3 (TCtx [0] None) bf ltac:(lia) HR Hs ltac:(by split) ltac:(discriminate)) as (s' & f' & ys & vs & E & Hy & Hl & Hvs & Hr & Hk).
  { intros p Hp. unfold wp3 in Hp. rewrite !elem_of_cons, elem_of_nil in Hp. destruct Hp as [->|[->|[->|[]]]];
      (split; [split; [by eexists|reflexivity]|]; split; [reflexivity|]; split; [reflexivity|discriminate]). }
  assert (Hv : vs = [[0]; [5]; [10]]).
  { assert (Hf : forall x id v, field_at line1 1 [0; 5] (take 1 (px (bp x 0 id))) v -> v = [5 * x]).
    { intros x id v (Hlv & c & _ & Hc). destruct v as [|y [|]]; [discriminate Hlv| |discriminate Hlv]. f_equal. specialize (Hc 0%nat). cbn in Hc. rewrite Hc.
      unfold at_. cbn. lra. }
    unfold wp3 in Hvs. inversion_clear Hvs as [|? ? ? ? H1 Hvs1]. inversion_clear Hvs1 as [|? ? ? ? H2 Hvs2]. inversion_clear Hvs2 as [|? ? ? ? H3 Hvs3].
    inversion_clear Hvs3. rewrite (Hf _ _ _ H1), (Hf _ _ _ H2), (Hf _ _ _ H3). repeat f_equal; lra. }
  subst vs. assert (H0 : Reqb 0 0 = true) by (unfold Reqb; destruct (Req_EM_T 0 0); [reflexivity|lra]).
  assert (H5 : Reqb 5 0 = false) by (unfold Reqb; destruct (Req_EM_T 5 0); [lra|reflexivity]).
  assert (H10 : Reqb 10 0 = false) by (unfold Reqb; destruct (Req_EM_T 10 0); [lra|reflexivity]).
  assert (N3 : nonzero [[0]; [5]; [10]] = 2%nat) by (unfold MeshFieldProps.nonzero; rewrite !filter_cons; cbn [existsb]; by rewrite H0, H5, H10).
  assert (N2 : nonzero [[0]; [5]] = 1%nat) by (unfold MeshFieldProps.nonzero; rewrite !filter_cons; cbn [existsb]; by rewrite H0, H5).
  assert (N1 : nonzero [[0]] = 0%nat) by (unfold MeshFieldProps.nonzero; rewrite !filter_cons; cbn [existsb]; by rewrite H0).
  destruct ys as [|q0 [|q1 [|q2 [|]]]]; cbn in Hl; try lia.
  exists s, s', (TCtx [0] None), f', [q0; q1; q2]. split; [exact Ep|]. split; [exact E|]. split; [exact Hy|].
  assert (Hq : forall i p v q, wp3 !! i = Some p -> [[0]; [5]; [10]] !! i = Some v -> [q0; q1; q2] !! i = Some q ->
    px q = px p /\ pu q = [(INR (4 + nonzero (take i [[0]; [5]; [10]])) + INR (6 + nonzero (take i [[0]; [5]; [10]]))) * comp v 0]).
  { intros i p v q Hi Hv Hq. destruct (Hk i p v q Hi Hv Hq) as (K1 & _ & _ & _ & _ & _ & K7 & K8). split; [exact K1|].
    assert (Hlp : length (pu p) = 1%nat /\ comp (pu p) 0 = 0).
    { apply elem_of_list_lookup_2 in Hi. unfold wp3 in Hi. rewrite !elem_of_cons, elem_of_nil in Hi. destruct Hi as [->|[->|[->|[]]]]; split; reflexivity. }
    destruct Hlp as [Hlp Hc]. rewrite Hlp in K7. destruct (pu q) as [|y [|]]; [discriminate K7| |discriminate K7]. f_equal.
    specialize (K8 0%nat). rewrite Hc, N3 in K8. cbn [seq map sf_rng bf] in K8. rewrite !Rsum_cons, Rsum_nil in K8.
    replace (4 + 0 * 2)%nat with 4%nat in K8 by lia. replace (4 + 1 * 2)%nat with 6%nat in K8 by lia. cbn [nth] in K8. rewrite K8. cbn [nth]. ring. }
  destruct (Hq 0%nat _ _ _ eq_refl eq_refl eq_refl) as [X0 U0]. destruct (Hq 1%nat _ _ _ eq_refl eq_refl eq_refl) as [X1 U1].
  destruct (Hq 2%nat _ _ _ eq_refl eq_refl eq_refl) as [X2 U2]. cbn [take nth] in U0, U1, U2. rewrite N1 in U1. rewrite N2 in U2.
  split; [|split].
  - cbn [map]. rewrite U0, U1, U2. repeat f_equal; cbn; lra.
  - cbn [map]. rewrite X0, X1, X2. reflexivity.
  - rewrite Hr, N3. reflexivity.
Qed.

Print Assumptions C62_accel_only.
Print Assumptions C62_walk.
