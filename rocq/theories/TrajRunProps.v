(** C26 and C45: the trajectory samples of a whole run. *)
From Flocq Require Import Core.
From Coq Require Import Sorting.Sorted.
From stdpp Require Import strings list_numbers.
From Verif Require Import Vec VecProofs Rounding TrackModel DiagModel DiagProofs HistoryProps.
From Verif Require Import TrajModel TrajProofs TrajProps TrajRecProps.
Local Open Scope R_scope.

(** ** Specification *)

(** Between two samples the particles may be stored elsewhere, which changes the indices (C21); no trajectory begins or
    ends and no crossing is recorded. *)
Definition same (e e1 : entry) : Prop :=
  e_uid e1 = e_uid e /\ e_len e1 = e_len e /\ e_data e1 = e_data e /\ (live e1 <-> live e).
Definition quiet (T T1 : traj) : Prop :=
  t_npoints T1 = t_npoints T /\ t_last T1 = t_last T /\ forall s, Forall2 same (t_sp T s) (t_sp T1 s).
(** The steps of the recorded points. *)
Definition steps (e : entry) : list (option Z) := map (fmap d_step) (points e).
(** The same trajectory with points of the steps [ks] added if its particle exists. *)
Definition gained (ks : list Z) (e e1 : entry) : Prop :=
  e_uid e1 = e_uid e /\ (live e1 <-> live e) /\
  (live e -> steps e1 = steps e ++ map Some ks) /\ (~ live e -> points e1 = points e).
(** Every trajectory of the species [sps] whose particle exists has room for [m] more points. *)
Definition room (sps : list string) (T : traj) (m : nat) : Prop :=
  forall s e, s ∈ sps -> e ∈ t_sp T s -> live e -> (Z.of_nat (length (points e) + m) <= t_npoints T)%Z.
(** The sampled steps of a run of [n] steps: the periodic ones, and the last step if it is not one of them. *)
Definition samples (skip : Z) (n : nat) : list Z :=
  periodic skip n ++ (if (Z.of_nat n mod skip =? 0)%Z then [] else [Z.of_nat n]).

(** ** Lemmas *)
Lemma sound_len np e : SoundEntry np e -> Z.of_nat (length (points e)) = e_len e.
Proof. intros (H1 & H2 & _). unfold points. rewrite take_length. lia. Qed.
Lemma quiet_sound T T1 : quiet T T1 -> Sound T -> Sound T1.
Proof.
  intros (Hn & _ & HF) [H0 HS]. split; [lia|]. intros sn e He. rewrite Hn.
  apply elem_of_list_lookup in He as [i Hi]. destruct (Forall2_lookup_r _ _ _ _ _ (HF sn) Hi) as (e0 & Hi0 & Hu & Hl & Hd & _).
  destruct (HS sn e0) as (A1 & A2 & A3); [by eapply elem_of_list_lookup_2|]. unfold SoundEntry, points in *. rewrite Hl, Hd. by split.
Qed.
Lemma same_points e e1 : same e e1 -> points e1 = points e.
Proof. intros (_ & Hl & Hd & _). unfold points. by rewrite Hl, Hd. Qed.
Lemma same_gained e e1 : same e e1 -> gained [] e e1.
Proof.
  intros Hs. pose proof (same_points _ _ Hs) as Hp. destruct Hs as (Hu & Hl & Hd & Hlv). split; [done|]. split; [done|].
  unfold steps. rewrite Hp. cbn. rewrite app_nil_r. done.
Qed.
Lemma gained_trans ks1 ks2 e e1 e2 : gained ks1 e e1 -> gained ks2 e1 e2 -> gained (ks1 ++ ks2) e e2.
Proof.
  intros (U1 & L1 & G1 & D1) (U2 & L2 & G2 & D2). split; [congruence|]. split; [by rewrite L2|]. split.
  - intros Hl. rewrite (G2 (proj2 L1 Hl)), (G1 Hl), map_app, app_assoc. done.
  - intros Hl. rewrite D2 by (by rewrite L1). by apply D1.
Qed.
Lemma gained_length ks e e1 : gained ks e e1 -> live e -> length (points e1) = (length (points e) + length ks)%nat.
Proof.
  intros (_ & _ & G & _) Hl. specialize (G Hl). apply (f_equal length) in G. unfold steps in G.
  rewrite app_length, !map_length in G. done.
Qed.
Lemma Forall2_gained_trans ks1 ks2 l l1 l2 : Forall2 (gained ks1) l l1 -> Forall2 (gained ks2) l1 l2 -> Forall2 (gained (ks1 ++ ks2)) l l2.
Proof.
  intros H. revert l2. induction H as [|x y l l1 Hxy Hl IH]; intros l2 H2; inversion H2; subst; constructor.
  - by eapply gained_trans.
  - by apply IH.
Qed.
Lemma sampled_gained get0 mk k e e1 : (forall p, d_step (mk p) = k) -> sampled1 get0 mk e e1 -> gained [k] e e1.
Proof.
  intros Hk Hs. destruct Hs as [[Hd ->]|(Hl & p & _ & Hi & Hu & Hp)].
  - split; [done|]. split; [done|]. split; intros Hl; [by destruct Hl|done].
  - split; [done|]. split; [unfold live; by rewrite Hi|]. split; intros H; [|done].
    unfold steps. rewrite Hp, map_app. cbn. by rewrite Hk.
Qed.

Section Run.
Context (fl : R -> R) (ch ne : list string) (dE : nat).
Context (get : Z -> string -> Z -> res particle) (negE Eext : Z -> option (particle -> vec)) (time : Z -> R).
Context (upd : Z -> traj -> traj).

(** The sample of step [k]; [upd k] is what happened to the indices since the last one. *)
Definition sample (k : Z) (T : traj) : res traj :=
  record_trajectory_data fl (upd k T) ch ne (get k) dE (negE k) (Eext k) k (time k).

Context (Hnd : NoDup (ch ++ ne)).
Context (Hget : forall k s i, i <> NO_PINDEX -> exists p, get k s i = Ok p).
Context (Hupd : forall k T, quiet T (upd k T)).

Lemma sample_ok k T : Sound T -> room (ch ++ ne) T 1 -> t_last T <> Some k ->
  exists T', sample k T = Ok T' /\ Sound T' /\ t_npoints T' = t_npoints T /\ t_last T' = Some k /\
    forall s, s ∈ ch ++ ne -> Forall2 (gained [k]) (t_sp T s) (t_sp T' s).
Proof using Hnd Hget Hupd.
  intros HS Hr Hl. pose proof (Hupd k T) as Hq. pose proof (quiet_sound _ _ Hq HS) as HS1. unfold sample.
  destruct Hq as (Hn & Hlast & HF).
  destruct (C23_room_for_all fl (upd k T) ch ne (get k) dE (negE k) (Eext k) k (time k)) as (T' & E & L' & C' & N' & O'); [done|done|congruence| |].
  { intros s Hs e He Hle. split; [|by apply Hget].
    apply elem_of_list_lookup in He as [i Hi]. destruct (Forall2_lookup_r _ _ _ _ _ (HF s) Hi) as (e0 & Hi0 & Hsame).
    assert (He0 : e0 ∈ t_sp T s) by (by eapply elem_of_list_lookup_2).
    assert (Hl0 : live e0) by (by apply Hsame). specialize (Hr s e0 Hs He0 Hl0).
    pose proof (sound_len _ _ (proj2 HS s e0 He0)). unfold full. destruct Hsame as (_ & Hlen & _). rewrite Hlen, Hn. lia. }
  exists T'. split; [done|].
  destruct (C22_no_overflow fl (upd k T) T' HS1) as (HS' & Hn' & _); [by eapply re_data|].
  split; [done|]. split; [congruence|]. split; [done|]. intros s Hs. change [k] with ([] ++ [k]).
  eapply Forall2_gained_trans; [eapply Forall2_impl; [exact (HF s)|exact same_gained]|].
  apply elem_of_app in Hs as [Hs|Hs].
  - eapply Forall2_impl; [exact (C' s Hs)|]. intros e e1. apply sampled_gained. done.
  - eapply Forall2_impl; [exact (N' s Hs)|]. intros e e1. apply sampled_gained. done.
Qed.

(** Samples at increasing steps. *)
Lemma calls_sample ks : forall T, Sound T -> room (ch ++ ne) T (length ks) ->
  StronglySorted Z.lt ks -> (forall l k, t_last T = Some l -> k ∈ ks -> (l < k)%Z) ->
  exists T', calls sample ks T = Ok T' /\ Sound T' /\ t_npoints T' = t_npoints T /\
    t_last T' = (match list.last ks with Some k => Some k | None => t_last T end) /\
    forall s, s ∈ ch ++ ne -> Forall2 (gained ks) (t_sp T s) (t_sp T' s).
Proof using Hnd Hget Hupd.
  induction ks as [|k ks IH]; intros T HS Hr Hss Hl; cbn [calls].
  { exists T. do 4 (split; [done|]). intros s _. apply Forall_Forall2_diag, Forall_forall. intros e _. apply same_gained. done. }
  destruct (sample_ok k T HS) as (T1 & -> & HS1 & Hn1 & Hl1 & HF1).
  { intros s e H1 H2 H3. specialize (Hr s e H1 H2 H3). cbn in Hr. lia. }
  { intros Hk. specialize (Hl k k Hk ltac:(left)). lia. }
  apply StronglySorted_inv in Hss as [Hss Hlt].
  destruct (IH T1 HS1) as (T' & -> & HS' & Hn' & Hl' & HF').
  - intros s e1 Hs He1 Hle1. apply elem_of_list_lookup in He1 as [i Hi].
    destruct (Forall2_lookup_r _ _ _ _ _ (HF1 s Hs) Hi) as (e0 & Hi0 & Hg).
    assert (Hle0 : live e0) by (by apply Hg). pose proof (gained_length _ _ _ Hg Hle0) as Hlen.
    specialize (Hr s e0 Hs ltac:(by eapply elem_of_list_lookup_2) Hle0). cbn in Hr, Hlen. lia.
  - done.
  - intros l j Hlj Hj. rewrite Hl1 in Hlj. injection Hlj as <-. exact (proj1 (list.Forall_forall _ _) Hlt j Hj).
  - exists T'. split; [done|]. split; [done|]. split; [congruence|]. split.
    + rewrite Hl', Hl1. destruct ks as [|k2 ks]; [done|]. rewrite last_cons_cons. destruct (list.last (k2 :: ks)) eqn:El; [done|]. by apply last_None in El.
    + intros s Hs. change (k :: ks) with ([k] ++ ks). eapply Forall2_gained_trans; [by apply HF1|by apply HF'].
Qed.
End Run.

Lemma sorted_multiples skip : (1 <= skip)%Z -> forall m i, StronglySorted Z.lt (map (fun j => Z.of_nat j * skip)%Z (seq i m)).
Proof.
  intros Hs. induction m as [|m IH]; intros i; cbn [seq map]; [constructor|]. constructor; [apply IH|].
  apply list.Forall_forall. intros x (j & -> & Hj)%elem_of_list_fmap. apply elem_of_seq in Hj. nia.
Qed.
Lemma periodic_sorted skip n : (1 <= skip)%Z -> StronglySorted Z.lt (periodic skip n).
Proof. intros Hs. by apply sorted_multiples. Qed.
Lemma periodic_last skip n : (1 <= skip)%Z -> list.last (periodic skip n) = Some (Z.of_nat n / skip * skip)%Z.
Proof.
  intros Hs. unfold periodic. rewrite seq_S, map_app. cbn [map]. rewrite last_snoc. do 2 f_equal.
  pose proof (Z.div_pos (Z.of_nat n) skip). lia.
Qed.
Lemma samples_sorted skip n : (1 <= skip)%Z -> StronglySorted Z.lt (samples skip n).
Proof.
  intros Hs. unfold samples. destruct (_ =? _)%Z eqn:E; [rewrite app_nil_r; by apply periodic_sorted|].
  assert (Hdm : (Z.of_nat n = skip * (Z.of_nat n / skip) + Z.of_nat n mod skip)%Z) by (apply Z_div_mod_eq_full).
  pose proof (Z.mod_pos_bound (Z.of_nat n) skip ltac:(lia)).
  assert (Hall : forall x, x ∈ periodic skip n -> (x < Z.of_nat n)%Z).
  { intros x (j & -> & Hj)%elem_of_list_fmap. apply elem_of_seq in Hj.
    pose proof (Z.div_pos (Z.of_nat n) skip). assert (Z.of_nat j <= Z.of_nat n / skip)%Z by lia. nia. }
  pose proof (periodic_sorted skip n Hs) as Hp. revert Hp Hall. generalize (periodic skip n) as l.
  induction l as [|x l IH]; intros Hp Hall; cbn [app].
  - constructor; constructor.
  - apply StronglySorted_inv in Hp as [Hp Hlt]. constructor.
    + apply IH; [done|]. intros y Hy. apply Hall. by right.
    + apply Forall_app. split; [done|]. constructor; [|constructor]. apply Hall. left.
Qed.

(** ** C26: a run with room for its samples records all of them.  [T] are the trajectories of the marked particles before
    the run; particles move and are stored elsewhere ([get], [upd]) but do not cross boundaries that record. *)
Theorem C26_run fl ch ne dE get negE Eext time upd skip n T :
  NoDup (ch ++ ne) -> (forall k s i, i <> NO_PINDEX -> exists p, get k s i = Ok p) -> (forall k T, quiet T (upd k T)) ->
  (1 <= skip)%Z -> Sound T -> t_last T = None -> room (ch ++ ne) T (length (samples skip n)) ->
  exists T', run_trajectories (sample fl ch ne dE get negE Eext time upd) skip n T = Ok T' /\ t_last T' = Some (Z.of_nat n) /\
    forall s, s ∈ ch ++ ne -> Forall2 (gained (samples skip n)) (t_sp T s) (t_sp T' s).
Proof.
  intros Hnd Hget Hupd Hs HS Hl Hr. set (call := sample fl ch ne dE get negE Eext time upd).
  assert (E0 : run_trajectories call skip n T = let! T1 := calls call (periodic skip n) T in call (Z.of_nat n) T1).
  { unfold run_trajectories. rewrite <- sample_loop_periodic by done. destruct (call 0%Z T); done. }
  rewrite E0. clear E0. unfold samples in *.
  destruct (Z.of_nat n mod skip =? 0)%Z eqn:E.
  - rewrite app_nil_r in *.
    destruct (calls_sample fl ch ne dE get negE Eext time upd Hnd Hget Hupd (periodic skip n) T HS Hr (periodic_sorted skip n Hs))
      as (T1 & E1 & HS1 & Hn1 & Hl1 & HF1); [intros l k Hlk; congruence|].
    fold call in E1. rewrite E1, periodic_last in * by done.
    assert (Hdm : (Z.of_nat n = skip * (Z.of_nat n / skip) + Z.of_nat n mod skip)%Z) by (apply Z_div_mod_eq_full).
    replace (Z.of_nat n / skip * skip)%Z with (Z.of_nat n) in Hl1 by lia.
    pose proof (Hupd (Z.of_nat n) T1) as Hq. exists (upd (Z.of_nat n) T1). split; [|split].
    + unfold call, sample. apply C23_same_step. destruct Hq as (_ & -> & _). done.
    + destruct Hq as (_ & -> & _). done.
    + intros s Hss. rewrite <- (app_nil_r (periodic skip n)). eapply Forall2_gained_trans; [by apply HF1|].
      eapply Forall2_impl; [exact (proj2 (proj2 Hq) s)|exact same_gained].
  - destruct (calls_sample fl ch ne dE get negE Eext time upd Hnd Hget Hupd (periodic skip n ++ [Z.of_nat n]) T HS Hr)
      as (T1 & E1 & HS1 & Hn1 & Hl1 & HF1).
    + pose proof (samples_sorted skip n Hs) as H. unfold samples in H. by rewrite E in H.
    + intros l k Hlk. congruence.
    + fold call in E1. rewrite calls_app in E1. destruct (calls call (periodic skip n) T) as [T2|]; [|done].
      cbn [calls] in E1. destruct (call (Z.of_nat n) T2) as [T3|]; [|done]. exists T3. injection E1 as ->.
      split; [done|]. split; [|done]. rewrite Hl1. by rewrite last_snoc.
Qed.

(** With the interval and the array length that the constructor chooses, one extra point is enough for the samples of
    trajectories that are empty at the start of the run, and at most [max_points] of them are periodic. *)
Theorem C26_configured fl mp extra ch ne dE get negE Eext time upd n T :
  Rounding fl -> (1 <= mp)%Z -> (1 <= extra)%Z -> (Z.of_nat n + 1 + extra < 2 ^ 53)%Z ->
  NoDup (ch ++ ne) -> (forall k s i, i <> NO_PINDEX -> exists p, get k s i = Ok p) -> (forall k T, quiet T (upd k T)) ->
  Sound T -> t_last T = None -> (forall s e, e ∈ t_sp T s -> points e = []) ->
  exists skip npoints, traj_init fl (Z.of_nat n) (Some mp) (Some extra) = Ok (skip, npoints) /\ (1 <= skip)%Z /\
    (Z.of_nat (length (periodic skip n)) <= mp)%Z /\
    (t_npoints T = npoints ->
     exists T', run_trajectories (sample fl ch ne dE get negE Eext time upd) skip n T = Ok T' /\
       forall s, s ∈ ch ++ ne -> Forall2 (gained (samples skip n)) (t_sp T s) (t_sp T' s)).
Proof.
  intros Hfl Hmp Hx Hb Hnd Hget Hupd HS Hl He.
  destruct (C26_interval fl (Z.of_nat n) mp extra Hfl) as (skip & np & E & Hs & H1 & H2); [lia..|].
  exists skip, np. split; [done|]. split; [done|]. pose proof (periodic_length skip n Hs) as Hpl. split; [lia|].
  intros HT. destruct (C26_run fl ch ne dE get negE Eext time upd skip n T) as (T' & E' & _ & HF); try done; [|by exists T'].
  intros s e Hse Hee _. rewrite (He s e Hee). unfold samples. rewrite app_length. destruct (_ =? _)%Z; cbn [length]; lia.
Qed.

(** ** C45 *)

(** The first live entry of a list, or none. *)
Lemma first_live es : (forall e, e ∈ es -> ~ live e) \/
  exists l1 e l2, es = l1 ++ e :: l2 /\ (forall e, e ∈ l1 -> ~ live e) /\ live e.
Proof.
  induction es as [|e es IH]; [left; by intros e ?%elem_of_nil|].
  destruct (decide (e_index e = NO_PINDEX)) as [Hd|Hd].
  - destruct IH as [IH|(l1 & e1 & l2 & -> & H1 & H2)].
    + left. intros e1 [->|H1]%elem_of_cons; [intros H; by apply H|by apply IH].
    + right. exists (e :: l1), e1, l2. split; [done|]. split; [|done].
      intros e2 [->|H]%elem_of_cons; [intros H; by apply H|by apply H1].
  - right. exists [], e, es. split; [done|]. split; [by intros ? ?%elem_of_nil|done].
Qed.
(** The first species of a list with a live entry, or none. *)
Lemma first_live_species T sps : (forall s e, s ∈ sps -> e ∈ t_sp T s -> ~ live e) \/
  exists s1 sn s2 l1 e l2, sps = s1 ++ sn :: s2 /\ (forall s e, s ∈ s1 -> e ∈ t_sp T s -> ~ live e) /\
    t_sp T sn = l1 ++ e :: l2 /\ (forall e, e ∈ l1 -> ~ live e) /\ live e.
Proof.
  induction sps as [|s sps IH]; [left; by intros s e ?%elem_of_nil|].
  destruct (first_live (t_sp T s)) as [Hno|(l1 & e & l2 & He & H1 & H2)].
  - destruct IH as [IH|(s1 & sn & s2 & l1 & e & l2 & -> & H1 & H2)].
    + left. intros s1 e [->|H]%elem_of_cons; [apply Hno|by apply IH].
    + right. exists (s :: s1), sn, s2, l1, e, l2. split; [done|]. split; [|done].
      intros s3 e3 [->|H]%elem_of_cons; [apply Hno|by apply H1].
  - right. exists [], s, sps, l1, e, l2. split; [done|]. split; [by intros ? ? ?%elem_of_nil|done].
Qed.
Lemma dead_sampled get mk es es' : (forall e, e ∈ es -> ~ live e) -> Forall2 (sampled1 get mk) es es' -> es' = es.
Proof.
  intros Hd HF. revert Hd. induction HF as [|e e' es es' Hs HF IH]; intros Hd; [done|].
  rewrite IH by (intros e0 H0; apply Hd; by right). f_equal.
  destruct Hs as [[_ ->]|[Hl _]]; [done|]. exfalso. by apply (Hd e ltac:(left)).
Qed.

(** A sample when every live trajectory is full: it fails if only neutral species have one, and otherwise
    changes nothing. *)
Lemma sample_full fl T ch ne get dE negE Eext step time : Sound T -> NoDup (ch ++ ne) -> t_last T <> Some step ->
  (forall s i, i <> NO_PINDEX -> exists p, get s i = Ok p) ->
  (forall s e, s ∈ ch ++ ne -> e ∈ t_sp T s -> live e -> full T e) ->
  (exists s e, s ∈ ch ++ ne /\ e ∈ t_sp T s /\ live e) ->
  ((exists s e, s ∈ ch /\ e ∈ t_sp T s /\ live e) ->
     exists T', record_trajectory_data fl T ch ne get dE negE Eext step time = Ok T' /\
       t_last T' = t_last T /\ forall s, t_sp T' s = t_sp T s) /\
  (~ (exists s e, s ∈ ch /\ e ∈ t_sp T s /\ live e) ->
     record_trajectory_data fl T ch ne get dE negE Eext step time = Raise IndexError).
Proof.
  intros HS Hnd Hl Hget Hf (s0 & e0 & Hs0 & He0 & Hl0). split.
  - intros (sx & ex & Hsx & Hex & Hlx).
    destruct (first_live_species T ch) as [Hno|(s1 & sn & s2 & l1 & e & l2 & Hch & H1 & Hsn & Hl1 & Hle)]; [by destruct (Hno sx ex)|].
    destruct (Hget sn (e_index e) Hle) as [p Hp].
    destruct (C23_full_charged_silences fl T s1 sn s2 ne get dE negE Eext step time l1 e l2 p) as (T' & l1' & E & L' & H & HF & Hsn' & Ho);
      rewrite <- ?Hch; try done.
    { intros s Hs e1 He1 Hl1'. by destruct (H1 s e1 Hs He1). }
    { intros e1 He1 Hl1'. by destruct (Hl1 e1 He1). }
    { apply (Hf sn e); [rewrite Hch, !elem_of_app, elem_of_cons; tauto|rewrite Hsn, elem_of_app, elem_of_cons; tauto|done]. }
    rewrite <- Hch in E. exists T'. split; [done|]. split; [done|]. intros s.
    destruct (decide (s ∈ s1)) as [Hs|Hs]; [by eapply dead_sampled; [|apply H]; [intros e1; apply H1|]|].
    destruct (decide (s = sn)) as [->|Hne]; [|by apply Ho]. rewrite Hsn', Hsn. f_equal. by eapply dead_sampled.
  - intros Hnoch.
    destruct (first_live_species T ne) as [Hno|(s1 & sn & s2 & l1 & e & l2 & Hne & H1 & Hsn & Hl1 & Hle)].
    { apply elem_of_app in Hs0 as [Hs0|Hs0]; [exfalso; apply Hnoch; eauto|]. by destruct (Hno s0 e0). }
    destruct (Hget sn (e_index e) Hle) as [p Hp]. rewrite Hne.
    apply (C23_full_neutral_fails fl T ch s1 sn s2 get dE negE Eext step time l1 e l2 p); rewrite <- ?Hne; try done.
    { intros s Hs e1 He1 Hl1'. exfalso. apply elem_of_app in Hs as [Hs|Hs]; [apply Hnoch; eauto|]. by destruct (H1 s e1 Hs He1). }
    { intros e1 He1 Hl1'. by destruct (Hl1 e1 He1). }
    { apply (Hf sn e); [rewrite Hne, !elem_of_app, elem_of_cons; tauto|rewrite Hsn, elem_of_app, elem_of_cons; tauto|done]. }
Qed.

(** C45.  Without extra points, and when the last step is not a multiple of the interval, the final sample has no room: the points
    of the last step are missing from every trajectory, without a message; and if only neutral species have
    trajectories the run ends with an IndexError. *)
Theorem C45_final_sample_lost skip n npoints ch ne dE get negE Eext time upd T :
  (1 <= skip)%Z -> (Z.of_nat n mod skip <> 0)%Z -> npoints = py_int (exact (exact (exact (IZR (Z.of_nat n) / IZR skip) + 1) + IZR 0)) ->
  NoDup (ch ++ ne) -> (forall k s i, i <> NO_PINDEX -> exists p, get k s i = Ok p) -> (forall k T, quiet T (upd k T)) ->
  Sound T -> t_last T = None -> t_npoints T = npoints -> (forall s e, e ∈ t_sp T s -> points e = []) ->
  (exists s e, s ∈ ch ++ ne /\ e ∈ t_sp T s /\ live e) ->
  let run := run_trajectories (sample exact ch ne dE get negE Eext time upd) skip n T in
  ((exists s e, s ∈ ch /\ e ∈ t_sp T s /\ live e) ->
     exists T', run = Ok T' /\ t_last T' = Some (Z.of_nat n / skip * skip)%Z /\
       forall s, s ∈ ch ++ ne -> Forall2 (gained (periodic skip n)) (t_sp T s) (t_sp T' s)) /\
  (~ (exists s e, s ∈ ch /\ e ∈ t_sp T s /\ live e) -> run = Raise IndexError).
Proof.
  intros Hs Hmod Hnp Hnd Hget Hupd HS Hl HT Hempty (sx & ex & Hsx & Hex & Hlx) run.
  rewrite points_exact in Hnp by lia. pose proof (periodic_length skip n Hs) as Hpl.
  set (call := sample exact ch ne dE get negE Eext time upd) in *.
  assert (E0 : run = let! T1 := calls call (periodic skip n) T in call (Z.of_nat n) T1).
  { unfold run, run_trajectories. rewrite <- sample_loop_periodic by done. destruct (call 0%Z T); done. }
  destruct (calls_sample exact ch ne dE get negE Eext time upd Hnd Hget Hupd (periodic skip n) T HS)
    as (T1 & E1 & HS1 & Hn1 & Hl1 & HF1); [|by apply periodic_sorted|intros l k Hlk; congruence|].
  { intros s e _ He _. rewrite (Hempty s e He). cbn [length]. lia. }
  fold call in E1. rewrite E0, E1. clear E0. rewrite periodic_last in Hl1 by done.
  assert (Hdm : (Z.of_nat n = skip * (Z.of_nat n / skip) + Z.of_nat n mod skip)%Z) by (apply Z_div_mod_eq_full).
  pose proof (Hupd (Z.of_nat n) T1) as Hq. pose proof (quiet_sound _ _ Hq HS1) as HS2. destruct Hq as (Hn2 & Hl2 & HF2).
  assert (HG : forall s, s ∈ ch ++ ne -> Forall2 (gained (periodic skip n)) (t_sp T s) (t_sp (upd (Z.of_nat n) T1) s)).
  { intros s Hss. rewrite <- (app_nil_r (periodic skip n)). eapply Forall2_gained_trans; [by apply HF1|].
    eapply Forall2_impl; [exact (HF2 s)|exact same_gained]. }
  assert (Hfw : forall s e, s ∈ ch ++ ne -> e ∈ t_sp T s -> live e -> exists e2, e2 ∈ t_sp (upd (Z.of_nat n) T1) s /\ live e2).
  { intros s e Hse He Hle. apply elem_of_list_lookup in He as [i Hi].
    destruct (Forall2_lookup_l _ _ _ _ _ (HG s Hse) Hi) as (e2 & Hi2 & Hg). exists e2. split; [by eapply elem_of_list_lookup_2|]. by apply Hg. }
  assert (Hbw : forall s e2, s ∈ ch ++ ne -> e2 ∈ t_sp (upd (Z.of_nat n) T1) s -> live e2 ->
    exists e, e ∈ t_sp T s /\ live e /\ gained (periodic skip n) e e2).
  { intros s e2 Hse He Hle. apply elem_of_list_lookup in He as [i Hi].
    destruct (Forall2_lookup_r _ _ _ _ _ (HG s Hse) Hi) as (e & Hi2 & Hg). exists e. split; [by eapply elem_of_list_lookup_2|].
    split; [by apply Hg|done]. }
  destruct (sample_full exact (upd (Z.of_nat n) T1) ch ne (get (Z.of_nat n)) dE (negE (Z.of_nat n)) (Eext (Z.of_nat n)) (Z.of_nat n) (time (Z.of_nat n)) HS2 Hnd)
    as [HA HB].
  - rewrite Hl2, Hl1. intros [= H]. lia.
  - apply Hget.
  - intros s e2 Hse He2 Hle2. destruct (Hbw s e2 Hse He2 Hle2) as (e & He & Hle & Hg).
    pose proof (gained_length _ _ _ Hg Hle) as Hlen. rewrite (Hempty s e He) in Hlen. cbn [length] in Hlen.
    pose proof (sound_len _ _ (proj2 HS2 s e2 He2)). unfold full. lia.
  - destruct (Hfw sx ex Hsx Hex Hlx) as (e2 & He2 & Hle2). eauto.
  - split.
    + intros (s & e & Hse & He & Hle). destruct HA as (T' & E' & L' & H').
      { destruct (Hfw s e) as (e2 & He2 & Hle2); [apply elem_of_app; by left|done..|]. eauto. }
      exists T'. split; [exact E'|]. split; [congruence|]. intros s3 Hs3. rewrite H'. by apply HG.
    + intros Hno. apply HB. intros (s & e2 & Hse & He2 & Hle2). apply Hno.
      destruct (Hbw s e2) as (e & He & Hle & _); [apply elem_of_app; by left|done..|]. eauto.
Qed.

(** Examples: five steps with a sample every second step, one charged and one neutral trajectory. *)
Definition rx_T (np : nat) (who : list string) : traj :=
  Traj (Z.of_nat np) None (fun s => if bool_decide (s ∈ who) then [Entry 0 10 0 (replicate np None)] else []).
Lemma rx_sound np who : Sound (rx_T np who).
Proof.
  split; [cbn; lia|]. intros sn e. cbn. case_bool_decide; [|by intros ?%elem_of_nil].
  intros ->%elem_of_list_singleton. split; [cbn; lia|]. split; [cbn; by rewrite replicate_length|]. unfold points. cbn. constructor.
Qed.
Lemma rx_empty np who s e : e ∈ t_sp (rx_T np who) s -> points e = [].
Proof. cbn. case_bool_decide; [|by intros ?%elem_of_nil]. by intros ->%elem_of_list_singleton. Qed.
Lemma rx_quiet (k : Z) T : quiet T T.
Proof.
  split; [done|]. split; [done|]. intros s. apply Forall_Forall2_diag, list.Forall_forall. intros e _. done.
Qed.
Definition rx_sample := sample exact ["e"]%string ["He"]%string 1 (fun k _ _ => Ok (tp (IZR k) 1 0 10)) (fun _ => None) (fun _ => None) IZR (fun _ T => T).
Lemma rx_nodup : NoDup (["e"%string] ++ ["He"%string]).
Proof. apply (bool_decide_unpack _). vm_compute. exact I. Qed.
Lemma rx_get (k : Z) (s : string) (i : Z) : i <> NO_PINDEX -> exists p, (fun k (_ : string) (_ : Z) => Ok (tp (IZR k) 1 0 10)) k s i = Ok p.
Proof. intros _. eexists. reflexivity. Qed.
Example C26_example_run : exists T', run_trajectories rx_sample 2 5 (rx_T 4 ["e"; "He"]%string) = Ok T' /\
  forall s, s ∈ ["e"; "He"]%string -> exists e', t_sp T' s = [e'] /\ steps e' = [Some 0; Some 2; Some 4; Some 5]%Z.
Proof.
  destruct (C26_run exact ["e"]%string ["He"]%string 1 _ (fun _ => None) (fun _ => None) IZR (fun _ T => T) 2 5 (rx_T 4 ["e"; "He"]%string)
    rx_nodup rx_get rx_quiet) as (T' & E & _ & HF).
  - lia.
  - apply rx_sound.
  - reflexivity.
  - intros s e _ He _. rewrite (rx_empty _ _ _ _ He). vm_compute. discriminate.
  - exists T'. split; [exact E|]. intros s Hs. specialize (HF s Hs). cbn [rx_T t_sp] in HF. rewrite bool_decide_eq_true_2 in HF by exact Hs.
    inversion HF as [|? e' ? l' Hg Hn]; subst. inversion Hn; subst. exists e'. split; [done|]. destruct Hg as (_ & _ & G & _). apply G.
    unfold live, NO_PINDEX. cbn. lia.
Qed.
Example C45_example_charged : exists T', run_trajectories rx_sample 2 5 (rx_T 3 ["e"; "He"]%string) = Ok T' /\
  forall s, s ∈ ["e"; "He"]%string -> exists e', t_sp T' s = [e'] /\ steps e' = [Some 0; Some 2; Some 4]%Z.
Proof.
  destruct (C45_final_sample_lost 2 5 3 ["e"]%string ["He"]%string 1 (fun k _ _ => Ok (tp (IZR k) 1 0 10)) (fun _ => None) (fun _ => None) IZR (fun _ T => T)
    (rx_T 3 ["e"; "He"]%string)) as [HA _].
  - lia.
  - discriminate.
  - rewrite points_exact by lia. reflexivity.
  - exact rx_nodup.
  - exact rx_get.
  - exact rx_quiet.
  - apply rx_sound.
  - reflexivity.
  - reflexivity.
  - exact (rx_empty _ _).
  - exists "e"%string. eexists. split; [left|]. split; [left|]. unfold live, NO_PINDEX. cbn. lia.
  - destruct HA as (T' & E & _ & HF).
    { exists "e"%string. eexists. split; [left|]. split; [left|]. unfold live, NO_PINDEX. cbn. lia. }
    exists T'. split; [exact E|]. intros s Hs. specialize (HF s Hs). cbn [rx_T t_sp] in HF. rewrite bool_decide_eq_true_2 in HF by exact Hs.
    inversion HF as [|? e' ? l' Hg Hn]; subst. inversion Hn; subst. exists e'. split; [done|]. destruct Hg as (_ & _ & G & _). apply G.
    unfold live, NO_PINDEX. cbn. lia.
Qed.
Example C45_example_neutral : run_trajectories rx_sample 2 5 (rx_T 3 ["He"]%string) = Raise IndexError.
Proof.
  destruct (C45_final_sample_lost 2 5 3 ["e"]%string ["He"]%string 1 (fun k _ _ => Ok (tp (IZR k) 1 0 10)) (fun _ => None) (fun _ => None) IZR (fun _ T => T)
    (rx_T 3 ["He"]%string)) as [_ HB].
  - lia.
  - discriminate.
  - rewrite points_exact by lia. reflexivity.
  - exact rx_nodup.
  - exact rx_get.
  - exact rx_quiet.
  - apply rx_sound.
  - reflexivity.
  - reflexivity.
  - exact (rx_empty _ _).
  - exists "He"%string. eexists. split; [right; left|]. split; [left|]. unfold live, NO_PINDEX. cbn. lia.
  - apply HB. intros (s & e & Hs & He & _). apply elem_of_list_singleton in Hs as ->. cbn in He. by apply elem_of_nil in He.
Qed.

Print Assumptions C26_run.
Print Assumptions C26_configured.
Print Assumptions C45_final_sample_lost.
