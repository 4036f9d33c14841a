(** C22 and C23: what the recording functions do to the recorded points. *)
From stdpp Require Import strings relations.
From Verif Require Import Vec VecProofs TrackModel BcModel TrackProofs.
From Verif Require Import SapModel SapProofs MoverModel StorageProps TrajModel TrajProofs TrajProps.

(** The recorded points of a trajectory: the part of its array up to its length. *)
Definition points (e : entry) : list (option datum) := take (Z.to_nat (e_len e)) (e_data e).
(** The array has npoints places, the length is within it, and every point counted was written. *)
Definition SoundEntry (np : Z) (e : entry) : Prop :=
  (0 <= e_len e <= np)%Z /\ Z.of_nat (length (e_data e)) = np /\ Forall (fun o => o <> None) (points e).
Definition Sound (T : traj) : Prop :=
  (0 <= t_npoints T)%Z /\ forall sn e, e ∈ t_sp T sn -> SoundEntry (t_npoints T) e.
Definition live (e : entry) : Prop := e_index e <> NO_PINDEX.
Definition full (T : traj) (e : entry) : Prop := (t_npoints T <= e_len e)%Z.

(** One call of one of the functions that change the trajectories, with any arguments. *)
Inductive revent (fl : R -> R) : traj -> traj -> Prop :=
| re_create T sn i uid : revent fl T (create_trajectory T sn i uid)
| re_update T sn fi fo T' : update_particleId T sn fi fo = Ok T' -> revent fl T T'
| re_datum T sn p fi step time E Ex cr T' :
    record_datum (Some T) sn p fi step time E Ex cr = Ok (Some T') -> revent fl T T'
| re_remove T sn q fi step time dt zE T' : remove_particleId fl T sn q fi step time dt zE = Ok T' -> revent fl T T'
| re_data T ch ne get dE negE Eext step time T' : NoDup (ch ++ ne) ->
    record_trajectory_data fl T ch ne get dE negE Eext step time = Ok T' -> revent fl T T'.

Lemma write_point_ok np e d : SoundEntry np e -> (e_len e < np)%Z ->
  exists e', write_point e d = Ok e' /\ SoundEntry np e' /\ e_index e' = e_index e /\ e_uid e' = e_uid e /\
    points e' = points e ++ [Some d].
Proof.
  intros (H1 & H2 & H3) Hlt. unfold write_point. rewrite py_set_in by lia. eexists. split; [done|].
  assert (Hp : points (Entry (e_index e) (e_uid e) (e_len e + 1) (<[Z.to_nat (e_len e):=Some d]> (e_data e)))
    = points e ++ [Some d]).
  { unfold points. cbn. replace (Z.to_nat (e_len e + 1)) with (S (Z.to_nat (e_len e))) by lia.
    rewrite (take_S_r _ _ (Some d)) by (apply list_lookup_insert; lia). f_equal. apply take_insert. lia. }
  split; [|done]. split; [cbn; lia|]. split; [cbn; by rewrite insert_length|].
  rewrite Hp. apply Forall_app. split; [done|]. by repeat constructor.
Qed.
Lemma write_point_inv np e d e' : SoundEntry np e -> write_point e d = Ok e' ->
  (e_len e < np)%Z /\ SoundEntry np e' /\ points e' = points e ++ [Some d].
Proof.
  intros HS E. assert (Hlt : (e_len e < np)%Z).
  { destruct HS as (H1 & H2 & _). unfold write_point, py_set, py_pos in E.
    destruct ((0 <=? e_len e) && _)%Z eqn:E1; [lia|]. by replace (_ && _) with false in E by lia. }
  destruct (write_point_ok np e d HS Hlt) as (e1 & E1 & ? & _ & _ & ?). rewrite E in E1. by injection E1 as <-.
Qed.
Lemma write_point_full np e d : SoundEntry np e -> (np <= e_len e)%Z -> write_point e d = Raise IndexError.
Proof.
  intros (H1 & H2 & _) Hle. unfold write_point, py_set, py_pos.
  replace ((0 <=? e_len e) && _)%Z with false by lia. by replace ((_ <=? e_len e) && _)%Z with false by lia.
Qed.

(** At most one more point. *)
Definition extends (e e' : entry) : Prop := points e' = points e \/ exists d, points e' = points e ++ [Some d].
(** The entries of a species, element by element. *)
Definition grown (np : Z) (es es' : list entry) : Prop :=
  forall k e, es !! k = Some e -> exists e', es' !! k = Some e' /\ extends e e'.
Lemma grown_refl np es : grown np es es.
Proof. intros k e Hk. exists e. split; [done|]. by left. Qed.
Lemma grown_insert np es i e e1 : es !! i = Some e -> extends e e1 -> grown np es (<[i:=e1]> es).
Proof.
  intros Hi He k e0 Hk. destruct (decide (k = i)) as [->|Hn].
  - rewrite list_lookup_insert by by eapply lookup_lt_Some. rewrite Hi in Hk. injection Hk as <-. eauto.
  - rewrite list_lookup_insert_ne by done. exists e0. split; [done|]. by left.
Qed.
Lemma sound_set T sn es : Sound T -> Forall (SoundEntry (t_npoints T)) es -> Sound (set_sp T sn es).
Proof.
  intros [H0 H] Hes. split; [done|]. intros s e. cbn [t_npoints set_sp].
  destruct (String.eqb_spec s sn) as [->|Hn].
  - rewrite set_sp_same. by apply list.Forall_forall.
  - rewrite set_sp_other by done. apply H.
Qed.
Lemma sound_sp T sn : Sound T -> Forall (SoundEntry (t_npoints T)) (t_sp T sn).
Proof. intros [_ H]. apply list.Forall_forall. apply H. Qed.
Definition steady (T T' : traj) : Prop :=
  Sound T' /\ t_npoints T' = t_npoints T /\ forall s, grown (t_npoints T) (t_sp T s) (t_sp T' s).
Lemma steady_set T sn es : Sound T -> Forall (SoundEntry (t_npoints T)) es ->
  grown (t_npoints T) (t_sp T sn) es -> steady T (set_sp T sn es).
Proof.
  intros HS Hes Hg. split; [by apply sound_set|]. split; [done|]. intros s.
  destruct (String.eqb_spec s sn) as [->|Hn]; [by rewrite set_sp_same|]. rewrite set_sp_other by done. apply grown_refl.
Qed.

(** Sampling, entry by entry: a live entry that is not full gets the point of its particle, a dead one is left. *)
Definition sampled1 (get : Z -> res particle) (mk : particle -> datum) (e e' : entry) : Prop :=
  (e_index e = NO_PINDEX /\ e' = e) \/
  (live e /\ exists p, get (e_index e) = Ok p /\ e_index e' = e_index e /\ e_uid e' = e_uid e /\
     points e' = points e ++ [Some (mk p)]).
Lemma rec_charged_shape np get mk es : Forall (SoundEntry np) es -> forall es' b, rec_charged np get mk es = Ok (es', b) ->
  Forall (SoundEntry np) es' /\
  if b then exists l1 e l2 l1', es = l1 ++ e :: l2 /\ es' = l1' ++ e :: l2 /\ Forall2 (sampled1 get mk) l1 l1' /\
       live e /\ (np <= e_len e)%Z
  else Forall2 (sampled1 get mk) es es'.
Proof.
  induction 1 as [|e es He Hes IH]; intros es' b; cbn [rec_charged]; [by intros [= <- <-]|].
  destruct (e_index e =? NO_PINDEX)%Z eqn:El.
  - destruct (rec_charged np get mk es) as [[r1 b1]|]; [|done]. intros [= <- <-].
    destruct (IH r1 b1 eq_refl) as [H1 H2]. split; [by constructor|].
    assert (Hs : sampled1 get mk e e) by (left; split; [lia|done]).
    destruct b1; [|by constructor]. destruct H2 as (l1 & e0 & l2 & l1' & -> & -> & HF & Hl).
    exists (e :: l1), e0, l2, (e :: l1'). split; [done|]. split; [done|]. split; [by constructor|done].
  - destruct (get (e_index e)) as [p|] eqn:Eg; [|done]. destruct (_ <? _)%Z eqn:Ef.
    { intros [= <- <-]. split; [by constructor|]. exists [], e, es, []. split; [done|]. split; [done|].
      split; [constructor|]. unfold live. split; lia. }
    destruct (write_point e _) as [e1|] eqn:Ew; [|done].
    destruct (rec_charged np get mk es) as [[r1 b1]|]; [|done]. intros [= <- <-].
    pose proof (write_point_fields _ _ _ Ew) as (W1 & W2 & _).
    destruct (write_point_inv np e _ e1 He Ew) as (_ & W3 & W4).
    destruct (IH r1 b1 eq_refl) as [H1 H2]. split; [by constructor|].
    assert (Hs : sampled1 get mk e e1) by (right; unfold live; split; [lia|]; eauto 10).
    destruct b1; [|by constructor]. destruct H2 as (l1 & e0 & l2 & l1' & -> & -> & HF & Hl).
    exists (e :: l1), e0, l2, (e1 :: l1'). split; [done|]. split; [done|]. split; [by constructor|done].
Qed.
Lemma rec_neutral_shape np get mk es : Forall (SoundEntry np) es -> forall es', rec_neutral get mk es = Ok es' ->
  Forall (SoundEntry np) es' /\ Forall2 (sampled1 get mk) es es'.
Proof.
  induction 1 as [|e es He Hes IH]; intros es'; cbn [rec_neutral]; [by intros [= <-]|].
  destruct (e_index e =? NO_PINDEX)%Z eqn:El.
  - destruct (rec_neutral get mk es) as [r1|]; [|done]. intros [= <-].
    destruct (IH r1 eq_refl) as [H1 H2]. split; [by constructor|]. constructor; [|done]. left. split; [lia|done].
  - destruct (get (e_index e)) as [p|] eqn:Eg; [|done].
    destruct (write_point e _) as [e1|] eqn:Ew; [|done].
    destruct (rec_neutral get mk es) as [r1|]; [|done]. intros [= <-].
    pose proof (write_point_fields _ _ _ Ew) as (W1 & W2 & _).
    destruct (write_point_inv np e _ e1 He Ew) as (_ & W3 & W4).
    destruct (IH r1 eq_refl) as [H1 H2]. split; [by constructor|]. constructor; [|done].
    right. unfold live. split; [lia|]. eauto 10.
Qed.
Lemma sampled_extends get mk e e' : sampled1 get mk e e' -> extends e e'.
Proof. intros [[_ ->]|(_ & p & _ & _ & _ & H)]; [by left|right; eauto]. Qed.
Lemma sampled_grown np get mk es es' : Forall2 (sampled1 get mk) es es' -> grown np es es'.
Proof.
  intros HF k e Hk. destruct (Forall2_lookup_l _ _ _ _ _ HF Hk) as (e' & He' & Hs). eauto using sampled_extends.
Qed.
Lemma rec_charged_grown np get mk es es' b : Forall (SoundEntry np) es -> rec_charged np get mk es = Ok (es', b) ->
  Forall (SoundEntry np) es' /\ grown np es es'.
Proof.
  intros HS E. destruct (rec_charged_shape np get mk es HS es' b E) as [H1 H2]. split; [done|].
  destruct b; [|by eapply sampled_grown]. destruct H2 as (l1 & e & l2 & l1' & -> & -> & HF & _ & _).
  pose proof (Forall2_length _ _ _ HF) as Hlen. intros k e0 Hk. apply lookup_app_Some in Hk as [Hk|[Hk1 Hk2]].
  - destruct (Forall2_lookup_l _ _ _ _ _ HF Hk) as (e' & He' & Hs). exists e'.
    split; [by apply lookup_app_l_Some|by eapply sampled_extends].
  - exists e0. split; [|by left]. rewrite lookup_app_r by lia. by rewrite <- Hlen.
Qed.
Lemma grown_trans1 np es1 es2 es3 : grown np es1 es2 -> (forall k e, es2 !! k = Some e -> es3 !! k = Some e) -> grown np es1 es3.
Proof. intros H1 H2 k e Hk. destruct (H1 k e Hk) as (e' & He' & Hx). eauto. Qed.

(** Species are visited once, so a species visited before is not touched again. *)
Lemma rec_charged_all_shape get mk sps : NoDup sps -> forall T T' b, Sound T -> rec_charged_all get mk sps T = Ok (T', b) ->
  Sound T' /\ t_npoints T' = t_npoints T /\ t_last T' = t_last T /\
  (forall s, s ∉ sps -> t_sp T' s = t_sp T s) /\
  if b then exists s1 sn s2 l1 e l2 l1', sps = s1 ++ sn :: s2 /\
      (forall s, s ∈ s1 -> Forall2 (sampled1 (get s) mk) (t_sp T s) (t_sp T' s)) /\
      t_sp T sn = l1 ++ e :: l2 /\ t_sp T' sn = l1' ++ e :: l2 /\ Forall2 (sampled1 (get sn) mk) l1 l1' /\
      live e /\ full T e /\
      (forall s, s ∈ s2 -> t_sp T' s = t_sp T s)
  else forall s, s ∈ sps -> Forall2 (sampled1 (get s) mk) (t_sp T s) (t_sp T' s).
Proof.
  induction 1 as [|sn sps Hnin Hnd IH]; intros T T' b HS; cbn [rec_charged_all].
  - intros [= <- <-]. split; [done|]. split; [done|]. split; [done|]. split; [done|]. by intros s ?%elem_of_nil.
  - destruct (rec_charged _ _ _ _) as [[es b1]|] eqn:E; [|done].
    destruct (rec_charged_shape _ _ _ _ (sound_sp T sn HS) es b1 E) as [H1 H2].
    pose proof (sound_set T sn es HS H1) as HS1. destruct b1.
    + intros [= <- <-]. split; [done|]. split; [done|]. split; [done|]. split.
      { intros s Hs. apply set_sp_other. intros ->. apply Hs. left. }
      destruct H2 as (l1 & e & l2 & l1' & Ha & Hb & HF & Hl & Hf).
      exists [], sn, sps, l1, e, l2, l1'. split; [done|]. split; [by intros s ?%elem_of_nil|].
      split; [done|]. split; [by rewrite set_sp_same|]. split; [done|]. split; [done|]. split; [done|].
      intros s Hs. apply set_sp_other. by intros ->.
    + intros Er. destruct (IH _ _ _ HS1 Er) as (I1 & I2 & I3 & I4 & I5).
      split; [done|]. split; [done|]. split; [done|]. split.
      { intros s Hs. rewrite I4 by (intros Hin; apply Hs; by right). apply set_sp_other. intros ->. apply Hs. left. }
      assert (Hsn : t_sp T' sn = es) by (rewrite I4 by done; apply set_sp_same).
      assert (Hoth : forall s, s ∈ sps -> t_sp (set_sp T sn es) s = t_sp T s) by (intros s Hs; apply set_sp_other; by intros ->).
      destruct b.
      * destruct I5 as (s1 & sn' & s2 & l1 & e & l2 & l1' & -> & J1 & J2 & J3 & J4 & J5 & J6 & J7).
        exists (sn :: s1), sn', s2, l1, e, l2, l1'. split; [done|]. split.
        { intros s [->|Hs]%elem_of_cons; [by rewrite Hsn|].
          rewrite <- (Hoth s) by (apply elem_of_app; by left). by apply J1. }
        rewrite <- (Hoth sn') by (apply elem_of_app; right; left).
        split; [done|]. split; [done|]. split; [done|]. split; [done|]. split; [done|].
        intros s Hs. rewrite <- (Hoth s) by (apply elem_of_app; right; by right). by apply J7.
      * intros s [->|Hs]%elem_of_cons; [by rewrite Hsn|]. rewrite <- (Hoth s Hs). by apply I5.
Qed.
Lemma rec_neutral_all_shape get mk sps : NoDup sps -> forall T T', Sound T -> rec_neutral_all get mk sps T = Ok T' ->
  Sound T' /\ t_npoints T' = t_npoints T /\ t_last T' = t_last T /\
  (forall s, s ∉ sps -> t_sp T' s = t_sp T s) /\
  forall s, s ∈ sps -> Forall2 (sampled1 (get s) mk) (t_sp T s) (t_sp T' s).
Proof.
  induction 1 as [|sn sps Hnin Hnd IH]; intros T T' HS; cbn [rec_neutral_all].
  - intros [= <-]. split; [done|]. split; [done|]. split; [done|]. split; [done|]. by intros s ?%elem_of_nil.
  - destruct (rec_neutral _ _ _) as [es|] eqn:E; [|done].
    destruct (rec_neutral_shape _ _ _ _ (sound_sp T sn HS) es E) as [H1 H2].
    pose proof (sound_set T sn es HS H1) as HS1.
    intros Er. destruct (IH _ _ HS1 Er) as (I1 & I2 & I3 & I4 & I5).
    split; [done|]. split; [done|]. split; [done|]. split.
    { intros s Hs. rewrite I4 by (intros Hin; apply Hs; by right). apply set_sp_other. intros ->. apply Hs. left. }
    assert (Hsn : t_sp T' sn = es) by (rewrite I4 by done; apply set_sp_same).
    assert (Hoth : forall s, s ∈ sps -> t_sp (set_sp T sn es) s = t_sp T s) by (intros s Hs; apply set_sp_other; by intros ->).
    intros s [->|Hs]%elem_of_cons; [by rewrite Hsn|]. rewrite <- (Hoth s Hs). by apply I5.
Qed.

(** ** C22 *)
Lemma sampled_all_grown np get mk T T' (sps : list string) s : (forall s, s ∉ sps -> t_sp T' s = t_sp T s) ->
  (forall s, s ∈ sps -> Forall2 (sampled1 (get s) mk) (t_sp T s) (t_sp T' s)) -> grown np (t_sp T s) (t_sp T' s).
Proof.
  intros H1 H2. destruct (decide (s ∈ sps)) as [Hs|Hs]; [by eapply sampled_grown, H2|].
  rewrite H1 by done. apply grown_refl.
Qed.
Lemma sound_map T T' : Sound T -> t_npoints T' = t_npoints T -> (forall s, t_sp T' s = t_sp T s) -> Sound T'.
Proof. intros [H0 H] Hn Hs. split; [by rewrite Hn|]. intros s e. rewrite Hs, Hn. apply H. Qed.
Lemma move_entry np e i : SoundEntry np e -> SoundEntry np (Entry i (e_uid e) (e_len e) (e_data e)).
Proof. done. Qed.

Theorem C22_no_overflow fl T T' : Sound T -> revent fl T T' ->
  Sound T' /\ t_npoints T' = t_npoints T /\
  forall s k e, t_sp T s !! k = Some e -> exists e', t_sp T' s !! k = Some e' /\
    (points e' = points e \/ exists d, points e' = points e ++ [Some d]).
Proof.
  intros HS Hev. change (steady T T').
  destruct Hev as [T sn i uid|T sn fi fo T' E|T sn p fi step time E0 Ex cr T' E|T sn q fi step time dt zE T' E|T ch ne get dE negE Eext step time T' Hnd E].
  - apply steady_set; [done| |].
    + apply Forall_app. split; [by apply sound_sp|]. constructor; [|done]. destruct HS as [H0 _].
      split; [cbn; lia|]. split; [cbn; rewrite replicate_length; lia|]. unfold points. cbn. constructor.
    + intros k e Hk. exists e. split; [by apply lookup_app_l_Some|by left].
  - unfold update_particleId in E. destruct (list_index _ fi) as [i|] eqn:Ei; [|done].
    destruct (t_sp T sn !! i) as [e|] eqn:Ee; [|done]. injection E as <-.
    pose proof (sound_sp T sn HS) as Hall. pose proof (Forall_lookup_1 _ _ _ _ Hall Ee) as He. apply steady_set; [done| |].
    + by apply Forall_insert.
    + eapply grown_insert; [done|]. by left.
  - unfold record_datum in E. destruct (list_index _ fi) as [i|] eqn:Ei; [|done].
    destruct (t_sp T sn !! i) as [e|] eqn:Ee; [|done].
    pose proof (sound_sp T sn HS) as Hall. pose proof (Forall_lookup_1 _ _ _ _ Hall Ee) as He.
    destruct (_ <? _)%Z; [injection E as <-; split; [done|]; split; [done|]; intros s; apply grown_refl|].
    destruct (write_point e _) as [e1|] eqn:Ew; [|done]. injection E as <-.
    destruct (write_point_inv _ _ _ _ He Ew) as (_ & W1 & W2). apply steady_set; [done| |].
    + by apply Forall_insert.
    + eapply grown_insert; [done|]. right. eauto.
  - unfold remove_particleId in E. destruct (list_index _ fi) as [i|] eqn:Ei; [|done].
    destruct (t_sp T sn !! i) as [e|] eqn:Ee; [|done].
    pose proof (sound_sp T sn HS) as Hall. pose proof (Forall_lookup_1 _ _ _ _ Hall Ee) as He.
    destruct (_ <? e_len e)%Z.
    + injection E as <-. apply steady_set; [done|by apply Forall_insert|]. eapply grown_insert; [done|]. by left.
    + destruct (write_point e _) as [e1|] eqn:Ew; [|done]. injection E as <-.
      destruct (write_point_inv _ _ _ _ He Ew) as (_ & W1 & W2). apply steady_set; [done| |].
      * by apply Forall_insert.
      * eapply grown_insert; [done|]. right. eauto.
  - unfold record_trajectory_data in E. destruct (match t_last T with Some _ => _ | None => _ end).
    { injection E as <-. split; [done|]. split; [done|]. intros s. apply grown_refl. }
    apply NoDup_app in Hnd as (Hnd1 & Hdis & Hnd2).
    destruct (rec_charged_all _ _ _ _) as [[T1 b]|] eqn:E1; [|done].
    destruct (rec_charged_all_shape _ _ _ Hnd1 _ _ _ HS E1) as (S1 & N1 & _ & O1 & C1). destruct b.
    + injection E as <-. split; [done|]. split; [done|]. intros s.
      destruct C1 as (s1 & sn & s2 & l1 & e & l2 & l1' & -> & J1 & J2 & J3 & J4 & J5 & J6 & J7).
      destruct (decide (s ∈ s1 ++ sn :: s2)) as [Hs|Hs]; [|rewrite O1 by done; apply grown_refl].
      apply elem_of_app in Hs as [Hs|[->|Hs]%elem_of_cons].
      * by eapply sampled_grown, J1.
      * rewrite J2, J3. intros k e0 Hk. pose proof (Forall2_length _ _ _ J4) as Hlen.
        apply lookup_app_Some in Hk as [Hk|[Hk1 Hk2]].
        -- destruct (Forall2_lookup_l _ _ _ _ _ J4 Hk) as (e' & He' & Hx). exists e'.
           split; [by apply lookup_app_l_Some|by eapply sampled_extends].
        -- exists e0. split; [|by left]. rewrite lookup_app_r by lia. by rewrite <- Hlen.
      * rewrite J7 by done. apply grown_refl.
    + destruct (rec_neutral_all _ _ _ _) as [T2|] eqn:E2; [|done]. injection E as <-.
      destruct (rec_neutral_all_shape _ _ _ Hnd2 _ _ S1 E2) as (S2 & N2 & _ & O2 & C2).
      split; [by eapply sound_map|]. split; [cbn; congruence|]. intros s. cbn.
      destruct (decide (s ∈ ne)) as [Hs|Hs].
      * rewrite <- (O1 s) by (intros ?; by eapply Hdis). by eapply sampled_grown, C2.
      * rewrite O2 by done. by eapply sampled_all_grown.
Qed.

(** Any number of calls: arrays are never overrun, and recorded points stay. *)
Theorem C22_history fl T T' : Sound T -> rtc (revent fl) T T' ->
  Sound T' /\ t_npoints T' = t_npoints T /\
  forall s k e, t_sp T s !! k = Some e -> exists e', t_sp T' s !! k = Some e' /\ points e `prefix_of` points e'.
Proof.
  intros HS Hr. revert HS. induction Hr as [T|T T1 T2 H1 _ IH]; intros HS.
  - split; [done|]. split; [done|]. eauto.
  - destruct (C22_no_overflow fl T T1 HS H1) as (S1 & N1 & G1). destruct (IH S1) as (S2 & N2 & G2).
    split; [done|]. split; [congruence|]. intros s k e Hk. destruct (G1 s k e Hk) as (e1 & Hk1 & Hx).
    destruct (G2 s k e1 Hk1) as (e2 & Hk2 & Hp). exists e2. split; [done|]. etransitivity; [|exact Hp].
    destruct Hx as [->|[d ->]]; [done|]. by apply prefix_app_r.
Qed.

(** A mover pass makes only such calls. *)
Lemma pass_events_gen fl sn hk : MoverOf fl sn hk -> forall xs i kept ch c ys c' T,
  usr c = Some T -> seq_pass hk i kept ch c xs = Ok (ys, c') ->
  exists T', usr c' = Some T' /\ rtc (revent fl) T T'.
Proof.
  intros Hm. induction xs as [|p xs IH]; intros i kept ch c ys c' T HT E; cbn [seq_pass] in E.
  { injection E as <- <-. exists T. split; [done|apply rtc_refl]. }
  destruct (adv hk c i p) as [[q c1]|] eqn:Ea; [|done].
  set (G := fun o : option traj => exists T1, o = Some T1 /\ rtc (revent fl) T T1).
  assert (HG : forall step T0 T' p t E Ex, G T0 -> record_datum T0 sn p i step t E Ex true = Ok T' -> G T').
  { intros step0 T0 T2 p0 t0 E0 Ex0 (T3 & -> & H3) Hr. pose proof (record_datum_frame _ _ _ _ _ _ _ _ _ _ Hr) as (T4 & -> & _).
    exists T4. split; [done|]. eapply rtc_r; [done|]. by econstructor 3. }
  assert (G0 : G (usr c)) by (exists T; auto using rtc_refl).
  assert (G1 : G (usr c1)).
  { destruct Hm.
    + by eapply (charged_identity _ _ _ _ _ _ _ _ _ _ _ _ _ _ _ _ _ _ _ _ G) in Ea as [_ ?]; [|done|apply HG|done].
    + by eapply (neutral_identity _ _ _ _ _ _ _ _ _ _ _ _ _ G) in Ea as [_ ?]; [|done|apply HG|done]. }
  destruct G1 as (T1 & HT1 & HR1).
  assert (Hex : exists step time dt zE, on_keep hk = keep_particle sn /\
    on_drop hk = drop_particle fl sn step time dt zE).
  { destruct Hm; cbn; eauto 10. }
  destruct Hex as (step & time & dt & zE & Hk & Ho).
  destruct (deleted hk q).
  - rewrite Ho in E. unfold drop_particle in E. rewrite HT1 in E. destruct (is_traj p).
    + destruct (remove_particleId _ _ _ _ _ _ _ _ _) as [T2|] eqn:Er; [|done].
      apply (IH _ _ _ _ _ _ T2) in E as (T3 & HT3 & HR3); [|done]. exists T3. split; [done|].
      etransitivity; [exact HR1|]. eapply rtc_l; [by econstructor 4|done].
    + apply (IH _ _ _ _ _ _ T1) in E as (T3 & HT3 & HR3); [|done]. exists T3. split; [done|]. by etransitivity.
  - rewrite Hk in E. unfold keep_particle in E. rewrite HT1 in E. destruct (is_traj q && ch).
    + destruct (update_particleId _ _ _ _) as [T2|] eqn:Er; [|done].
      apply (IH _ _ _ _ _ _ T2) in E as (T3 & HT3 & HR3); [|done]. exists T3. split; [done|].
      etransitivity; [exact HR1|]. eapply rtc_l; [by econstructor 2|done].
    + apply (IH _ _ _ _ _ _ T1) in E as (T3 & HT3 & HR3); [|done]. exists T3. split; [done|]. by etransitivity.
Qed.
Theorem C22_through_movers fl sn (L : Z) s xs hk c s' c' T : (1 <= L)%Z ->
  Reachable L s -> Stores s xs -> MoverOf fl sn hk -> usr c = Some T -> Sound T ->
  guarded_mover (py_ops particle) hk s c = Ok (s', c') ->
  exists T', usr c' = Some T' /\ Sound T' /\ t_npoints T' = t_npoints T /\
    forall s k e, t_sp T s !! k = Some e -> exists e', t_sp T' s !! k = Some e' /\ points e `prefix_of` points e'.
Proof.
  intros HL HR Hs Hm HT HS E. pose proof (C04_pass_is_sequential L s xs hk c HL HR Hs) as H.
  destruct (seq_pass hk 0 [] false c xs) as [[ys c1]|e] eqn:Ep; [|congruence].
  destruct H as (s1 & E1 & _). rewrite E in E1. injection E1 as <- <-.
  destruct (pass_events_gen fl sn hk Hm _ _ _ _ _ _ _ T HT Ep) as (T' & HT' & Hr). exists T'. split; [done|].
  by apply (C22_history fl).
Qed.

(** What one recording call does: exactly one point, unless the trajectory is full; the only failure is an
    index that is not in the list. *)
Theorem C22_datum_appends_one T sn p fi step time E Ex cr : Sound T ->
  match record_datum (Some T) sn p fi step time E Ex cr with
  | Raise e => e = ValueError /\ fi ∉ map e_index (t_sp T sn)
  | Ok None => False
  | Ok (Some T') => exists k e, t_sp T sn !! k = Some e /\ e_index e = fi /\
      ((full T e /\ T' = T) \/
       (~ full T e /\ exists e', T' = set_sp T sn (<[k:=e']> (t_sp T sn)) /\ e_index e' = fi /\ e_uid e' = e_uid e /\
          points e' = points e ++ [Some (Datum step time (if cr then px0 p else px p) p E Ex)]))
  end.
Proof.
  intros HS. unfold record_datum. destruct (list_index _ fi) as [i|e] eqn:Ei.
  - apply list_index_ok in Ei as Hi. rewrite list_lookup_fmap in Hi.
    destruct (t_sp T sn !! i) as [e|] eqn:Ee; [|done]. cbn in Hi. injection Hi as Hi.
    pose proof (Forall_lookup_1 _ _ _ _ (sound_sp T sn HS) Ee) as He.
    destruct (_ <? _)%Z eqn:Ef.
    + exists i, e. split; [done|]. split; [done|]. left. unfold full. split; [lia|done].
    + destruct (write_point_ok _ e (Datum step time (if cr then px0 p else px p) p E Ex) He) as (e' & -> & W1 & W2 & W3 & W4); [lia|].
      exists i, e. split; [done|]. split; [done|]. right. unfold full. split; [lia|]. exists e'.
      split; [done|]. split; [congruence|]. done.
  - assert (Hn : forall l, list_index l fi = Raise e -> e = ValueError /\ fi ∉ l).
    { intros l. induction l as [|y l IHl]; cbn [list_index]; [intros [= <-]; split; [done|apply not_elem_of_nil]|].
      destruct (y =? fi)%Z eqn:Ey; [done|]. destruct (list_index l fi) as [k|e0]; [done|].
      intros [= ->]. destruct (IHl eq_refl) as [-> Hl]. split; [done|]. apply not_elem_of_cons. split; [lia|done]. }
    by apply Hn.
Qed.
Lemma list_index_raise l fi e : list_index l fi = Raise e -> e = ValueError /\ fi ∉ l.
Proof.
  induction l as [|y l IHl]; cbn [list_index]; [intros [= <-]; split; [done|apply not_elem_of_nil]|].
  destruct (y =? fi)%Z eqn:Ey; [done|]. destruct (list_index l fi) as [k|e0]; [done|].
  intros [= ->]. destruct (IHl eq_refl) as [-> Hl]. split; [done|]. apply not_elem_of_cons. split; [lia|done].
Qed.
(** A removal closes the entry, full or not, and adds the last point unless it is full; that point carries the
    step and time of the next step when this step was sampled already. *)
Theorem C22_remove_closes fl T sn q fi step time dt zE : Sound T ->
  match remove_particleId fl T sn q fi step time dt zE with
  | Raise e => e = ValueError /\ fi ∉ map e_index (t_sp T sn)
  | Ok T' => exists k e e', t_sp T sn !! k = Some e /\ e_index e = fi /\
      T' = set_sp T sn (<[k:=e']> (t_sp T sn)) /\ e_index e' = NO_PINDEX /\ e_uid e' = e_uid e /\
      (full T e -> points e' = points e) /\
      (~ full T e -> t_last T <> Some step -> points e' = points e ++ [Some (Datum step time (px q) q zE zE)]) /\
      (~ full T e -> t_last T = Some step -> points e' = points e ++ [Some (Datum (step + 1) (fl (time + dt)) (px q) q zE zE)])
  end.
Proof.
  intros HS. unfold remove_particleId. cbv zeta. destruct (list_index _ fi) as [i|e] eqn:Ei; [|by apply list_index_raise].
  apply list_index_ok in Ei as Hi. rewrite list_lookup_fmap in Hi.
  destruct (t_sp T sn !! i) as [e|] eqn:Ee; [|done]. cbn in Hi. injection Hi as Hi.
  pose proof (Forall_lookup_1 _ _ _ _ (sound_sp T sn HS) Ee) as He.
  destruct (_ <? e_len e)%Z eqn:Ef.
  - exists i, e, (Entry NO_PINDEX (e_uid e) (e_len e) (e_data e)). unfold full. do 5 (split; [done|]).
    split; [done|]. split; intros; lia.
  - match goal with |- context [write_point e ?d] => destruct (write_point_ok _ e d He) as (e' & -> & W1 & W2 & W3 & W4); [lia|] end.
    exists i, e, (Entry NO_PINDEX (e_uid e') (e_len e') (e_data e')). do 4 (split; [done|]). split; [done|].
    unfold full. split; [intros; lia|]. change (points (Entry NO_PINDEX (e_uid e') (e_len e') (e_data e'))) with (points e').
    rewrite W4. split; intros _ Hl.
    + destruct (t_last T) as [l|]; [|done]. replace (step =? l)%Z with false; [done|].
      symmetry. apply Z.eqb_neq. congruence.
    + rewrite Hl. by rewrite Z.eqb_refl.
Qed.

(** In a mover pass: the trajectory of a deleted particle is closed, and its last point is the particle as it was when
    it was deleted, unless the array is full. *)
Lemma mover_adv_traj fl sn hk (P : traj -> Prop) c i p q c1 T : MoverOf fl sn hk ->
  (forall T p step t E Ex T', P T -> record_datum (Some T) sn p i step t E Ex true = Ok (Some T') -> P T') ->
  usr c = Some T -> P T -> adv hk c i p = Ok (q, c1) -> exists T1, usr c1 = Some T1 /\ P T1.
Proof.
  intros Hm HP HT H0 Ea. set (G := fun o : option traj => exists T1, o = Some T1 /\ P T1).
  assert (HG : forall step T0 T' p t E Ex, G T0 -> record_datum T0 sn p i step t E Ex true = Ok T' -> G T').
  { intros step0 T0 T2 p0 t0 E0 Ex0 (T3 & -> & H3) Hr. pose proof (record_datum_frame _ _ _ _ _ _ _ _ _ _ Hr) as (T4 & -> & _).
    exists T4. split; [done|]. by eapply HP. }
  assert (G0 : G (usr c)) by (by exists T).
  destruct Hm.
  + by eapply (charged_identity _ _ _ _ _ _ _ _ _ _ _ _ _ _ _ _ _ _ _ _ G) in Ea as [_ ?]; [|done|apply HG|done].
  + by eapply (neutral_identity _ _ _ _ _ _ _ _ _ _ _ _ _ G) in Ea as [_ ?]; [|done|apply HG|done].
Qed.
Lemma mover_parts fl sn hk : MoverOf fl sn hk -> exists step time dt zE, deleted hk = is_deleted /\ on_keep hk = keep_particle sn /\
    on_drop hk = drop_particle fl sn step time dt zE.
Proof. intros []; cbn; eauto 10. Qed.
Lemma datum_event (fl : R -> R) T sn p i st t E Ex T' : Sound T -> record_datum (Some T) sn p i st t E Ex true = Ok (Some T') ->
  Sound T' /\ t_npoints T' = t_npoints T.
Proof.
  intros HS Er. assert (Hev : revent fl T T') by (by econstructor 3).
  destruct (C22_no_overflow fl T T' HS Hev) as (? & ? & _). done.
Qed.
(** What the rest of a pass does to the entries that it does not concern. *)
Definition spared (i : Z) (e : entry) : Prop := (e_index e < i)%Z.
Lemma update_at T sn fi fo T' : update_particleId T sn fi fo = Ok T' ->
  exists k e, t_sp T sn !! k = Some e /\ e_index e = fi /\ T' = set_sp T sn (<[k:=Entry fo (e_uid e) (e_len e) (e_data e)]> (t_sp T sn)).
Proof.
  unfold update_particleId. destruct (list_index _ fi) as [k0|] eqn:Ei; [|done].
  apply list_index_ok in Ei as Hi0. rewrite list_lookup_fmap in Hi0.
  destruct (t_sp T sn !! k0) as [e0|] eqn:Ee; [|done]. intros [= <-]. cbn in Hi0. injection Hi0 as Hi0. eauto.
Qed.
Lemma pass_spared fl sn hk k e : MoverOf fl sn hk -> forall xs i kept ch c ys c' T,
  spared i e -> usr c = Some T -> Sound T -> t_sp T sn !! k = Some e -> seq_pass hk i kept ch c xs = Ok (ys, c') ->
  exists T', usr c' = Some T' /\ t_npoints T' = t_npoints T /\ t_sp T' sn !! k = Some e.
Proof.
  intros Hm. destruct (mover_parts fl sn hk Hm) as (step & time & dt & zE & Hdel & Hkeep & Hdrop).
  induction xs as [|p xs IH]; intros i kept ch c ys c' T Hi HT HS He E; cbn [seq_pass] in E.
  { injection E as <- <-. by exists T. }
  destruct (adv hk c i p) as [[q c1]|] eqn:Ea; [|done]. unfold spared in *.
  destruct (mover_adv_traj fl sn hk (fun T1 => Sound T1 /\ t_npoints T1 = t_npoints T /\ t_sp T1 sn !! k = Some e) c i p q c1 T Hm)
    as (T1 & HT1 & HS1 & N1 & He1); [|done..|].
  { intros T0 p0 st t E0 Ex T' (HS0 & N0 & Hk0) Er. destruct (datum_event fl _ _ _ _ _ _ _ _ _ HS0 Er) as [HS' N'].
    split; [done|]. split; [congruence|].
    pose proof (C22_datum_appends_one T0 sn p0 i st t E0 Ex true HS0) as H. rewrite Er in H.
    destruct H as (k0 & e0 & Hk1 & Hi1 & [[_ ->]|(_ & e' & -> & _)]); [done|]. rewrite set_sp_same.
    rewrite list_lookup_insert_ne; [done|]. intros ->. rewrite Hk0 in Hk1. injection Hk1 as <-. lia. }
  assert (Hw : forall T2, revent fl T1 T2 -> t_sp T2 sn !! k = Some e -> forall ch kept,
    seq_pass hk (i + 1) kept ch (TCtx (scr c1) (Some T2)) xs = Ok (ys, c') ->
    exists T', usr c' = Some T' /\ t_npoints T' = t_npoints T /\ t_sp T' sn !! k = Some e).
  { intros T2 Hev Hk2 ch0 kept0 E0. destruct (C22_no_overflow fl T1 T2 HS1 Hev) as (HS2 & N2 & _).
    destruct (IH (i + 1)%Z _ _ (TCtx (scr c1) (Some T2)) _ _ T2 ltac:(lia) eq_refl HS2 Hk2 E0) as (T' & ? & ? & ?). exists T'. split; [done|]. split; [congruence|done]. }
  assert (Hs : forall ch kept, seq_pass hk (i + 1) kept ch c1 xs = Ok (ys, c') ->
    exists T', usr c' = Some T' /\ t_npoints T' = t_npoints T /\ t_sp T' sn !! k = Some e).
  { intros ch0 kept0 E0. destruct (IH (i + 1)%Z _ _ _ _ _ T1 ltac:(lia) HT1 HS1 He1 E0) as (T' & ? & ? & ?).
    exists T'. split; [done|]. split; [congruence|done]. }
  rewrite Hdel in E. destruct (is_deleted q).
  - rewrite Hdrop in E. unfold drop_particle in E. rewrite HT1 in E. destruct (is_traj p); [|by eapply Hs].
    destruct (remove_particleId _ _ _ _ _ _ _ _ _) as [T2|] eqn:Er; [|done]. eapply Hw; [by econstructor 4| |exact E].
    pose proof (C22_remove_closes fl T1 sn q i step time dt zE HS1) as H. rewrite Er in H.
    destruct H as (k0 & e0 & e' & Hk0 & Hi0 & -> & _). rewrite set_sp_same.
    rewrite list_lookup_insert_ne; [done|]. intros ->. rewrite He1 in Hk0. injection Hk0 as <-. lia.
  - rewrite Hkeep in E. unfold keep_particle in E. rewrite HT1 in E. destruct (is_traj q && ch); [|by eapply Hs].
    destruct (update_particleId _ _ _ _) as [T2|] eqn:Er; [|done]. eapply Hw; [by econstructor 2| |exact E].
    destruct (update_at _ _ _ _ _ Er) as (k0 & e0 & Ee & Hi0 & ->).
    rewrite set_sp_same. rewrite list_lookup_insert_ne; [done|]. intros ->. rewrite He1 in Ee. injection Ee as <-. lia.
Qed.
(** Different entries for the particles still to come. *)
Definition ahead (i : Z) (es : list entry) : Prop :=
  forall a b e1 e2, es !! a = Some e1 -> es !! b = Some e2 -> e_index e1 = e_index e2 -> (i <= e_index e1)%Z -> a = b.
Lemma ahead_insert i es k e e' : ahead i es -> es !! k = Some e -> (e_index e' = e_index e \/ (e_index e' < i)%Z) ->
  ahead i (<[k:=e']> es).
Proof.
  intros Ha Hk He' a b e1 e2 H1 H2 Heq Hle. pose proof (lookup_lt_Some _ _ _ Hk) as Hlt.
  destruct (decide (a = k)) as [->|Hak]; [rewrite list_lookup_insert in H1 by done; injection H1 as <-|rewrite list_lookup_insert_ne in H1 by done];
  (destruct (decide (b = k)) as [->|Hbk]; [rewrite list_lookup_insert in H2 by done; injection H2 as <-|rewrite list_lookup_insert_ne in H2 by done]); [done|..].
  - destruct He' as [He'|He']; [|lia]. apply (Ha k b e e2); [done|done|congruence|congruence].
  - destruct He' as [He'|He']; [|lia]. apply (Ha a k e1 e); [done|done|congruence|done].
  - by apply (Ha a b e1 e2).
Qed.
Lemma ahead_weaken i j es : (i <= j)%Z -> ahead i es -> ahead j es.
Proof. intros Hij Ha a b e1 e2 H1 H2 H3 H4. apply (Ha a b e1 e2); [done..|lia]. Qed.

Lemma pass_last_point fl sn hk k p : MoverOf fl sn hk -> is_traj p = true -> forall xs (j : nat) i kept ch c ys c' T e,
  usr c = Some T -> Sound T -> ahead i (t_sp T sn) -> (0 <= i)%Z -> (Z.of_nat (length kept) <= i)%Z ->
  t_sp T sn !! k = Some e -> e_index e = (i + Z.of_nat j)%Z -> xs !! j = Some p ->
  seq_pass hk i kept ch c xs = Ok (ys, c') ->
  exists c0 q c1 T' e', adv hk c0 (i + Z.of_nat j) p = Ok (q, c1) /\ usr c' = Some T' /\ t_sp T' sn !! k = Some e' /\
    (is_deleted q = true -> e_index e' = NO_PINDEX /\
       (full T' e' \/ exists d, list.last (points e') = Some (Some d) /\ d_x d = px q /\ d_p d = q)).
Proof.
  intros Hm Hfl. destruct (mover_parts fl sn hk Hm) as (step & time & dt & zE & Hdel & Hkeep & Hdrop).
  induction xs as [|p0 xs IH]; intros j i kept ch c ys c' T e HT HS Ha Hi Hkl He Hie Hj E; [done|].
  cbn [seq_pass] in E. destruct (adv hk c i p0) as [[q c1]|] eqn:Eadv; [|done].
  destruct (mover_adv_traj fl sn hk (fun T1 => Sound T1 /\ ahead i (t_sp T1 sn) /\ exists e1, t_sp T1 sn !! k = Some e1 /\ e_index e1 = e_index e) c i p0 q c1 T Hm)
    as (T1 & HT1 & HS1 & Ha1 & e1 & He1 & Hi1); [|done|by eauto|done|].
  { intros T0 p1 st t E0 Ex T' (HS0 & Ha0 & e1 & Hk0 & Hi0) Er. destruct (datum_event fl _ _ _ _ _ _ _ _ _ HS0 Er) as [HS' _].
    split; [done|]. pose proof (C22_datum_appends_one T0 sn p1 i st t E0 Ex true HS0) as H. rewrite Er in H.
    destruct H as (k0 & e0 & Hk1 & Hi1 & [[_ ->]|(_ & e' & -> & Hi' & _)]); [by eauto|]. rewrite set_sp_same.
    split; [eapply ahead_insert; [done|done|left; congruence]|].
    destruct (decide (k0 = k)) as [->|Hn].
    - rewrite list_lookup_insert by (by eapply lookup_lt_Some). exists e'. split; [done|]. rewrite Hk0 in Hk1. injection Hk1 as <-. congruence.
    - rewrite list_lookup_insert_ne by done. eauto. }
  destruct j as [|j]; cbn in Hj.
  - injection Hj as ->. rewrite Z.add_0_r in *. exists c, q, c1. rewrite Hdel in E. destruct (is_deleted q) eqn:Ed.
    + rewrite Hdrop in E. unfold drop_particle in E. rewrite HT1, Hfl in E.
      destruct (remove_particleId _ _ _ _ _ _ _ _ _) as [T2|] eqn:Er; [|done].
      assert (Hev : revent fl T1 T2) by (by econstructor 4). destruct (C22_no_overflow fl T1 T2 HS1 Hev) as (HS2 & N2 & _).
      pose proof (C22_remove_closes fl T1 sn q i step time dt zE HS1) as H. rewrite Er in H.
      destruct H as (k0 & e0 & e' & Hk0 & Hi0 & -> & Hd' & _ & Hf & Hn1 & Hn2).
      assert (k0 = k) as -> by (apply (Ha1 k0 k e0 e1); [done|done|lia|lia]).
      assert (Hk' : t_sp (set_sp T1 sn (<[k:=e']> (t_sp T1 sn))) sn !! k = Some e').
      { rewrite set_sp_same. apply list_lookup_insert. by eapply lookup_lt_Some. }
      assert (Hspare : spared (i + 1) e') by (unfold spared; rewrite Hd'; unfold NO_PINDEX; lia).
      destruct (pass_spared fl sn hk k e' Hm _ _ _ _ (TCtx (scr c1) (Some (set_sp T1 sn (<[k:=e']> (t_sp T1 sn))))) _ _ (set_sp T1 sn (<[k:=e']> (t_sp T1 sn))) Hspare eq_refl HS2 Hk' E) as (T' & HT' & N' & He').
      exists T', e'. split; [done|]. split; [done|]. split; [done|]. intros _. split; [done|].
      destruct (decide (t_npoints T1 <= e_len e0)%Z) as [Hfull|Hroom].
      * left. specialize (Hf Hfull). unfold full. rewrite N'. cbn [t_npoints set_sp].
        assert (Hso : SoundEntry (t_npoints T1) e') by (apply (Forall_lookup_1 _ _ k) with (1 := sound_sp _ sn HS2); done).
        assert (Hso0 : SoundEntry (t_npoints T1) e0) by (apply (Forall_lookup_1 _ _ k) with (1 := sound_sp _ sn HS1); done).
        pose proof (f_equal length Hf) as Hl. unfold points in Hl. rewrite !take_length in Hl.
        destruct Hso as (? & ? & _), Hso0 as (? & ? & _). lia.
      * right. destruct (decide (t_last T1 = Some step)) as [Hl|Hl].
        -- eexists. rewrite (Hn2 Hroom Hl), last_snoc. done.
        -- eexists. rewrite (Hn1 Hroom Hl), last_snoc. done.
    + assert (Hrest : exists T' e', usr c' = Some T' /\ t_sp T' sn !! k = Some e').
      { rewrite Hkeep in E. unfold keep_particle in E. rewrite HT1 in E. destruct (is_traj q && ch).
        - destruct (update_particleId _ _ _ _) as [T2|] eqn:Er; [|done].
          assert (Hev : revent fl T1 T2) by (by econstructor 2). destruct (C22_no_overflow fl T1 T2 HS1 Hev) as (HS2 & N2 & Hg).
          destruct (Hg sn k e1 He1) as (e2 & He2 & _).
          destruct (update_at _ _ _ _ _ Er) as (k0 & e0 & Ee & Hi0 & ->).
          assert (k0 = k) as -> by (apply (Ha1 k0 k e0 e1); [done|done|lia|lia]).
          assert (Hsp : spared (i + 1) e2).
          { rewrite set_sp_same, list_lookup_insert in He2 by (by eapply lookup_lt_Some). injection He2 as <-. unfold spared. cbn. lia. }
          destruct (pass_spared fl sn hk k e2 Hm _ _ _ _ (TCtx (scr c1) (Some _)) _ _ _ Hsp eq_refl HS2 He2 E) as (T' & HT' & _ & He'). eauto.
        - assert (Hsp : spared (i + 1) e1) by (unfold spared; lia).
          destruct (pass_spared fl sn hk k e1 Hm _ _ _ _ _ _ _ _ Hsp HT1 HS1 He1 E) as (T' & HT' & _ & He'). eauto. }
      destruct Hrest as (T' & e' & HT' & He'). exists T', e'. split; [done|]. split; [done|]. split; [done|]. done.
  - replace (i + Z.of_nat (S j))%Z with ((i + 1) + Z.of_nat j)%Z in * by lia.
    assert (Hgo : forall T2 ch0 kept0 c2 e2, usr c2 = Some T2 -> Sound T2 -> ahead (i + 1) (t_sp T2 sn) ->
      (Z.of_nat (length kept0) <= i + 1)%Z -> t_sp T2 sn !! k = Some e2 -> e_index e2 = e_index e ->
      seq_pass hk (i + 1) kept0 ch0 c2 xs = Ok (ys, c') ->
      exists c0 q c1 T' e', adv hk c0 (i + 1 + Z.of_nat j) p = Ok (q, c1) /\ usr c' = Some T' /\ t_sp T' sn !! k = Some e' /\
        (is_deleted q = true -> e_index e' = NO_PINDEX /\
          (full T' e' \/ exists d, list.last (points e') = Some (Some d) /\ d_x d = px q /\ d_p d = q))).
    { intros T2 ch0 kept0 c2 e2 A1 A2 A3 A4 A5 A6 A7. eapply (IH j (i + 1)%Z); try done; [lia|congruence]. }
    rewrite Hdel in E. destruct (is_deleted q) eqn:Ed.
    + rewrite Hdrop in E. unfold drop_particle in E. rewrite HT1 in E. destruct (is_traj p0).
      * destruct (remove_particleId _ _ _ _ _ _ _ _ _) as [T2|] eqn:Er; [|done].
        assert (Hev : revent fl T1 T2) by (by econstructor 4). destruct (C22_no_overflow fl T1 T2 HS1 Hev) as (HS2 & N2 & _).
        pose proof (C22_remove_closes fl T1 sn q i step time dt zE HS1) as H. rewrite Er in H.
        destruct H as (k0 & e0 & e' & Hk0 & Hi0 & -> & Hd' & _).
        unshelve eapply (fun T2 A1 A2 A3 A4 A5 A6 => Hgo T2 _ _ _ e1 A1 A2 A3 A4 A5 A6 E); [|reflexivity|done| |lia| |done].
        -- rewrite set_sp_same. eapply ahead_insert; [by eapply ahead_weaken, Ha1; lia|done|]. right. rewrite Hd'. unfold NO_PINDEX. lia.
        -- rewrite set_sp_same, list_lookup_insert_ne; [done|]. intros ->. rewrite He1 in Hk0. injection Hk0 as <-. lia.
      * unshelve eapply (fun T2 A1 A2 A3 A4 A5 A6 => Hgo T2 _ _ _ e1 A1 A2 A3 A4 A5 A6 E); [|exact HT1|done| |lia|done|done]. eapply ahead_weaken; [|done]. lia.
    + rewrite Hkeep in E. unfold keep_particle in E. rewrite HT1 in E.
      assert (Hl1 : (Z.of_nat (length (kept ++ [q])) <= i + 1)%Z) by (rewrite app_length; cbn; lia).
      destruct (is_traj q && ch).
      * destruct (update_particleId _ _ _ _) as [T2|] eqn:Er; [|done].
        assert (Hev : revent fl T1 T2) by (by econstructor 2). destruct (C22_no_overflow fl T1 T2 HS1 Hev) as (HS2 & N2 & _).
        destruct (update_at _ _ _ _ _ Er) as (k0 & e0 & Ee & Hi0 & ->).
        unshelve eapply (fun T2 A1 A2 A3 A4 A5 A6 => Hgo T2 _ _ _ e1 A1 A2 A3 A4 A5 A6 E); [|reflexivity|done| |done| |done].
        -- rewrite set_sp_same. eapply ahead_insert; [by eapply ahead_weaken, Ha1; lia|done|]. right. cbn. lia.
        -- rewrite set_sp_same, list_lookup_insert_ne; [done|]. intros ->. rewrite He1 in Ee. injection Ee as <-. lia.
      * unshelve eapply (fun T2 A1 A2 A3 A4 A5 A6 => Hgo T2 _ _ _ e1 A1 A2 A3 A4 A5 A6 E); [|exact HT1|done| |done|done|done]. eapply ahead_weaken; [|done]. lia.
Qed.

Theorem C22_deleted_last_point fl sn (L : Z) s xs hk c s' c' T k e i p : (1 <= L)%Z ->
  Reachable L s -> Stores s xs -> MoverOf fl sn hk -> usr c = Some T -> Sound T -> Indexed xs (map e_index (t_sp T sn)) ->
  guarded_mover (py_ops particle) hk s c = Ok (s', c') ->
  t_sp T sn !! k = Some e -> e_index e = Z.of_nat i -> xs !! i = Some p ->
  exists c0 q c1 T' e', adv hk c0 (Z.of_nat i) p = Ok (q, c1) /\ usr c' = Some T' /\ t_sp T' sn !! k = Some e' /\
    (is_deleted q = true -> e_index e' = NO_PINDEX /\
       (full T' e' \/ exists d, list.last (points e') = Some (Some d) /\ d_x d = px q /\ d_p d = q)).
Proof.
  intros HL HR Hs Hm HT HS HI E Hk Hi Hp. pose proof (C04_pass_is_sequential L s xs hk c HL HR Hs) as H.
  destruct (seq_pass hk 0 [] false c xs) as [[ys c1]|ex] eqn:Ep; [|congruence].
  destruct H as (s1 & E1 & _). rewrite E in E1. injection E1 as <- <-. destruct HI as (Hnd & Hlive & _).
  assert (Hfl : is_traj p = true).
  { destruct (Hlive (e_index e)) as (_ & p' & Hp' & Hf').
    - apply elem_of_list_fmap. exists e. split; [done|]. by eapply elem_of_list_lookup_2.
    - unfold NO_PINDEX. lia.
    - rewrite Hi, Nat2Z.id in Hp'. congruence. }
  apply (pass_last_point fl sn hk k p Hm Hfl xs i 0 [] false c ys c' T e); try done.
  intros a b e1 e2 H1 H2 Heq Hle. apply (Hnd a b (e_index e1)).
  - by rewrite list_lookup_fmap, H1.
  - rewrite list_lookup_fmap, H2. cbn. by rewrite Heq.
  - unfold NO_PINDEX. lia.
Qed.

(** ** C23 *)

(** The point of a periodic sample: position and record of the particle, minus the negative field (zero without
    a field), and the external field. *)
Definition charged_point (fl : R -> R) (dE : nat) (negE Eext : option (particle -> vec)) (step : Z) (time : R)
    (p : particle) : datum :=
  Datum step time (px p) p
    (map (fun x => fl (x * -1)) (match negE with Some g => g p | None => replicate dE 0 end))
    (match Eext with Some g => g p | None => replicate dE 0 end).
Definition neutral_point (step : Z) (time : R) (p : particle) : datum := Datum step time (px p) p [] [].
(** Every live entry of the list has room and leads to a particle. *)
Definition roomy (T : traj) (get : Z -> res particle) (es : list entry) : Prop :=
  forall e, e ∈ es -> live e -> ~ full T e /\ exists p, get (e_index e) = Ok p.

Lemma rec_charged_room T get mk es : Forall (SoundEntry (t_npoints T)) es -> roomy T get es ->
  exists es', rec_charged (t_npoints T) get mk es = Ok (es', false).
Proof.
  induction 1 as [|e es He Hes IH]; intros Hr; cbn [rec_charged]; [eauto|].
  destruct IH as [es' ->]; [intros e0 H0; apply Hr; by right|].
  destruct (_ =? _)%Z eqn:El; [eauto|]. destruct (Hr e) as (Hf & p & Hp); [left|unfold live; lia|].
  rewrite Hp. unfold full in Hf. replace (_ <? _)%Z with false by lia.
  destruct (write_point_ok _ e (mk p) He) as (e1 & -> & _); [lia|]. eauto.
Qed.
Lemma rec_neutral_room T get mk es : Forall (SoundEntry (t_npoints T)) es -> roomy T get es ->
  exists es', rec_neutral get mk es = Ok es'.
Proof.
  induction 1 as [|e es He Hes IH]; intros Hr; cbn [rec_neutral]; [eauto|].
  destruct IH as [es' ->]; [intros e0 H0; apply Hr; by right|].
  destruct (_ =? _)%Z eqn:El; [eauto|]. destruct (Hr e) as (Hf & p & Hp); [left|unfold live; lia|].
  rewrite Hp. unfold full in Hf.
  destruct (write_point_ok _ e (mk p) He) as (e1 & -> & _); [lia|]. eauto.
Qed.
Lemma rec_charged_stop T get mk l1 e l2 p : Forall (SoundEntry (t_npoints T)) l1 -> roomy T get l1 ->
  live e -> full T e -> get (e_index e) = Ok p ->
  exists l1', rec_charged (t_npoints T) get mk (l1 ++ e :: l2) = Ok (l1' ++ e :: l2, true) /\ Forall2 (sampled1 get mk) l1 l1'.
Proof.
  intros H1 Hr Hl Hf Hp. induction H1 as [|e0 l1 He Hes IH]; cbn [rec_charged app].
  - exists []. unfold live, full in *. replace (_ =? _)%Z with false by lia. rewrite Hp.
    by replace (_ <? _)%Z with true by lia.
  - destruct IH as (l1' & -> & HF); [intros e1 He1; apply Hr; by right|].
    destruct (_ =? _)%Z eqn:El.
    + exists (e0 :: l1'). split; [done|]. constructor; [|done]. left. split; [lia|done].
    + destruct (Hr e0) as (Hf0 & p0 & Hp0); [left|unfold live; lia|].
      rewrite Hp0. unfold full in Hf0. replace (_ <? _)%Z with false by lia.
      destruct (write_point_ok _ e0 (mk p0) He) as (e1 & -> & _ & W2 & W3 & W4); [lia|].
      exists (e1 :: l1'). split; [done|]. constructor; [|done]. right. unfold live. split; [lia|]. eauto 10.
Qed.
Lemma rec_neutral_stop T get mk l1 e l2 p : Forall (SoundEntry (t_npoints T)) (l1 ++ e :: l2) -> roomy T get l1 ->
  live e -> full T e -> get (e_index e) = Ok p -> rec_neutral get mk (l1 ++ e :: l2) = Raise IndexError.
Proof.
  intros H1 Hr Hl Hf Hp. induction l1 as [|e0 l1 IH]; cbn [rec_neutral app].
  - unfold live, full in *. replace (_ =? _)%Z with false by lia. rewrite Hp.
    by erewrite write_point_full by (try exact Hf; by inversion H1).
  - inversion_clear H1. rewrite IH; [|done|intros e1 He1; apply Hr; by right].
    destruct (_ =? _)%Z eqn:El; [done|].
    destruct (Hr e0) as (Hf0 & p0 & Hp0); [left|unfold live; lia|].
    rewrite Hp0. unfold full in Hf0. by destruct (write_point_ok _ e0 (mk p0) H) as (e1 & -> & _); [lia|].
Qed.
Lemma rec_charged_all_room get mk sps : NoDup sps -> forall T, Sound T ->
  (forall s, s ∈ sps -> roomy T (get s) (t_sp T s)) -> exists T', rec_charged_all get mk sps T = Ok (T', false).
Proof.
  induction 1 as [|sn sps Hnin Hnd IH]; intros T HS Hr; cbn [rec_charged_all]; [eauto|].
  destruct (rec_charged_room T (get sn) mk (t_sp T sn)) as [es E]; [by apply sound_sp|apply Hr; left|]. rewrite E.
  apply rec_charged_shape in E as [E1 _]; [|by apply sound_sp]. apply IH; [by apply sound_set|].
  intros s Hs. rewrite set_sp_other by (by intros ->). apply Hr. by right.
Qed.
Lemma rec_neutral_all_room get mk sps : NoDup sps -> forall T, Sound T ->
  (forall s, s ∈ sps -> roomy T (get s) (t_sp T s)) -> exists T', rec_neutral_all get mk sps T = Ok T'.
Proof.
  induction 1 as [|sn sps Hnin Hnd IH]; intros T HS Hr; cbn [rec_neutral_all]; [eauto|].
  destruct (rec_neutral_room T (get sn) mk (t_sp T sn)) as [es E]; [by apply sound_sp|apply Hr; left|]. rewrite E.
  apply (rec_neutral_shape (t_npoints T)) in E as [E1 _]; [|by apply sound_sp]. apply IH; [by apply sound_set|].
  intros s Hs. rewrite set_sp_other by (by intros ->). apply Hr. by right.
Qed.
Lemma rec_charged_all_app get mk s1 s2 : forall T T1, rec_charged_all get mk s1 T = Ok (T1, false) ->
  rec_charged_all get mk (s1 ++ s2) T = rec_charged_all get mk s2 T1.
Proof.
  induction s1 as [|sn s1 IH]; intros T T1; cbn [rec_charged_all app]; [by intros [= <-]|].
  destruct (rec_charged _ _ _ _) as [[es b]|]; [|done]. destruct b; [done|]. apply IH.
Qed.
Lemma rec_neutral_all_app get mk s1 s2 : forall T T1, rec_neutral_all get mk s1 T = Ok T1 ->
  rec_neutral_all get mk (s1 ++ s2) T = rec_neutral_all get mk s2 T1.
Proof.
  induction s1 as [|sn s1 IH]; intros T T1; cbn [rec_neutral_all app]; [by intros [= <-]|].
  destruct (rec_neutral _ _ _) as [es|]; [|done]. apply IH.
Qed.
Lemma last_ne T step : t_last T <> Some step -> (match t_last T with Some l => (step =? l)%Z | None => false end) = false.
Proof. destruct (t_last T) as [l|]; [|done]. intros H. apply Z.eqb_neq. congruence. Qed.

(** With room everywhere, every live trajectory gets exactly one point and the step is marked as done. *)
Theorem C23_room_for_all fl T ch ne get dE negE Eext step time :
  Sound T -> NoDup (ch ++ ne) -> t_last T <> Some step ->
  (forall s, s ∈ ch ++ ne -> roomy T (get s) (t_sp T s)) ->
  exists T', record_trajectory_data fl T ch ne get dE negE Eext step time = Ok T' /\
    t_last T' = Some step /\
    (forall s, s ∈ ch -> Forall2 (sampled1 (get s) (charged_point fl dE negE Eext step time)) (t_sp T s) (t_sp T' s)) /\
    (forall s, s ∈ ne -> Forall2 (sampled1 (get s) (neutral_point step time)) (t_sp T s) (t_sp T' s)) /\
    (forall s, s ∉ ch ++ ne -> t_sp T' s = t_sp T s).
Proof.
  intros HS Hnd Hl Hr. unfold record_trajectory_data. rewrite last_ne by done. cbv zeta.
  change (fun p => Datum step time (px p) p _ _) with (charged_point fl dE negE Eext step time) at 1.
  fold (neutral_point step time).
  apply NoDup_app in Hnd as (Hnd1 & Hdis & Hnd2).
  destruct (rec_charged_all_room get (charged_point fl dE negE Eext step time) ch Hnd1 T HS) as [T1 E1].
  { intros s Hs. apply Hr. apply elem_of_app. by left. }
  rewrite E1. destruct (rec_charged_all_shape _ _ _ Hnd1 _ _ _ HS E1) as (S1 & N1 & _ & O1 & C1).
  destruct (rec_neutral_all_room get (neutral_point step time) ne Hnd2 T1 S1) as [T2 E2].
  { intros s Hs. rewrite O1 by (intros ?; by eapply Hdis). intros e He Hle. unfold full. rewrite N1.
    apply Hr; [apply elem_of_app; by right|done..]. }
  rewrite E2.
  destruct (rec_neutral_all_shape _ _ _ Hnd2 _ _ S1 E2) as (S2 & N2 & _ & O2 & C2).
  eexists. split; [done|]. cbn. split; [done|]. split; [|split].
  - intros s Hs. rewrite O2 by (by apply Hdis). by apply C1.
  - intros s Hs. rewrite <- (O1 s) by (intros ?; by eapply Hdis). by apply C2.
  - intros s Hs. rewrite O2, O1 by (intros ?; apply Hs, elem_of_app; auto). done.
Qed.

(** The first full charged trajectory ends the call without an error: trajectories before it get their point,
    it and all later ones, charged or neutral, get nothing, and the step is not marked as done. *)
Theorem C23_full_charged_silences fl T s1 sn s2 ne get dE negE Eext step time l1 e l2 p :
  Sound T -> NoDup ((s1 ++ sn :: s2) ++ ne) -> t_last T <> Some step ->
  (forall s, s ∈ s1 -> roomy T (get s) (t_sp T s)) ->
  t_sp T sn = l1 ++ e :: l2 -> roomy T (get sn) l1 -> live e -> full T e -> get sn (e_index e) = Ok p ->
  exists T' l1', record_trajectory_data fl T (s1 ++ sn :: s2) ne get dE negE Eext step time = Ok T' /\
    t_last T' = t_last T /\
    (forall s, s ∈ s1 -> Forall2 (sampled1 (get s) (charged_point fl dE negE Eext step time)) (t_sp T s) (t_sp T' s)) /\
    Forall2 (sampled1 (get sn) (charged_point fl dE negE Eext step time)) l1 l1' /\ t_sp T' sn = l1' ++ e :: l2 /\
    (forall s, s ∉ s1 -> s <> sn -> t_sp T' s = t_sp T s).
Proof.
  intros HS Hnd Hl Hr Hsn Hr1 Hle Hfe Hp. unfold record_trajectory_data. rewrite last_ne by done. cbv zeta.
  change (fun p => Datum step time (px p) p _ _) with (charged_point fl dE negE Eext step time) at 1.
  apply NoDup_app in Hnd as (Hnd1 & _ & _). apply NoDup_app in Hnd1 as (Hnd1 & Hdis & Hnd2).
  destruct (rec_charged_all_room get (charged_point fl dE negE Eext step time) s1 Hnd1 T HS Hr) as [T1 E1].
  rewrite (rec_charged_all_app _ _ _ _ _ _ E1). destruct (rec_charged_all_shape _ _ _ Hnd1 _ _ _ HS E1) as (S1 & N1 & L1 & O1 & C1).
  assert (Hs1 : sn ∉ s1) by (intros ?; eapply Hdis; [done|left]).
  cbn [rec_charged_all]. rewrite (O1 sn Hs1), Hsn.
  assert (Hso : Forall (SoundEntry (t_npoints T1)) l1).
  { pose proof (sound_sp T sn HS) as Hall. rewrite Hsn in Hall. apply Forall_app in Hall as [Hall _]. by rewrite N1. }
  destruct (rec_charged_stop T1 (get sn) (charged_point fl dE negE Eext step time) l1 e l2 p Hso) as (l1' & -> & HF);
    [|done| |done|].
  { intros e0 He0 Hl0. unfold full. rewrite N1. by apply Hr1. }
  { unfold full. by rewrite N1. }
  exists (set_sp T1 sn (l1' ++ e :: l2)), l1'. split; [done|]. split; [done|]. split; [|split; [done|split]].
  - intros s Hs. rewrite set_sp_other by (by intros ->). by apply C1.
  - apply set_sp_same.
  - intros s Hs Hne. rewrite set_sp_other by done. by apply O1.
Qed.

(** A full neutral trajectory makes the call fail. *)
Theorem C23_full_neutral_fails fl T ch s1 sn s2 get dE negE Eext step time l1 e l2 p :
  Sound T -> NoDup (ch ++ (s1 ++ sn :: s2)) -> t_last T <> Some step ->
  (forall s, s ∈ ch ++ s1 -> roomy T (get s) (t_sp T s)) ->
  t_sp T sn = l1 ++ e :: l2 -> roomy T (get sn) l1 -> live e -> full T e -> get sn (e_index e) = Ok p ->
  record_trajectory_data fl T ch (s1 ++ sn :: s2) get dE negE Eext step time = Raise IndexError.
Proof.
  intros HS Hnd Hl Hr Hsn Hr1 Hle Hfe Hp. unfold record_trajectory_data. rewrite last_ne by done. cbv zeta.
  change (fun p => Datum step time (px p) p _ _) with (charged_point fl dE negE Eext step time) at 1.
  fold (neutral_point step time).
  apply NoDup_app in Hnd as (Hnd0 & Hdis0 & Hnd1). apply NoDup_app in Hnd1 as (Hnd1 & Hdis & Hnd2).
  destruct (rec_charged_all_room get (charged_point fl dE negE Eext step time) ch Hnd0 T HS) as [T1 E1].
  { intros s Hs. apply Hr, elem_of_app. by left. }
  rewrite E1. destruct (rec_charged_all_shape _ _ _ Hnd0 _ _ _ HS E1) as (S1 & N1 & L1 & O1 & C1).
  destruct (rec_neutral_all_room get (neutral_point step time) s1 Hnd1 T1 S1) as [T2 E2].
  { intros s Hs. rewrite O1 by (intros ?; eapply Hdis0; [done|apply elem_of_app; by left]). intros e0 He0 Hl0.
    unfold full. rewrite N1. apply Hr; [apply elem_of_app; by right|done..]. }
  rewrite (rec_neutral_all_app _ _ _ _ _ _ E2).
  destruct (rec_neutral_all_shape _ _ _ Hnd1 _ _ S1 E2) as (S2 & N2 & _ & O2 & C2).
  cbn [rec_neutral_all]. rewrite O2, O1, Hsn.
  - rewrite (rec_neutral_stop T (get sn) _ l1 e l2 p); try done. rewrite <- Hsn. by apply sound_sp.
  - intros ?. eapply Hdis0; [done|]. apply elem_of_app. right. left.
  - intros ?. eapply Hdis; [done|left].
Qed.

(** A step that was sampled is not sampled again. *)
Theorem C23_same_step fl T ch ne get dE negE Eext step time : t_last T = Some step ->
  record_trajectory_data fl T ch ne get dE negE Eext step time = Ok T.
Proof. intros H. unfold record_trajectory_data. by rewrite H, Z.eqb_refl. Qed.

(** Example: one charged species with arrays of one point.  The first trajectory is full, so the second gets
    nothing and the step is not marked; the same as a neutral species raises IndexError; with arrays of two
    points both get theirs. *)
Definition eg_d : datum := Datum 0 0 [0] (tp 0 0 0 10) [] [].
Definition eg_T (np : nat) : traj := Traj (Z.of_nat np) (Some 0%Z) (fun s => if String.eqb s "e" then
  [Entry 0 10 1 (Some eg_d :: replicate (np - 1) None); Entry 1 11 0 (replicate np None)] else []).
Definition eg_get (s : string) (i : Z) : res particle := Ok (if (i =? 0)%Z then tp 1 1 0 10 else tp 2 0 1 11).
Lemma eg_sound np : (1 <= np)%nat -> Sound (eg_T np).
Proof.
  intros Hnp. split; [cbn; lia|]. intros sn e. cbn. destruct (String.eqb sn "e"); [|by intros ?%elem_of_nil].
  rewrite !elem_of_cons. intros [->|[->|?%elem_of_nil]]; [..|done].
  - split; [cbn; lia|]. split; [cbn; rewrite replicate_length; lia|]. unfold points. cbn. by repeat constructor.
  - split; [cbn; lia|]. split; [cbn; rewrite replicate_length; lia|]. unfold points. cbn. constructor.
Qed.
Example C23_example :
  record_trajectory_data exact (eg_T 1) ["e"] [] eg_get 1 None None 5 2 = Ok (set_sp (eg_T 1) "e" (t_sp (eg_T 1) "e")) /\
  record_trajectory_data exact (eg_T 1) [] ["e"] eg_get 1 None None 5 2 = Raise IndexError /\
  exists T', record_trajectory_data exact (eg_T 2) ["e"] [] eg_get 1 None None 5 2 = Ok T' /\
    map e_len (t_sp T' "e") = [2; 1]%Z /\ t_last T' = Some 5%Z /\
    map points (t_sp T' "e") =
      [[Some eg_d; Some (Datum 5 2 [1] (tp 1 1 0 10) [exact (0 * -1)] [0])]; [Some (Datum 5 2 [2] (tp 2 0 1 11) [exact (0 * -1)] [0])]].
Proof.
  split; [reflexivity|]. split; [reflexivity|]. eexists. split; [reflexivity|]. split; [reflexivity|]. split; reflexivity.
Qed.
Example C22_example : Sound (eg_T 1) /\
  record_datum (Some (eg_T 1)) "e" (tp 1 1 0 10) 0 5 2 [] [] true = Ok (Some (eg_T 1)) /\
  (exists T', record_datum (Some (eg_T 1)) "e" (tp 2 0 1 11) 1 5 2 [] [] true = Ok (Some T') /\
     map points (t_sp T' "e") = [[Some eg_d]; [Some (Datum 5 2 [0] (tp 2 0 1 11) [] [])]]) /\
  (exists T', remove_particleId exact (eg_T 1) "e" (tp 1 1 0 10) 0 5 2 1 [] = Ok T' /\
     map points (t_sp T' "e") = [[Some eg_d]; []] /\ map e_index (t_sp T' "e") = [-1; 1]%Z).
Proof.
  split; [apply eg_sound; lia|]. split; [reflexivity|]. split.
  - eexists. split; reflexivity.
  - eexists. split; [reflexivity|]. split; reflexivity.
Qed.
(** The run of [C21_example]: the particle at index 1 crossed the wall at 3 and was deleted; its trajectory is closed,
    and the last point is the record at its end position 4. *)
Example C22_example_deleted : exists s s' T' e', Stores s tp3 /\
  guarded_mover (py_ops particle) thk s (TCtx [0] (Some tT)) = Ok (s', TCtx [0] (Some T')) /\
  t_sp T' "H" !! 1%nat = Some e' /\ e_index e' = NO_PINDEX /\
  list.last (points e') = Some (Some (Datum 7 3 [4] (Particle [4] [3] [2] 1 3 (-1) 11 1) [] [])).
Proof.
  destruct C21_example as (s & s' & T' & Ep & E & _ & _ & _ & _ & ->).
  destruct (C01_push_keeps_place 2 tp3) as (s0 & Ep0 & Hs); [lia|].
  assert (s0 = s) as -> by (rewrite Ep in Ep0; congruence).
  eexists s, s', tT3, _. split; [exact Hs|]. split; [exact E|]. unfold tT3. rewrite set_sp_same.
  split; [reflexivity|]. split; reflexivity.
Qed.

Print Assumptions C22_no_overflow.
Print Assumptions C22_history.
Print Assumptions C22_through_movers.
Print Assumptions C22_datum_appends_one.
Print Assumptions C22_remove_closes.
Print Assumptions C22_deleted_last_point.
Print Assumptions C23_room_for_all.
Print Assumptions C23_full_charged_silences.
Print Assumptions C23_full_neutral_fails.
Print Assumptions C23_same_step.
