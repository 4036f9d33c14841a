(** C52: what the trajectories of a program show: every point belongs to the particle of its trajectory, and the times of a
    trajectory do not go back. *)
From Coq Require Import String.
From stdpp Require Import strings numbers list list_numbers relations.
From Verif Require Import SapModel MoverModel SapProofs SapSpec SapRefine StorageProps.
From Verif Require Import Vec VecProofs Rounding TrackModel TrackProofs TrajModel TrajProofs TrajProps TrajRecProps DiagModel DiagProofs DumpProps SumProps HistoryProps.
From Verif Require Import AcceptProps DensityModel DensityProps SourceModel SourceProps UidProps RunModel RunProps MainProps TransparentProps.
From Verif Require Import BcModel RunTotalProps MainTotalProps HarmlessProps.
Local Open Scope R_scope.

(** ** Points in order *)

(** The times of the points [ds], from [lo] to [hi], are in the order [le]. *)
Fixpoint Timed (le : R -> R -> Prop) (lo hi : R) (ds : list datum) : Prop :=
  match ds with
  | [] => le lo hi
  | d :: r => le lo (d_time d) /\ Timed le (d_time d) hi r
  end.
(** A point recorded in step [step], which ends at [time], for the particle with the ID [uid]: it shows the particle at the end of
    the step, or the place where it crossed a boundary. *)
Definition Shows (step : Z) (time : R) (uid : Z) (d : datum) : Prop :=
  d_step d = step /\ puid (d_p d) = uid /\ ((d_time d = time /\ d_x d = px (d_p d)) \/ d_x d = px0 (d_p d)).

Section Order.
Context (le : R -> R -> Prop) (Hrefl : forall x, le x x) (Htrans : forall x y z, le x y -> le y z -> le x z).
Lemma timed_le lo hi ds : Timed le lo hi ds -> le lo hi.
Proof using Hrefl Htrans. revert lo. induction ds as [|d ds IH]; intros lo; cbn; [done|]. intros [H1 H2]. eapply Htrans; [exact H1|by apply IH]. Qed.
Lemma timed_app lo mid hi ds1 ds2 : Timed le lo mid ds1 -> Timed le mid hi ds2 -> Timed le lo hi (ds1 ++ ds2).
Proof using Hrefl Htrans.
  revert lo. induction ds1 as [|d ds IH]; intros lo; cbn.
  - intros H1 H2. destruct ds2 as [|d2 ds2]; cbn in *; [by eapply Htrans|]. destruct H2 as [H2 H3]. split; [by eapply Htrans|exact H3].
  - intros [H1 H2] H3. split; [exact H1|by apply IH].
Qed.
Lemma timed_later lo mid hi ds : Timed le lo mid ds -> le mid hi -> Timed le lo hi ds.
Proof using Hrefl Htrans. intros H1 H2. rewrite <- (app_nil_r ds). by eapply timed_app. Qed.

(** The entry [e'] has the points of the entry [o] and those of one step. *)
Definition GainsE (step : Z) (time lo hi : R) (o : option entry) (e' : entry) : Prop :=
  exists ds, Timed le lo hi ds /\ Forall (Shows step time (e_uid e')) ds /\
    match o with
    | Some e => e_uid e' = e_uid e /\ points e' = points e ++ map Some ds
    | None => points e' = map Some ds
    end.
Definition Gains (step : Z) (time lo hi : R) (T T' : traj) : Prop := forall sn,
  (length (t_sp T sn) <= length (t_sp T' sn))%nat /\ forall k e', t_sp T' sn !! k = Some e' -> GainsE step time lo hi (t_sp T sn !! k) e'.
(** No entry gets more than [m] points. *)
Definition Few (m : Z) (T T' : traj) : Prop := forall sn k e', t_sp T' sn !! k = Some e' ->
  (Z.of_nat (length (points e')) <= m + match t_sp T sn !! k with Some e => Z.of_nat (length (points e)) | None => 0 end)%Z.
Lemma gains_same step time lo hi T T' : le lo hi -> (forall sn, t_sp T' sn = t_sp T sn) -> Gains step time lo hi T T'.
Proof using Hrefl Htrans.
  intros H HT sn. rewrite HT. split; [lia|]. intros k e' Hk. rewrite Hk. exists []. split; [exact H|]. split; [constructor|].
  split; [reflexivity|]. cbn. by rewrite app_nil_r.
Qed.
Lemma gains_trans step time lo mid hi T1 T2 T3 : Gains step time lo mid T1 T2 -> Gains step time mid hi T2 T3 -> le lo mid -> Gains step time lo hi T1 T3.
Proof using Hrefl Htrans.
  intros H1 H2 Hlo sn. destruct (H1 sn) as [L1 G1]. destruct (H2 sn) as [L2 G2]. split; [lia|]. intros k e3 Hk3.
  destruct (G2 k e3 Hk3) as (ds2 & A1 & A2 & A3). destruct (t_sp T2 sn !! k) as [e2|] eqn:E2.
  - destruct A3 as [A3 A4]. destruct (G1 k e2 E2) as (ds1 & B1 & B2 & B3). exists (ds1 ++ ds2). split; [by eapply timed_app|].
    split; [apply Forall_app; rewrite A3 in *; by split|].
    rewrite map_app. destruct (t_sp T1 sn !! k) as [e1|]; [destruct B3 as [B3 B4]; split; [congruence|by rewrite A4, B4, app_assoc]|by rewrite A4, B3].
  - assert (E1 : t_sp T1 sn !! k = None) by (apply lookup_ge_None_2; apply lookup_ge_None_1 in E2; lia). rewrite E1.
    exists ds2. split; [|by split]. change ds2 with ([] ++ ds2). by eapply timed_app.
Qed.

(** ** One particle *)
Section Particle.
Context (sn : string) (step : Z) (time lo : R).
(** From [T] to [T1] only entries with the index [i] get points, and these show the particle with the ID [uid] until [t]. *)
Definition Progress (i uid : Z) (z : Z) (t : R) (T T1 : traj) : Prop :=
  frame sn T T1 /\ map e_index (t_sp T1 sn) = map e_index (t_sp T sn) /\ Sound T1 /\
  forall k e e1, t_sp T sn !! k = Some e -> t_sp T1 sn !! k = Some e1 ->
    (e_index e <> i -> points e1 = points e) /\
    (e_index e = i -> exists ds, (Z.of_nat (length ds) <= z)%Z /\ Timed le lo t ds /\ Forall (Shows step time uid) ds /\ points e1 = points e ++ map Some ds).
Lemma progress_refl i uid t T : Sound T -> le lo t -> Progress i uid 0 t T T.
Proof using Hrefl Htrans.
  intros HS Ht. split; [apply frame_refl|]. split; [reflexivity|]. split; [exact HS|]. intros k e e1 H1 H2. rewrite H1 in H2. injection H2 as <-.
  split; [done|]. intros _. exists []. split; [cbn; lia|]. split; [exact Ht|]. split; [constructor|]. cbn. by rewrite app_nil_r.
Qed.
Lemma progress_later i uid z z' t t' T T1 : Progress i uid z t T T1 -> (z <= z')%Z -> le t t' -> Progress i uid z' t' T T1.
Proof using Hrefl Htrans.
  intros (P1 & P2 & P3 & P4) Hz Ht. split; [exact P1|]. split; [exact P2|]. split; [exact P3|]. intros k e e1 H1 H2. destruct (P4 k e e1 H1 H2) as [A1 A2].
  split; [exact A1|]. intros Hi. destruct (A2 Hi) as (ds & B0 & B1 & B2). exists ds. split; [lia|]. split; [by eapply timed_later|exact B2].
Qed.
Lemma progress_datum i uid z t t' T T1 p E Ex T2 : Progress i uid z t T T1 -> le t t' -> puid p = uid ->
  record_datum (Some T1) sn p i step t' E Ex true = Ok T2 -> exists T3, T2 = Some T3 /\ Progress i uid (z + 1) t' T T3.
Proof using Hrefl Htrans.
  intros HP Ht Hp Er. pose proof (record_datum_frame _ _ _ _ _ _ _ _ _ _ Er) as (T3 & -> & F3 & I3). exists T3. split; [reflexivity|].
  destruct (progress_later _ _ _ z _ _ _ _ HP ltac:(lia) Ht) as (P1 & P2 & P3 & P4).
  pose proof (C22_datum_appends_one T1 sn p i step t' E Ex true P3) as H. rewrite Er in H. destruct H as (k0 & e0 & Hk0 & Hi0 & H).
  destruct (C22_no_overflow exact T1 T3 P3) as (S3 & _); [by eapply re_datum|].
  split; [by eapply frame_trans|]. split; [congruence|]. split; [exact S3|].
  assert (P5 := progress_later _ _ _ (z + 1) _ _ _ _ HP ltac:(lia) Ht). destruct P5 as (_ & _ & _ & P5).
  destruct H as [[_ ->]|(_ & e3 & -> & Hi3 & Hu3 & Hp3)]; [exact P5|].
  intros k e e1 H1 H2. rewrite set_sp_same in H2. destruct (decide (k = k0)) as [->|Hne].
  - rewrite list_lookup_insert in H2 by (by eapply lookup_lt_Some). injection H2 as <-. destruct (P4 k0 e e0 H1 Hk0) as [A1 A2].
    assert (Hie : e_index e = i).
    { pose proof (f_equal (fun l => l !! k0) P2) as Hm. cbn in Hm. rewrite !list_lookup_fmap, H1, Hk0 in Hm. cbn in Hm. congruence. }
    split; [congruence|]. intros _. destruct (A2 Hie) as (ds & B0 & B1 & B2 & B3).
    exists (ds ++ [Datum step t' (px0 p) p E Ex]). split; [rewrite app_length; cbn [length]; lia|]. split; [eapply timed_app; [exact B1|]; cbn; by split|]. split.
    + apply Forall_app. split; [exact B2|]. constructor; [|constructor]. split; [reflexivity|]. split; [exact Hp|by right].
    + rewrite Hp3, B3, map_app, <- app_assoc. reflexivity.
  - rewrite list_lookup_insert_ne in H2 by done. exact (P5 k e e1 H1 H2).
Qed.
End Particle.

(** ** Tracking *)

(** Either any two times are in order, or arithmetic is exact and the order is that of the numbers. *)
Context (fl : R -> R) (dt : R) (Hle : (forall x y, le x y) \/ fl = exact /\ le = Rle /\ 0 <= dt).
Lemma track_progress (bcs : Z -> option (bcfun (K:=option traj))) recd k m maxc fi time p c q c' (G : Z -> R -> option traj -> Prop) :
  Civil bcs ->
  (forall c0 p0 z t t' c1, G z t (usr c0) -> le t t' -> puid p0 = puid p -> recd c0 fi p0 t' = Ok c1 -> G (z + 1)%Z t' (usr c1)) ->
  (forall z z' t t' o, G z t o -> (z <= z')%Z -> le t t' -> G z' t' o) ->
  G 0%Z (fl (time - dt)) (usr c) -> track fl bcs recd k m maxc fi time dt p c = Ok (q, c') -> same_identity p q /\ G (Z.max 0 maxc) time (usr c').
Proof using Hrefl Htrans Hle.
  intros HC Hrec Hmono H0 Ht.
  set (Clock := fun ts dtR : R => (forall x y, le x y) \/ fl = exact /\ le = Rle /\ dtR = time - ts /\ 0 <= dtR).
  set (Inv := fun s : lstate (K:=option traj) => same_identity p (l_p s) /\ G (l_cnt s) (l_t s) (usr (l_c s)) /\ Clock (l_t s) (l_dt s) /\ (0 <= l_cnt s <= Z.max 0 maxc)%Z).
  set (Q := fun (q : particle) (n : Z) (c1 : tctx (K:=option traj)) => same_identity p q /\ G (Z.max 0 maxc) time (usr c1)).
  pose proof (track_rule fl bcs recd k m maxc fi Inv Q (fun _ => True) time dt p c) as HR. rewrite Ht in HR.
  destruct HR as (q0 & n & -> & HQ1 & HQ2); [| |by split].
  - intros s (I1 & I2 & I3 & I4).
    assert (Hend : forall ts dtR, Clock ts dtR -> le ts time).
    { intros ts dtR [H|(_ & -> & -> & H)]; [apply H|lra]. }
    destruct (iter_ok fl bcs recd k m maxc fi s) as [|cr Hcr Hin| | | |cr i f nn r Hcr Hin Hmax Hff Hcs]; try done.
    { split; [exact I1|]. eapply Hmono; [exact I2|lia|by eapply Hend]. }
    assert (Hnext : le (l_t s) (next_t fl s f) /\ Clock (next_t fl s f) (dt_after fl k f (l_dt s))).
    { destruct I3 as [H|(Hx & Hl & Hd & Hp)]; [split; [apply H|by left]|]. rewrite Hx in Hff.
      pose proof (find_facet_frac _ _ _ _ _ _ _ Hff) as Hf. unfold Clock, next_t. rewrite Hx, Hl. unfold exact.
      split; [nra|]. right. split; [reflexivity|]. split; [reflexivity|]. rewrite Hd. unfold dt_after. split; destruct k; nra. }
    destruct Hnext as [N1 N2].
    assert (Hon : forall mf p2 c2, on_marker bcs recd m fi mf f nn (next_t fl s f) (crossed fl s f) (put_move k (l_c s) (moved fl s)) = Ok (p2, c2) ->
      same_identity p p2 /\ G (l_cnt s + 1)%Z (next_t fl s f) (usr c2)).
    { intros mf p2 c2. unfold on_marker. assert (Hu : usr (put_move k (l_c s) (moved fl s)) = usr (l_c s)) by (by destruct k).
      assert (Hid : same_identity p (crossed fl s f)) by exact I1.
      destruct (_ =? 0)%Z; [intros [= <- <-]; split; [exact Hid|]; rewrite Hu; eapply Hmono; [exact I2|lia|exact N1]|].
      destruct (if is_traj _ then _ else _) as [c3|] eqn:Er; [|discriminate].
      assert (H3 : G (l_cnt s + 1)%Z (next_t fl s f) (usr c3)).
      { destruct (is_traj _); [|injection Er as <-; rewrite Hu; eapply Hmono; [exact I2|lia|exact N1]]. eapply Hrec; [|exact N1| |exact Er]; [by rewrite Hu|apply Hid]. }
      destruct (bcs (marker m mf)) as [b|] eqn:Eb; [|discriminate]. intros Hr. destruct (HC _ _ _ _ _ _ _ _ _ Eb Hr) as [B1 B2].
      split; [by eapply same_trans|by rewrite B2]. }
    inversion Hcs; subst; try exact I.
    + destruct (Hon _ _ _ ltac:(eassumption)) as [J1 J2]. split; [exact J1|]. eapply Hmono; [exact J2|lia|by eapply Hend].
    + destruct (Hon _ _ _ ltac:(eassumption)) as [J1 J2]. split; [exact J1|]. split; [exact J2|]. split; [exact N2|]. cbn [l_cnt]. lia.
    + destruct (Hon _ _ _ ltac:(eassumption)) as [J1 J2]. split; [exact J1|]. split; [exact J2|]. split; [exact N2|]. cbn [l_cnt]. lia.
  - split; [done|]. split; [exact H0|]. cbn [l_t l_dt l_cnt]. destruct Hle as [H|(-> & -> & H)]; [|unfold exact in *]; (split; [|lia]); [by left|right]. do 2 (split; [reflexivity|]). lra.
Qed.

(** The movers with their own arguments. *)
Inductive MoverAt (N : Z) (sn : string) (step : Z) (time : R) : hooks particle (tctx (K:=option traj)) -> Prop :=
| ma_charged qom maxc m bcs dE negE Eext solved ext ao : Civil bcs -> (Z.max 0 maxc <= N)%Z ->
    MoverAt N sn step time (charged_hooks fl sn step time dt qom maxc m bcs dE negE Eext solved ext ao)
| ma_neutral maxc m bcs : Civil bcs -> (Z.max 0 maxc <= N)%Z -> MoverAt N sn step time (neutral_hooks fl sn step time dt maxc m bcs).
Lemma mover_at N sn step time hk : MoverAt N sn step time hk -> MoverOf fl sn hk.
Proof using Hrefl Htrans. intros []; by constructor. Qed.
Lemma start_le time : le (fl (time - dt)) time.
Proof using Hrefl Htrans Hle. destruct Hle as [H|(-> & -> & H)]; [apply H|unfold exact; lra]. Qed.
Lemma adv_progress N sn step time hk c i p q c1 T : MoverAt N sn step time hk -> adv hk c i p = Ok (q, c1) -> usr c = Some T -> Sound T ->
  same_identity p q /\ exists T1, usr c1 = Some T1 /\ Progress sn step time (fl (time - dt)) i (puid p) N time T T1.
Proof using Hrefl Htrans Hle.
  intros Hm E HT HS.
  set (G := fun z t (o : option traj) => exists T1, o = Some T1 /\ Progress sn step time (fl (time - dt)) i (puid p) z t T T1).
  assert (HG : forall o o' p0 z t t' E Ex, G z t o -> le t t' -> puid p0 = puid p -> record_datum o sn p0 i step t' E Ex true = Ok o' -> G (z + 1)%Z t' o').
  { intros o o' p0 z t t' E0 Ex (T1 & -> & HP) Ht Hp Hr. eapply progress_datum in Hr as (T3 & -> & H3); [|exact HP|exact Ht|exact Hp]. by exists T3. }
  assert (HM : forall z z' t t' o, G z t o -> (z <= z')%Z -> le t t' -> G z' t' o).
  { intros z z' t t' o (T1 & -> & HP) Hz Ht. exists T1. split; [reflexivity|by eapply progress_later]. }
  assert (H0 : G 0%Z (fl (time - dt)) (usr c)) by (exists T; split; [exact HT|]; by apply progress_refl).
  destruct Hm as [qom maxc m bcs dE negE Eext solved ext ao HC HN|maxc m bcs HC HN]; cbn [adv charged_hooks neutral_hooks] in E.
  - destruct (select_E _ _ _ _ _ _ _) as [Es|]; [|discriminate]. unfold advance_charged in E.
    match type of E with track _ _ _ _ _ _ _ _ _ ?p1 _ = _ => assert (Hid : same_identity p p1) by (destruct ao, Es; done) end.
    apply (track_progress _ _ _ _ _ _ _ _ _ _ _ G) in E as [H1 H2]; [|exact HC| |exact HM|exact H0].
    + split; [by eapply same_trans|]. apply (HM _ N time time) in H2; [exact H2|exact HN|apply Hrefl].
    + intros c0 p0 z t t' c2 Hg Ht Hp Hr. unfold rec_crossing_charged in Hr. destruct Es as [e|]; [|discriminate].
      destruct (match Eext with Some _ => _ | None => _ end) as [x|]; [|discriminate].
      destruct (record_datum _ _ _ _ _ _ _ _ _) as [T'|] eqn:Er; [|discriminate]. injection Hr as <-. cbn.
      eapply HG; [exact Hg|exact Ht| |exact Er]. rewrite Hp. apply Hid.
  - unfold advance_neutral in E. apply (track_progress _ _ _ _ _ _ _ _ _ _ _ G) in E as [H1 H2]; [|exact HC| |exact HM|exact H0].
    + split; [exact H1|]. apply (HM _ N time time) in H2; [exact H2|exact HN|apply Hrefl].
    + intros c0 p0 z t t' c2 Hg Ht Hp Hr. unfold rec_crossing_neutral in Hr.
      destruct (record_datum _ _ _ _ _ _ _ _ _) as [T'|] eqn:Er; [|discriminate]. injection Hr as <-. cbn. by eapply HG.
Qed.

(** ** One pass of a mover *)
Section Pass.
Context (N : Z) (sn : string) (step : Z) (time : R).
Notation lo := (fl (time - dt)).
Definition PointsAt (i uid : Z) (T T2 : traj) : Prop := forall k e e2, t_sp T sn !! k = Some e -> t_sp T2 sn !! k = Some e2 ->
  (e_index e <> i -> points e2 = points e) /\
  (e_index e = i -> exists ds, (Z.of_nat (length ds) <= N + 1)%Z /\ Timed le lo time ds /\ Forall (Shows step time uid) ds /\ points e2 = points e ++ map Some ds).
Lemma frame_lookup T T1 k e1 : frame sn T T1 -> t_sp T1 sn !! k = Some e1 -> exists e, t_sp T sn !! k = Some e /\ e_uid e1 = e_uid e.
Proof using.
  intros (_ & _ & _ & H) Hk. pose proof (f_equal (fun l => l !! k) H) as A. cbn in A. rewrite !list_lookup_fmap, Hk in A.
  destruct (t_sp T sn !! k) as [e|]; [|discriminate]. cbn in A. injection A as A. by exists e.
Qed.
Lemma index_lookup T T1 k e e1 : map e_index (t_sp T1 sn) = map e_index (t_sp T sn) -> t_sp T sn !! k = Some e -> t_sp T1 sn !! k = Some e1 -> e_index e1 = e_index e.
Proof using. intros H Hk Hk1. pose proof (f_equal (fun l => l !! k) H) as A. cbn in A. rewrite !list_lookup_fmap, Hk, Hk1 in A. cbn in A. congruence. Qed.
Lemma progress_at i uid T T1 : Progress sn step time lo i uid N time T T1 -> PointsAt i uid T T1.
Proof using Hrefl Htrans.
  intros (_ & _ & _ & P4) k e e1 H1 H2. destruct (P4 k e e1 H1 H2) as [A1 A2]. split; [exact A1|]. intros Hi.
  destruct (A2 Hi) as (ds & B0 & B1). exists ds. split; [lia|exact B1].
Qed.
Lemma removed_points i uid T T1 q zE T2 : Progress sn step time lo i uid N time T T1 -> t_last T <> Some step -> puid q = uid ->
  remove_particleId fl T1 sn q i step time dt zE = Ok T2 -> PointsAt i uid T T2 /\ Sound T2.
Proof using Hrefl Htrans.
  intros (P1 & P2 & P3 & P4) Hl Hq Er. destruct (C22_no_overflow fl T1 T2 P3) as (S2 & _); [by eapply re_remove|]. split; [|exact S2].
  pose proof (C22_remove_closes fl T1 sn q i step time dt zE P3) as H. rewrite Er in H. destruct H as (k0 & e0 & e3 & Hk0 & Hi0 & -> & _ & _ & Hf & Hn & _).
  intros k e e2 H1 H2. rewrite set_sp_same in H2. destruct (decide (k = k0)) as [->|Hne].
  - rewrite list_lookup_insert in H2 by (by eapply lookup_lt_Some). injection H2 as <-. destruct (P4 k0 e e0 H1 Hk0) as [A1 A2].
    pose proof (index_lookup _ _ _ _ _ P2 H1 Hk0) as Hie. split; [congruence|]. intros Hi. destruct (A2 Hi) as (ds & B0 & B1 & B2 & B3).
    destruct (decide (t_npoints T1 <= e_len e0)%Z) as [Hfull|Hfull].
    + exists ds. split; [lia|]. split; [exact B1|]. split; [exact B2|]. by rewrite Hf.
    + exists (ds ++ [Datum step time (px q) q zE zE]). split; [rewrite app_length; cbn [length]; lia|]. split; [eapply timed_app; [exact B1|]; cbn; by split|]. split.
      * apply Forall_app. split; [exact B2|]. constructor; [|constructor]. split; [reflexivity|]. split; [exact Hq|by left].
      * rewrite Hn, B3, map_app, <- app_assoc; [reflexivity|exact Hfull|]. destruct P1 as (_ & -> & _). exact Hl.
  - rewrite list_lookup_insert_ne in H2 by done. exact (progress_at i uid T T1 (conj P1 (conj P2 (conj P3 P4))) k e e2 H1 H2).
Qed.
Lemma updated_points i j uid T T1 T2 : Progress sn step time lo i uid N time T T1 -> update_particleId T1 sn i j = Ok T2 -> PointsAt i uid T T2 /\ Sound T2.
Proof using Hrefl Htrans.
  intros (P1 & P2 & P3 & P4) Er. destruct (C22_no_overflow fl T1 T2 P3) as (S2 & _); [by eapply re_update|]. split; [|exact S2].
  unfold update_particleId in Er. destruct (list_index _ i) as [k0|] eqn:Ei; [|discriminate]. destruct (t_sp T1 sn !! k0) as [e0|] eqn:E0; [|discriminate].
  injection Er as <-. intros k e e2 H1 H2. rewrite set_sp_same in H2. destruct (decide (k = k0)) as [->|Hne].
  - rewrite list_lookup_insert in H2 by (by eapply lookup_lt_Some). injection H2 as <-. exact (progress_at i uid T T1 (conj P1 (conj P2 (conj P3 P4))) k0 e e0 H1 E0).
  - rewrite list_lookup_insert_ne in H2 by done. exact (progress_at i uid T T1 (conj P1 (conj P2 (conj P3 P4))) k e e2 H1 H2).
Qed.

Context (hk : hooks particle (tctx (K:=option traj))) (Hm : MoverAt N sn step time hk).
Lemma hooks_at : deleted hk = is_deleted /\ on_keep hk = keep_particle sn /\ exists zE, on_drop hk = drop_particle fl sn step time dt zE.
Proof using Hm. destruct Hm; cbn; eauto. Qed.

(** The invariant: the entries of the particles that were passed have the points of this step. *)
Definition Passed (T0 : traj) (n : nat) (T : traj) : Prop := forall k e0 e, t_sp T0 sn !! k = Some e0 -> t_sp T sn !! k = Some e ->
  ((0 <= e_index e0 < Z.of_nat n)%Z -> exists ds, (Z.of_nat (length ds) <= N + 1)%Z /\ Timed le lo time ds /\ Forall (Shows step time (e_uid e0)) ds /\ points e = points e0 ++ map Some ds) /\
  (~ (0 <= e_index e0 < Z.of_nat n)%Z -> points e = points e0).
Lemma pass_points_gen xs T0 : Indexed xs (map e_index (t_sp T0 sn)) -> t_last T0 <> Some step ->
  (forall k e p, t_sp T0 sn !! k = Some e -> e_index e <> NO_PINDEX -> xs !! Z.to_nat (e_index e) = Some p -> puid p = e_uid e) ->
  forall rest f ch c T ys c',
  (length f + length rest = length xs)%nat -> (forall k, rest !! k = xs !! (length f + k)%nat) ->
  usr c = Some T -> map e_index (t_sp T sn) = map (cur_index f) (map e_index (t_sp T0 sn)) ->
  (ch = false -> length (survivors f) = length f) ->
  frame sn T0 T -> Sound T -> Passed T0 (length f) T ->
  seq_pass hk (Z.of_nat (length f)) (survivors f) ch c rest = Ok (ys, c') ->
  exists T', usr c' = Some T' /\ frame sn T0 T' /\ Sound T' /\ Passed T0 (length xs) T'.
Proof using Hrefl Htrans Hle Hm.
  intros HI Hl HU. pose proof HI as (Hnd & Hlive & Hflag). set (idx0 := map e_index (t_sp T0 sn)) in *.
  destruct hooks_at as (Hdel & Hkeep & zE & Hdrop).
  assert (Hge : forall i, i ∈ idx0 -> (NO_PINDEX <= i)%Z).
  { intros i Hi. destruct (decide (i = NO_PINDEX)); [lia|]. destruct (Hlive i Hi n). unfold NO_PINDEX. lia. }
  induction rest as [|p rest IH]; intros f ch c T ys c' Hlen Hxs HT Hidx Hch HF HS HP E.
  - cbn in E. injection E as <- <-. exists T. split; [exact HT|]. split; [exact HF|]. split; [exact HS|]. cbn in Hlen. rewrite Nat.add_0_r in Hlen. by rewrite <- Hlen.
  - cbn [seq_pass] in E. destruct (adv hk c _ p) as [[q c1]|] eqn:Ea; [|discriminate].
    destruct (adv_progress _ _ _ _ _ _ _ _ _ _ _ Hm Ea HT HS) as (Hid & T1 & HT1 & HP1).
    pose proof HP1 as (HF1 & HI1 & HS1 & _).
    assert (Hp : xs !! length f = Some p).
    { pose proof (Hxs O) as H0. rewrite Nat.add_0_r in H0. by rewrite <- H0. }
    assert (Hno : is_traj p = false -> Z.of_nat (length f) ∉ idx0).
    { intros Hp0 Hi. destruct (Hlive _ Hi) as (_ & p' & Hp' & Ht'); [unfold NO_PINDEX; lia|].
      rewrite Nat2Z.id, Hp in Hp'. congruence. }
    assert (Hlen' : forall r : option particle, (length (f ++ [r]) + length rest = length xs)%nat).
    { intros r. rewrite app_length. cbn in *. lia. }
    assert (Hxs' : forall (r : option particle) k, rest !! k = xs !! (length (f ++ [r]) + k)%nat).
    { intros r k. rewrite app_length. cbn [length]. etransitivity; [exact (Hxs (S k))|f_equal; lia]. }
    assert (Hpos : forall r : option particle, (Z.of_nat (length f) + 1)%Z = Z.of_nat (length (f ++ [r]))).
    { intros r. rewrite app_length. cbn. lia. }
    (* the points of the present particle *)
    assert (Hadd : forall (r : option particle) T2, PointsAt (Z.of_nat (length f)) (puid p) T T2 -> frame sn T0 T2 -> Passed T0 (length (f ++ [r])) T2).
    { intros r T2 H2 HF2 k e0 e2 Hk0 Hk2. destruct (frame_lookup _ _ _ _ HF2 Hk2) as (e0' & Hk0' & Hu2). rewrite Hk0 in Hk0'. injection Hk0' as <-.
      assert (Hk : (k < length (t_sp T sn))%nat).
      { pose proof (f_equal length Hidx) as A. subst idx0. rewrite !map_length in A. rewrite A. by eapply lookup_lt_Some. }
      apply lookup_lt_is_Some in Hk as [e Hk].
      assert (Hie : e_index e = cur_index f (e_index e0)).
      { pose proof (f_equal (fun l => l !! k) Hidx) as A. subst idx0. cbn in A. rewrite !list_lookup_fmap, Hk, Hk0 in A. cbn in A. congruence. }
      assert (Hin : e_index e0 ∈ idx0) by (subst idx0; apply elem_of_list_fmap; exists e0; split; [reflexivity|by eapply elem_of_list_lookup_2]).
      pose proof (cur_index_pos f (e_index e0) (Hge _ Hin)) as Hcp. rewrite <- Hie in Hcp.
      destruct (H2 k e e2 Hk Hk2) as [A1 A2]. destruct (HP k e0 e Hk0 Hk) as [B1 B2].
      rewrite <- (Hpos r). destruct (decide (e_index e0 = Z.of_nat (length f))) as [Heq|Hne].
      - split; [|lia]. intros _. destruct (A2 (proj2 Hcp Heq)) as (ds & C0 & C1 & C2 & C3). exists ds. split; [exact C0|]. split; [exact C1|].
        assert (Hu : puid p = e_uid e0). { apply (HU k e0 p Hk0); [unfold NO_PINDEX; lia|]. by rewrite Heq, Nat2Z.id. }
        rewrite <- Hu. split; [exact C2|]. rewrite C3, B2 by lia. reflexivity.
      - rewrite A1 by (intros Hx; by apply Hne, Hcp). split; [intros; apply B1; lia|intros; apply B2; lia]. }
    assert (Hprog : PointsAt (Z.of_nat (length f)) (puid p) T T1) by exact (progress_at _ _ _ _ HP1).
    rewrite Hdel in E. destruct (is_deleted q) eqn:Ed.
    + rewrite Hdrop in E. destruct (drop_particle _ _ _ _ _ _ _ _ _ _) as [c2|] eqn:Eb; [|discriminate].
      assert (HH : exists T2, usr c2 = Some T2 /\ frame sn T1 T2 /\ Sound T2 /\ PointsAt (Z.of_nat (length f)) (puid p) T T2 /\
        map e_index (t_sp T2 sn) = map (cur_index (f ++ [None])) idx0).
      { unfold drop_particle in Eb. rewrite HT1 in Eb. destruct (is_traj p) eqn:Et.
        - destruct (remove_particleId _ _ _ _ _ _ _ _ _) as [T2|] eqn:Er; [|discriminate]. injection Eb as <-.
          assert (Hl' : t_last T <> Some step) by (destruct HF as (_ & -> & _); exact Hl).
          destruct (removed_points _ _ _ _ _ _ _ HP1 Hl' (proj1 (proj2 Hid)) Er) as [G1 G2].
          apply remove_frame in Er as (HFr & k & Hk & He). exists T2. split; [reflexivity|]. split; [exact HFr|]. split; [exact G2|]. split; [exact G1|].
          rewrite He, HI1, Hidx. rewrite HI1, Hidx in Hk. by eapply (step_index f None).
        - injection Eb as <-. exists T1. split; [exact HT1|]. split; [apply frame_refl|]. split; [exact HS1|]. split; [exact Hprog|].
          rewrite HI1, Hidx. apply skip_index. by apply Hno. }
      destruct HH as (T2 & HT2 & HF2 & HS2 & HP2 & HI2).
      assert (HF02 : frame sn T0 T2) by (eapply frame_trans; [exact HF|]; by eapply frame_trans).
      rewrite (Hpos None) in E. replace (survivors f) with (survivors (f ++ [None])) in E
        by (rewrite survivors_app; apply app_nil_r).
      exact (IH (f ++ [None]) true c2 T2 ys c' (Hlen' None) (Hxs' None) HT2 HI2 ltac:(done) HF02 HS2 (Hadd None T2 HP2 HF02) E).
    + rewrite Hkeep in E. destruct (keep_particle _ _ _ _ _ _) as [c2|] eqn:Eb; [|discriminate].
      destruct Hid as (Hi1 & Hi2 & Hi3).
      assert (HH : exists T2, usr c2 = Some T2 /\ frame sn T1 T2 /\ Sound T2 /\ PointsAt (Z.of_nat (length f)) (puid p) T T2 /\
        map e_index (t_sp T2 sn) = map (cur_index (f ++ [Some q])) idx0).
      { unfold keep_particle in Eb. rewrite HT1 in Eb. destruct (is_traj q) eqn:Et; [destruct ch|]; cbn in Eb.
        - destruct (update_particleId _ _ _ _) as [T2|] eqn:Er; [|discriminate]. injection Eb as <-.
          destruct (updated_points _ _ _ _ _ _ HP1 Er) as [G1 G2].
          apply update_frame in Er as (HFr & k & Hk & He). exists T2. split; [reflexivity|]. split; [exact HFr|]. split; [exact G2|]. split; [exact G1|].
          rewrite He, HI1, Hidx. rewrite HI1, Hidx in Hk. by eapply (step_index f (Some q)).
        - injection Eb as <-. exists T1. split; [exact HT1|]. split; [apply frame_refl|]. split; [exact HS1|]. split; [exact Hprog|].
          rewrite HI1, Hidx. apply stay_index. by apply Hch.
        - injection Eb as <-. exists T1. split; [exact HT1|]. split; [apply frame_refl|]. split; [exact HS1|]. split; [exact Hprog|].
          rewrite HI1, Hidx. apply skip_index. apply Hno. congruence. }
      destruct HH as (T2 & HT2 & HF2 & HS2 & HP2 & HI2).
      assert (HF02 : frame sn T0 T2) by (eapply frame_trans; [exact HF|]; by eapply frame_trans).
      rewrite (Hpos (Some q)) in E. replace (survivors f ++ [q]) with (survivors (f ++ [Some q])) in E
        by (by rewrite survivors_app).
      refine (IH (f ++ [Some q]) ch c2 T2 ys c' (Hlen' _) (Hxs' _) HT2 HI2 _ HF02 HS2 (Hadd (Some q) T2 HP2 HF02) E).
      intros Hc. rewrite survivors_app, !app_length, (Hch Hc). reflexivity.
Qed.
Lemma pass_points L s xs c s' c' T : (1 <= L)%Z -> Follows sn L (s, c) T xs -> Sound T -> t_last T <> Some step ->
  guarded_mover (py_ops particle) hk s c = Ok (s', c') ->
  exists T', usr c' = Some T' /\ frame sn T T' /\ Sound T' /\ Gains step time lo time T T' /\ Few (N + 1) T T'.
Proof using Hrefl Htrans Hle Hm.
  assert (HN : (0 <= N)%Z) by (destruct Hm; lia). intros HL [HR Hst HT HI HU] HS Hl E. cbn [fst snd] in *. pose proof (C04_pass_is_sequential L s xs hk c HL HR Hst) as H.
  destruct (seq_pass hk 0 [] false c xs) as [[ys c1]|e] eqn:Ep; [|congruence]. destruct H as (s1 & E1 & _). rewrite E in E1. injection E1 as <- <-.
  destruct (pass_points_gen xs T HI Hl HU xs [] false c T ys c') as (T' & A1 & A2 & A3 & A4); try done.
  - symmetry. etransitivity; [|apply map_id]. apply map_ext_in. intros z Hz. apply elem_of_list_In in Hz.
    unfold cur_index. cbn [length]. destruct (z <? Z.of_nat 0)%Z eqn:Ez; [|reflexivity].
    destruct (decide (z = NO_PINDEX)) as [->|Hn]; [reflexivity|]. destruct HI as (_ & Hlv & _). destruct (Hlv z Hz Hn). lia.
  - intros k e0 e H1 H2. rewrite H1 in H2. injection H2 as <-. cbn [length]. split; [lia|done].
  - exists T'. split; [exact A1|]. split; [exact A2|]. split; [exact A3|]. pose proof (start_le time) as Hlt. split.
    2: { intros s0 k e' Hk. destruct (String.eqb_spec s0 sn) as [->|Hne].
      - destruct (frame_lookup _ _ _ _ A2 Hk) as (e & He & Hue). rewrite He. destruct (A4 k e e' He Hk) as [B1 B2].
        destruct (decide (0 <= e_index e < Z.of_nat (length xs))%Z) as [Hd|Hd]; [|rewrite (B2 Hd); clear - HN; lia].
        destruct (B1 Hd) as (ds & C0 & _ & _ & ->). rewrite app_length, map_length. clear - C0. lia.
      - destruct A2 as (_ & _ & A2 & _). rewrite (A2 s0 Hne) in Hk. rewrite Hk. clear - HN. lia. }
    intros s0. destruct (String.eqb_spec s0 sn) as [->|Hne].
    + pose proof A2 as (_ & _ & _ & Hu). pose proof (f_equal length Hu) as Hlen. rewrite !map_length in Hlen. split; [lia|].
      intros k e' Hk. destruct (frame_lookup _ _ _ _ A2 Hk) as (e & He & Hue). rewrite He. destruct (A4 k e e' He Hk) as [B1 B2].
      destruct (decide (0 <= e_index e < Z.of_nat (length xs))%Z) as [Hd|Hd].
      * destruct (B1 Hd) as (ds & _ & C1 & C2 & C3). exists ds. rewrite Hue. by split_and!.
      * exists []. rewrite (B2 Hd). split; [exact Hlt|]. split; [constructor|]. split; [exact Hue|]. by rewrite app_nil_r.
    + destruct A2 as (_ & _ & A2 & _). rewrite (A2 s0 Hne). split; [lia|]. intros k e' Hk. rewrite Hk. exists [].
      split; [exact Hlt|]. split; [constructor|]. split; [reflexivity|]. by rewrite app_nil_r.
Qed.
End Pass.
End Order.
