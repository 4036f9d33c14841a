(** C52, continued: the trajectories of a whole program. *)
From Coq Require Import String Sorting.Sorted.
From stdpp Require Import strings numbers list list_numbers relations.
From Verif Require Import SapModel MoverModel SapProofs SapSpec SapRefine StorageProps.
From Verif Require Import Vec VecProofs Rounding TrackModel TrackProofs TrajModel TrajProofs TrajProps TrajRecProps DiagModel DiagProofs DumpProps SumProps HistoryProps.
From Verif Require Import AcceptProps DensityModel DensityProps SourceModel SourceProps UidProps RunModel RunProps MainProps TransparentProps.
From Verif Require Import BcModel RunTotalProps MainTotalProps HarmlessProps PointProps.
Local Open Scope R_scope.

(** A point that shows the particle [p] at the end of a step. *)
Definition point_of (step : Z) (time : R) (p : particle) (d : datum) : Prop :=
  d_step d = step /\ d_time d = time /\ d_x d = px p /\ d_p d = p.
(** Every flagged particle of [xs] has such a point in a trajectory with its ID. *)
Definition Seen (step : Z) (time : R) (sn : string) (T : traj) (xs : list particle) : Prop := forall p, p ∈ xs -> is_traj p = true ->
  exists e d, e ∈ t_sp T sn /\ e_uid e = puid p /\ Some d ∈ points e /\ point_of step time p d.
(** Some trajectory has no room left. *)
Definition Full (T : traj) : Prop := exists sn e, e ∈ t_sp T sn /\ full T e.

(** No trajectory has more than [m] points. *)
Definition Short (m : Z) (T : traj) : Prop := forall sn e, e ∈ t_sp T sn -> (Z.of_nat (length (points e)) <= m)%Z.

Section Small.
Context (le : R -> R -> Prop).
Lemma gains_entry step time lo hi T T' sn e : Gains le step time lo hi T T' -> e ∈ t_sp T sn ->
  exists e', e' ∈ t_sp T' sn /\ e_uid e' = e_uid e /\ points e `prefix_of` points e'.
Proof.
  intros HG He. apply elem_of_list_lookup in He as [k Hk]. destruct (HG sn) as [H1 H2].
  assert (Hk' : (k < length (t_sp T' sn))%nat) by (apply lookup_lt_Some in Hk; lia). apply lookup_lt_is_Some in Hk' as [e' Hk']. exists e'.
  destruct (H2 k e' Hk') as (ds & _ & _ & H3). rewrite Hk in H3. destruct H3 as [H3 H4].
  split; [by eapply elem_of_list_lookup_2|]. split; [exact H3|]. rewrite H4. by eexists.
Qed.
Lemma seen_gains step0 time0 sn xs step time lo hi T T' : Gains le step time lo hi T T' -> Seen step0 time0 sn T xs -> Seen step0 time0 sn T' xs.
Proof.
  intros HG HS p Hp Ht. destruct (HS p Hp Ht) as (e & d & H1 & H2 & H3 & H4). destruct (gains_entry _ _ _ _ _ _ _ _ HG H1) as (e' & A1 & A2 & l & A3).
  exists e', d. split; [exact A1|]. split; [congruence|]. split; [rewrite A3; apply elem_of_app; by left|exact H4].
Qed.
Lemma full_gains step time lo hi T T' : Gains le step time lo hi T T' -> Sound T -> Sound T' -> t_npoints T' = t_npoints T -> Full T -> Full T'.
Proof.
  intros HG S1 S2 Hn (sn & e & H1 & H2). destruct (gains_entry _ _ _ _ _ _ _ _ HG H1) as (e' & A1 & A2 & l & A3). exists sn, e'. split; [exact A1|].
  pose proof (points_length _ _ (proj2 S1 sn e H1)) as L1. pose proof (points_length _ _ (proj2 S2 sn e' A1)) as L2.
  rewrite A3, app_length in L2. unfold full in *. lia.
Qed.
Lemma gains_few_nil T T' : (forall sn, t_sp T' sn = t_sp T sn) -> forall m, (0 <= m)%Z -> Few m T T'.
Proof. intros HT m Hm sn k e' Hk. rewrite HT in Hk. rewrite Hk. lia. Qed.
Lemma few_short a m T T' : (0 <= m)%Z -> Few a T T' -> Short m T -> Short (m + a) T'.
Proof.
  intros Hm HF HS sn e He. apply elem_of_list_lookup in He as [k Hk]. specialize (HF sn k e Hk). destruct (t_sp T sn !! k) as [e0|] eqn:E0; [|lia].
  specialize (HS sn e0 ltac:(by eapply elem_of_list_lookup_2)). lia.
Qed.
Lemma short_more m m' T : (m <= m')%Z -> Short m T -> Short m' T.
Proof. intros Hm HS sn e He. specialize (HS sn e He). lia. Qed.
End Small.

Section Run.
Context (le : R -> R -> Prop) (Hrefl : forall x, le x x) (Htrans : forall x y z, le x y -> le y z -> le x z).
Context (fl : R -> R) (u : setup) (HL : (1 <= u_L u)%Z) (Hsp : NoDup (u_charged u ++ u_neutral u)).
Context (Hle : (forall x y, le x y) \/ fl = exact /\ le = Rle /\ 0 <= u_dt u).
Context (HC : forall sn, Civil (u_bcs u sn)).
Context (Hsrc : forall dom q, (dom, q) ∈ default [] (u_sources u) -> s_species q ∈ u_charged u).

(** What holds between the phases: the trajectories follow their particles, and were last sampled at step [c] or before. *)
Record Good (c : Z) (st : srcst) (T : traj) (xs : string -> list particle) : Prop := {
  g_traj : ss_traj st = Some T;
  g_traced : Traced u (ss_saps st) T xs;
  g_sound : Sound T;
  g_settled : forall sn, Settled u (ss_saps st sn);
  g_last : forall l, t_last T = Some l -> (l <= c)%Z
}.
Lemma good_looped c st saps T xs : Looped (ss_saps st) saps -> Good c st T xs -> Good c (with_saps st saps) T xs.
Proof using HL.
  intros Hl [G1 G2 G3 G4 G5]. split; [exact G1| |exact G3| |exact G5]; cbn [with_saps ss_saps].
  - pose proof (looped_holds _ HL _ _ _ Hl (traced_stores _ _ _ _ G2)) as HH. intros sn. destruct (G2 sn) as [_ _ H3 H4 H5]. destruct (HH sn) as [H1 H2]. by split.
  - by eapply (looped_settled u HL).
Qed.
Lemma good_later c c' st T xs : (c <= c')%Z -> Good c st T xs -> Good c' st T xs.
Proof using. intros Hc [G1 G2 G3 G4 G5]. split; try assumption. intros l Hl. specialize (G5 l Hl). clear - Hc G5. lia. Qed.

(** ** The movers *)
Lemma advance_good step time negE c sns : NoDup sns -> (c < step)%Z -> forall saps cx saps' cx' T xs uid rng, usr cx = Some T ->
  Good c (SrcSt saps uid rng (Some T)) T xs -> advance_species fl u step time negE sns saps cx = Ok (saps', cx') ->
  exists T' xs', usr cx' = Some T' /\ Good c (SrcSt saps' uid rng (Some T')) T' xs' /\ t_npoints T' = t_npoints T /\ t_last T' = t_last T /\
    (forall sn, sn ∉ sns -> t_sp T' sn = t_sp T sn) /\ Gains le step time (fl (time - u_dt u)) time T T' /\ Few (Z.max 0 (u_maxc u) + 1) T T' /\
    (forall sn, sn ∈ sns \/ Firm (saps sn) -> Firm (saps' sn)).
Proof using Hrefl Htrans HL Hle HC.
  clear Hsrc. intros Hnd Hc. induction Hnd as [|sn sns Hnin Hnd IH]; intros saps cx saps' cx' T xs uid rng HU HG E; cbn [advance_species] in E.
  - injection E as <- <-. exists T, xs. split; [exact HU|]. split; [exact HG|]. split; [reflexivity|]. split; [reflexivity|]. split; [done|].
    split; [apply gains_same; [exact Hrefl|exact Htrans|by apply (start_le le Hrefl Htrans)|reflexivity]|]. split; [apply gains_few_nil; [reflexivity|clear; lia]|]. by intros s [?%elem_of_nil|?].
  - destruct (guarded_mover _ _ _ _) as [[s1 c1]|] eqn:E1; [|discriminate].
    set (hk := charged_hooks fl sn step time (u_dt u) (u_qom u sn) (u_maxc u) (u_mesh u) (u_bcs u sn) (u_dE u) (Some negE) (u_Eext u step) (u_solved u sn) (u_ext u sn) false) in *.
    assert (Hm : MoverAt fl (u_dt u) (Z.max 0 (u_maxc u)) sn step time hk) by (constructor; [apply HC|clear; lia]).
    destruct HG as [G1 G2 G3 G4 G5]. cbn [ss_saps ss_traj] in *. pose proof (G2 sn) as [F1 F2 _ F4 F5]. cbn [fst] in F1, F2.
    assert (Hfo : Follows sn (u_L u) (saps sn, cx) T (xs sn)) by (by split).
    assert (Hlast : t_last T <> Some step) by (intros Hl; specialize (G5 _ Hl); lia).
    destruct (pass_points le Hrefl Htrans fl (u_dt u) Hle (Z.max 0 (u_maxc u)) sn step time hk Hm (u_L u) _ _ cx s1 c1 T HL Hfo G3 Hlast E1) as (T1 & A1 & A2 & A3 & A4 & A5).
    destruct (advance_traced fl u HL step time negE [sn] HC saps cx (set_key saps sn s1) c1 T xs HU G2) as (T2 & xs1 & B1 & B2 & _).
    { cbn [advance_species]. fold hk. rewrite E1. reflexivity. }
    rewrite A1 in B1. injection B1 as <-. destruct (pass_settled u HL hk _ _ _ _ _ F1 F2 (G4 sn) E1) as [P1 P2]. pose proof A2 as (N1 & N2 & N3 & _).
    destruct (IH (set_key saps sn s1) c1 saps' cx' T1 xs1 uid rng A1) as (T' & xs' & I1 & I2 & I3 & I4 & I5 & I6 & I8 & I7); [|exact E|].
    { split; cbn [ss_saps ss_traj]; [reflexivity|exact B2|exact A3| |rewrite N2; exact G5].
      intros s. unfold set_key. destruct (String.eqb_spec s sn) as [->|Hne]; [exact P1|apply G4]. }
    exists T', xs'. split; [exact I1|]. split; [exact I2|]. split; [congruence|]. split; [congruence|]. split; [|split; [|split]].
    + intros s Hs. apply not_elem_of_cons in Hs as [Hs1 Hs2]. rewrite I5 by exact Hs2. by apply N3.
    + intros s. destruct (String.eqb_spec s sn) as [->|Hne].
      * rewrite (I5 sn Hnin). apply A4.
      * rewrite <- (N3 s Hne). apply I6.
    + intros s k e' Hk. destruct (String.eqb_spec s sn) as [->|Hne].
      * rewrite (I5 sn Hnin) in Hk. by apply A5.
      * rewrite <- (N3 s Hne). by apply I8.
    + intros s Hs. apply I7. unfold set_key. destruct (String.eqb_spec s sn) as [->|Hne]; [right; exact P2|].
      destruct Hs as [[->|Hs]%elem_of_cons|Hs]; [done|by left|by right].
Qed.

(** ** Sampling *)
Lemma sampled_gains step time sn get mk T es es' saps xs : Traced u saps T xs -> (forall e, e ∈ es -> e ∈ t_sp T sn) ->
  get = (fun i => let! o := get_item (saps sn) i in Ok (seen (u_junk u) o)) -> (forall p, point_of step time p (mk p)) ->
  Forall2 (sampled1 get mk) es es' -> forall k e', es' !! k = Some e' -> exists e, es !! k = Some e /\ GainsE le step time time time (Some e) e' /\ (length (points e') <= length (points e) + 1)%nat.
Proof using Hrefl Htrans fl.
  clear Hsrc HC Hle Hsp HL. intros HT Hsub Hget Hmk HF k e' Hk. destruct (Forall2_lookup_r _ _ _ _ _ HF Hk) as (e & He & Hs). exists e. split; [exact He|].
  destruct Hs as [[_ ->]|(Hl & p & Hp & Hi & Hu & Hpt)].
  - split; [|lia]. exists []. split; [apply Hrefl|]. split; [constructor|]. split; [reflexivity|]. by rewrite app_nil_r.
  - split; [|rewrite Hpt, app_length; cbn [length]; lia]. exists [mk p]. destruct (Hmk p) as (M1 & M2 & M3 & M4). split; [cbn; rewrite M2; by split|]. split; [|by split].
    constructor; [|constructor]. split; [exact M1|]. split; [|left; split; [exact M2|by rewrite M4]].
    assert (Hin : e ∈ t_sp T sn) by (apply Hsub; by eapply elem_of_list_lookup_2).
    apply elem_of_list_lookup in Hin as [j Hj]. destruct (HT sn) as [_ [_ H2] _ (_ & H4 & _) H5]. cbn [fst] in H2.
    destruct (H4 (e_index e)) as (Hz & p0 & Hp0 & _); [apply elem_of_list_fmap; exists e; split; [reflexivity|by eapply elem_of_list_lookup_2]|exact Hl|].
    pose proof (H2 _ _ Hp0) as Hg. rewrite Z2Nat.id in Hg by exact Hz. rewrite Hget in Hp. cbv beta in Hp. rewrite Hg in Hp. cbn in Hp. injection Hp as <-.
    rewrite M4, Hu. by eapply H5.
Qed.
Lemma sampled_seen step time sn get mk T T' saps xs : Traced u saps T xs ->
  get = (fun i => let! o := get_item (saps sn) i in Ok (seen (u_junk u) o)) -> (forall p, point_of step time p (mk p)) ->
  Forall2 (sampled1 get mk) (t_sp T sn) (t_sp T' sn) -> Seen step time sn T' (xs sn).
Proof using Hrefl Htrans fl le.
  clear Hsrc HC Hle Hsp HL. intros HT Hget Hmk HF p Hp Ht. apply elem_of_list_lookup in Hp as [i Hi].
  destruct (traced_leads u saps T xs HT sn) as (_ & _ & H3). destruct (H3 i p Hi Ht) as (k & e & Hk & Hie & Hue).
  destruct (Forall2_lookup_l _ _ _ _ _ HF Hk) as (e' & Hk' & Hs). destruct Hs as [[Hd _]|(Hl & q & Hq & _ & Hu & Hpt)]; [unfold NO_PINDEX in Hd; lia|].
  assert (q = p) as ->.
  { destruct (HT sn) as [_ [_ H2] _ _ _]. cbn [fst] in H2. pose proof (H2 _ _ Hi) as Hg. rewrite Hget, Hie in Hq. cbv beta in Hq. rewrite Hg in Hq. cbn in Hq. by injection Hq as ->. }
  exists e', (mk p). split; [by eapply elem_of_list_lookup_2|]. split; [congruence|]. split; [|apply Hmk]. rewrite Hpt. apply elem_of_app. right. left.
Qed.
Lemma rec_gains step time T T1 saps xs sn get mk : Traced u saps T xs ->
  (forall s, get s = (fun i => let! o := get_item (saps s) i in Ok (seen (u_junk u) o))) -> (forall p, point_of step time p (mk p)) ->
  t_sp T1 sn = t_sp T sn \/ Forall2 (sampled1 (get sn) mk) (t_sp T sn) (t_sp T1 sn) \/
  (exists l1 l2 l1', t_sp T sn = l1 ++ l2 /\ t_sp T1 sn = l1' ++ l2 /\ Forall2 (sampled1 (get sn) mk) l1 l1') ->
  ((length (t_sp T sn) <= length (t_sp T1 sn))%nat /\ forall k e', t_sp T1 sn !! k = Some e' -> GainsE le step time time time (t_sp T sn !! k) e') /\
  forall k e', t_sp T1 sn !! k = Some e' -> (Z.of_nat (length (points e')) <= 1 + match t_sp T sn !! k with Some e => Z.of_nat (length (points e)) | None => 0 end)%Z.
Proof using Hrefl Htrans fl.
  clear Hsrc HC Hle Hsp HL. intros HT Hget Hmk H.
  assert (Hsame : forall e : entry, GainsE le step time time time (Some e) e).
  { intros e. exists []. split; [apply Hrefl|]. split; [constructor|]. split; [reflexivity|]. by rewrite app_nil_r. }
  destruct H as [->|[HF|(l1 & l2 & l1' & E1 & E2 & HF)]].
  - split; [split; [lia|]|]; intros k e' ->; [apply Hsame|lia].
  - assert (HH : forall k e', t_sp T1 sn !! k = Some e' -> exists e, t_sp T sn !! k = Some e /\ GainsE le step time time time (Some e) e' /\ (length (points e') <= length (points e) + 1)%nat).
    { exact (sampled_gains step time sn (get sn) mk T _ _ saps xs HT ltac:(done) (Hget sn) Hmk HF). }
    split; [split; [by rewrite (Forall2_length _ _ _ HF)|]|]; intros k e' Hk; destruct (HH k e' Hk) as (e & -> & HG & HL'); [exact HG|lia].
  - pose proof (Forall2_length _ _ _ HF) as Hlen. 
    assert (HH : forall k e', t_sp T1 sn !! k = Some e' -> exists e, t_sp T sn !! k = Some e /\ GainsE le step time time time (Some e) e' /\ (length (points e') <= length (points e) + 1)%nat).
    { rewrite E1, E2. intros k e' Hk. apply lookup_app_Some in Hk as [Hk|[Hk1 Hk2]].
      + destruct (sampled_gains step time sn (get sn) mk T l1 l1' saps xs HT) with (k := k) (e' := e') as (e & He & HG); [|exact (Hget sn)|exact Hmk|exact HF|exact Hk|].
        { intros e He. rewrite E1. apply elem_of_app. by left. }
        exists e. rewrite (lookup_app_l_Some _ _ _ _ He). by split.
      + exists e'. rewrite lookup_app_r by lia. rewrite Hlen, Hk2. split; [reflexivity|]. split; [apply Hsame|lia]. }
    split; [split; [rewrite E1, E2, !app_length; lia|]|]; intros k e' Hk; destruct (HH k e' Hk) as (e & -> & HG & HL'); [exact HG|lia].
Qed.
Lemma gains_few step time T T' (P : Prop) :
  (forall sn, ((length (t_sp T sn) <= length (t_sp T' sn))%nat /\ forall k e', t_sp T' sn !! k = Some e' -> GainsE le step time time time (t_sp T sn !! k) e') /\
    forall k e', t_sp T' sn !! k = Some e' -> (Z.of_nat (length (points e')) <= 1 + match t_sp T sn !! k with Some e => Z.of_nat (length (points e)) | None => 0 end)%Z) ->
  P -> Gains le step time time time T T' /\ Few 1 T T' /\ P.
Proof using. intros H HP. split; [intros s; apply H|]. split; [intros s; apply H|exact HP]. Qed.
Lemma sample_good step time negE c st st1 T xs : (c <= step)%Z -> Good c st T xs -> record_trajectories fl u step time negE st = Ok st1 ->
  exists T', ss_traj st1 = Some T' /\ ss_saps st1 = ss_saps st /\ t_npoints T' = t_npoints T /\ Good step st1 T' xs /\ Gains le step time time time T T' /\ Few 1 T T' /\
    (t_last T = Some step /\ T' = T \/ (forall sn, sn ∈ u_charged u ++ u_neutral u -> Seen step time sn T' (xs sn)) \/ Full T').
Proof using Hrefl Htrans HL Hsp.
  clear Hsrc HC Hle. intros Hc HG E. pose proof HG as [G1 G2 G3 G4 G5]. pose proof (sample_saps fl u _ _ _ _ _ E) as Hsaps.
  destruct (quiet_traced fl u HL Hsp _ _ (quiet_sample fl u _ _ _ _ _ E) T xs G1 G2) as (T' & A1 & A2 & [A3 _]). exists T'.
  destruct (C22_history fl T T' G3 A3) as (S1 & S2 & _). split; [exact A1|]. split; [exact Hsaps|]. split; [exact S2|].
  unfold record_trajectories in E. rewrite G1 in E. destruct (record_trajectory_data _ _ _ _ _ _ _ _ _ _) as [T1|] eqn:Er; [|discriminate]. injection E as <-.
  cbn [with_traj ss_traj] in A1. injection A1 as <-.
  unfold record_trajectory_data in Er.
  destruct (match t_last T with Some l => (step =? l)%Z | None => false end) eqn:El.
  { injection Er as <-. split; [split; try assumption; [reflexivity|]; intros l Hl; specialize (G5 l Hl); lia|].
    split; [by apply gains_same; [exact Hrefl|exact Htrans|apply Hrefl|]|]. split; [apply gains_few_nil; [reflexivity|lia]|]. left. split; [|reflexivity]. destruct (t_last T) as [l|]; [|discriminate]. f_equal. lia. }
  cbv zeta in Er. set (get := fun sn i => let! o := get_item (ss_saps st sn) i in Ok (seen (u_junk u) o)) in *.
  match type of Er with context [rec_charged_all get ?mk _ _] => set (mkc := mk) in * end.
  assert (Hget : forall s, get s = (fun i => let! o := get_item (ss_saps st s) i in Ok (seen (u_junk u) o))) by reflexivity. clearbody get.
  assert (Hmkc : forall p, point_of step time p (mkc p)) by (intros p; by split_and!). clearbody mkc.
  pose proof Hsp as Hsp'. apply NoDup_app in Hsp' as (N1 & N2 & N3).
  destruct (rec_charged_all get mkc (u_charged u) T) as [[T2 b]|] eqn:E1; [|discriminate].
  destruct (rec_charged_all_shape get mkc _ N1 _ _ _ G3 E1) as (R1 & R2 & R3 & R4 & R5).
  assert (Hlast : forall l, t_last T = Some l -> (l <= step)%Z) by (intros l Hl; specialize (G5 l Hl); lia).
  destruct b.
  - injection Er as <-. destruct R5 as (s1 & sn & s2 & l1 & e & l2 & l1' & Q1 & Q2 & Q3 & Q4 & Q5 & Q6 & Q7 & Q8).
    split; [split; try assumption; [reflexivity|by rewrite R3]|]. apply gains_few.
    + intros s. apply (rec_gains step time T T2 (ss_saps st) xs s get mkc G2 Hget Hmkc).
      destruct (decide (s ∈ u_charged u)) as [Hs|Hs]; [|left; by apply R4]. rewrite Q1 in Hs. apply elem_of_app in Hs as [Hs|[->|Hs]%elem_of_cons].
      * right. left. by apply Q2.
      * right. right. by exists l1, (e :: l2), l1'.
      * left. by apply Q8.
    + right. right. exists sn, e. split; [rewrite Q4; apply elem_of_app; right; left|]. unfold full in *. by rewrite R2.
  - match type of Er with context [rec_neutral_all get ?mk _ _] => set (mkn := mk) in * end.
    assert (Hmkn : forall p, point_of step time p (mkn p)) by (intros p; by split_and!). clearbody mkn.
    destruct (rec_neutral_all get mkn (u_neutral u) T2) as [T3|] eqn:E2; [|discriminate]. injection Er as <-. cbn [t_npoints t_sp t_last] in *.
    destruct (rec_neutral_all_shape get mkn _ N3 _ _ R1 E2) as (U1 & U2 & U3 & U4 & U5).
    split; [split; try assumption; [reflexivity|cbn; intros l [= <-]; lia]|]. apply gains_few.
    + intros s. cbn [t_sp]. change (t_sp T3 s) with (t_sp T3 s). destruct (decide (s ∈ u_neutral u)) as [Hs|Hs].
      * apply (rec_gains step time T T3 (ss_saps st) xs s get mkn G2 Hget Hmkn). right. left. rewrite <- (R4 s); [by apply U5|]. intros Hs2. exact (N2 _ Hs2 Hs).
      * rewrite (U4 s Hs). apply (rec_gains step time T T2 (ss_saps st) xs s get mkc G2 Hget Hmkc).
        destruct (decide (s ∈ u_charged u)) as [Hs2|Hs2]; [right; left; by apply R5|left; by apply R4].
    + right. left. intros s Hs. apply elem_of_app in Hs as [Hs|Hs].
      * apply (sampled_seen step time s (get s) mkc T _ (ss_saps st) xs G2 (Hget s) Hmkc). cbn [t_sp]. rewrite U4; [by apply R5|]. exact (N2 _ Hs).
      * apply (sampled_seen step time s (get s) mkn T _ (ss_saps st) xs G2 (Hget s) Hmkn). cbn [t_sp]. rewrite <- (R4 s); [by apply U5|]. intros Hs2. exact (N2 _ Hs2 Hs).
Qed.

(** ** New particles *)
Lemma gains_later step time T1 T2 T3 : Gains le step time time time T1 T2 -> Gains le step time time time T2 T3 -> Gains le step time time time T1 T3.
Proof using Hrefl Htrans. intros H1 H2. eapply (gains_trans le Hrefl Htrans); [exact H1|exact H2|apply Hrefl]. Qed.
Lemma add_good first sn step time E Ex c st T xs p s1 T1 uid rng : Good c st T xs -> (first = true -> Firm (ss_saps st sn)) ->
  add_particle first sn step time E Ex (ss_saps st sn) (Some T) p = Ok (s1, T1) ->
  exists T', T1 = Some T' /\ t_npoints T' = t_npoints T /\ t_last T' = t_last T /\
    Good c (SrcSt (set_key (ss_saps st) sn s1) uid rng (Some T')) T' (fun s => xs s ++ if String.eqb sn s then [p] else []) /\
    (Firm (ss_saps st sn) -> Firm s1) /\ Gains le step time time time T T' /\ (forall m, (1 <= m)%Z -> Short m T -> Short m T') /\
    (first = true -> (is_traj p = true -> exists e d, e ∈ t_sp T' sn /\ e_uid e = puid p /\ Some d ∈ points e /\ point_of step time p d) \/ Full T').
Proof using Hrefl Htrans HL fl.
  clear Hsrc HC Hle Hsp. intros HG Hfirst Ea. pose proof HG as [G1 G2 G3 G4 G5]. pose proof (G2 sn) as [F1 F2 _ F4 F5]. cbn [fst] in F1, F2.
  destruct (add_events fl _ _ _ _ _ _ _ _ _ _ _ Ea) as (T' & -> & A1 & A2 & A3). exists T'. split; [reflexivity|].
  destruct (C22_history fl T T' G3 A1) as (S1 & S2 & _). split; [exact S2|].
  set (st' := SrcSt (set_key (ss_saps st) sn s1) uid rng (Some T')).
  assert (Ep : exists o, push_back (ss_saps st sn) p = Ok (s1, (o, Z.of_nat (length (xs sn)))) /\ (Accepts (ss_saps st sn) -> current_out_item s1 o = Ok (Some p)) /\
    Reachable (u_L u) s1 /\ Stores s1 (xs sn ++ [p])).
  { assert (Hp : exists o i, push_back (ss_saps st sn) p = Ok (s1, (o, i))) by (by eapply add_particle_push).
    destruct Hp as (o & i & Ep). exists o. destruct (pushed _ _ _ _ _ _ _ HL F1 F2 Ep) as [R1 R2].
    destruct (C06_push_or_assert (u_L u) (ss_saps st sn) (xs sn) p HL F1 F2) as [(s3 & E3 & _)|[E3 _]]; [|congruence]. rewrite Ep in E3. injection E3 as <- Ho Hi. rewrite Hi in Ep. clear Hi Ho.
    split; [exact Ep|]. split; [|by split]. intros HA. destruct (push_current _ HL _ _ p F1 F2 HA) as (s4 & E4 & _ & _ & _ & Hc). rewrite Ep in E4. injection E4 as <- ->. exact Hc. }
  destruct Ep as (o & Ep & Hcur & R1 & R2).
  assert (Hlt : forall k e, t_sp T sn !! k = Some e -> e_index e <> Z.of_nat (length (xs sn))).
  { intros k e Hk Hi. destruct F4 as (_ & Hlive & _). destruct (Hlive (e_index e)) as (_ & q & Hq & _).
    - apply elem_of_list_fmap. exists e. split; [reflexivity|by eapply elem_of_list_lookup_2].
    - unfold NO_PINDEX. lia.
    - apply lookup_lt_Some in Hq. lia. }
  assert (Hsame : forall e : entry, GainsE le step time time time (Some e) e).
  { intros e. exists []. split; [apply Hrefl|]. split; [constructor|]. split; [reflexivity|]. by rewrite app_nil_r. }
  assert (Hmain : t_last T' = t_last T /\ Gains le step time time time T T' /\ (forall m, (1 <= m)%Z -> Short m T -> Short m T') /\
    (first = true -> (is_traj p = true -> exists e d, e ∈ t_sp T' sn /\ e_uid e = puid p /\ Some d ∈ points e /\ point_of step time p d) \/ Full T')).
  { pose proof Ea as Ea'. unfold add_particle in Ea'. rewrite Ep in Ea'. destruct (is_traj p) eqn:Et.
    2: { injection Ea' as <-. split; [reflexivity|]. split; [apply gains_same; [exact Hrefl|exact Htrans|apply Hrefl|reflexivity]|]. split; [done|]. intros _. by left. }
    cbv zeta in Ea'. set (n := Z.of_nat (length (xs sn))) in *. set (e0 := Entry n (puid p) 0 (replicate (Z.to_nat (t_npoints T)) None)).
    set (T2 := create_trajectory T sn n (puid p)) in *. assert (Hes : t_sp T2 sn = t_sp T sn ++ [e0]) by apply set_sp_same.
    assert (S : Sound T2) by (destruct (C22_no_overflow fl T T2 G3) as (S & _); [constructor|exact S]).
    assert (Hg2 : Gains le step time time time T T2).
    { intros s. destruct (String.eqb_spec s sn) as [->|Hne].
      - rewrite Hes, app_length. split; [lia|]. intros k e' Hk. apply lookup_app_Some in Hk as [Hk|[Hk1 Hk2]]; [rewrite Hk; apply Hsame|].
        rewrite lookup_ge_None_2 by exact Hk1. apply list_lookup_singleton_Some in Hk2 as [_ <-]. exists []. split; [apply Hrefl|]. by split; [constructor|].
      - unfold T2, create_trajectory. rewrite set_sp_other by exact Hne. split; [lia|]. intros k e' ->. apply Hsame. }
    assert (Hs2 : forall m, (1 <= m)%Z -> Short m T -> Short m T2).
    { intros m Hm HS s e He. destruct (String.eqb_spec s sn) as [->|Hne].
      - rewrite Hes in He. apply elem_of_app in He as [He|He]; [by apply (HS sn)|]. apply elem_of_list_singleton in He as ->. change (points e0) with (@nil (option datum)). cbn [length]. lia.
      - unfold T2, create_trajectory in He. rewrite set_sp_other in He by exact Hne. by apply (HS s). }
    destruct first.
    2: { injection Ea' as <-. split; [reflexivity|]. split; [exact Hg2|]. split; [exact Hs2|discriminate]. }
    destruct (Hfirst eq_refl) as [Hno|HA]; [by apply Hno in Ep|]. rewrite (Hcur HA) in Ea'.
    pose proof (C22_datum_appends_one T2 sn p n step time E Ex false S) as Hd.
    destruct (record_datum (Some T2) sn p n step time E Ex false) as [o3|] eqn:Er; [|discriminate]. injection Ea' as ->.
    destruct Hd as (k & e & Hk & Hi & Hd). rewrite Hes in Hk. apply lookup_app_Some in Hk as [Hk|[Hk1 Hk2]]; [by apply Hlt in Hk|].
    apply list_lookup_singleton_Some in Hk2 as [Hk2 <-]. assert (k = length (t_sp T sn)) as -> by lia.
    destruct Hd as [[Hf ->]|(Hf & e' & -> & Hi' & Hu' & Hp')].
    - split; [reflexivity|]. split; [exact Hg2|]. split; [exact Hs2|]. intros _. right. exists sn, e0. split; [rewrite Hes; apply elem_of_app; right; left|exact Hf].
    - split; [reflexivity|]. rewrite Hes, insert_app_r_alt, Nat.sub_diag by lia. cbn [list_insert insert].
      set (d := Datum step time (px p) p E Ex) in *. assert (Hpt : points e' = [Some d]) by (rewrite Hp'; reflexivity). split; [|split].
      + intros s. destruct (String.eqb_spec s sn) as [->|Hne].
        * rewrite set_sp_same, app_length. split; [lia|]. intros k e1 Hk. apply lookup_app_Some in Hk as [Hk|[Hk3 Hk4]]; [rewrite Hk; apply Hsame|].
          rewrite lookup_ge_None_2 by exact Hk3. apply list_lookup_singleton_Some in Hk4 as [_ <-]. exists [d]. split; [split; apply Hrefl|].
          split; [|exact Hpt]. constructor; [|constructor]. split; [reflexivity|]. split; [rewrite Hu'; reflexivity|by left].
        * rewrite set_sp_other by exact Hne. apply Hg2.
      + intros m Hm HS s e He. destruct (String.eqb_spec s sn) as [->|Hne].
        * rewrite set_sp_same in He. apply elem_of_app in He as [He|He]; [by apply (HS sn)|]. apply elem_of_list_singleton in He as ->. rewrite Hpt. cbn [length]. lia.
        * rewrite set_sp_other in He by exact Hne. by apply (Hs2 m Hm HS s).
      + intros _. left. intros _. exists e', d. rewrite set_sp_same. split; [apply elem_of_app; right; left|]. split; [exact Hu'|].
        split; [rewrite Hpt; left|]. by split_and!. }
  destruct Hmain as (M1 & M2 & M3). split; [exact M1|]. split; [|split; [|by split]].
  - destruct (added_traced fl u HL st st') with (T := T) (xs := xs) as (T2 & xs2 & B1 & B2 & _); [|exact G1|exact G2|].
    { eapply (ad_more first sn step time E Ex p st s1 (Some T') uid rng st'); [by rewrite G1|constructor]. }
    cbn in B1. injection B1 as <-. split; cbn [ss_traj ss_saps]; [reflexivity| |exact S1| |rewrite M1; exact G5].
    + intros s. pose proof (B2 s) as [C1 C2 C3 C4 C5]. cbn [fst snd] in *.
      assert (Hx : xs2 s = xs s ++ (if String.eqb sn s then [p] else [])).
      { refine (stores_inj _ _ _ C2 _). cbn [st' ss_saps]. unfold set_key. rewrite (String.eqb_sym sn s). destruct (String.eqb_spec s sn) as [->|Hne]; [exact R2|].
        rewrite app_nil_r. apply (fo_stores _ _ _ _ _ (G2 s)). }
      rewrite <- Hx. by split.
    + intros s. change (Settled u (set_key (ss_saps st) sn s1 s)). unfold set_key. destruct (String.eqb_spec s sn) as [->|Hne]; [|apply G4]. exact (push_settled u HL _ _ _ _ _ F1 F2 Ep).
  - intros [Hno|HA]; [by apply Hno in Ep|right]. by eapply (C47_push_accepts (u_L u)).
Qed.

(** The particles of a source, one after the other. *)
Inductive Born (step : Z) (time : R) : srcst -> srcst -> Prop :=
| bn_done st : Born step time st st
| bn_more sn E Ex p st s1 T1 uid rng st' : sn ∈ u_charged u ->
    add_particle true sn step time E Ex (ss_saps st sn) (ss_traj st) p = Ok (s1, T1) ->
    Born step time (SrcSt (set_key (ss_saps st) sn s1) uid rng T1) st' -> Born step time st st'.
Lemma born_trans step time a b c : Born step time a b -> Born step time b c -> Born step time a c.
Proof using. induction 1; intros Hc; [exact Hc|eapply bn_more; eauto]. Qed.
Lemma source_born step time negE dom q st st' : s_species q ∈ u_charged u ->
  create_maxwellian fl (u_names u) (u_spherical u) (u_pdim u) (u_pi4 u) (u_rnd u) (u_fuel u) (u_dE u) (Some negE) None step time dom q st = Ok st' -> Born step time st st'.
Proof using.
  intros Hq. unfold create_maxwellian. destruct (negb _); [discriminate|]. destruct (weight_mult _ _ _ _) as [mult|]; [|discriminate].
  generalize (Z.to_nat (s_percell q)) as m. intros m.
  assert (H1 : forall c ips st st', new_particles fl (u_pdim u) (u_rnd u) (u_fuel u) (u_dE u) (Some negE) None (s_species q) step time (r_gdim dom) (s_drift q)
    c (fl (c_vol c * mult)) ips st = Ok st' -> Born step time st st').
  { intros c ips. induction ips as [|ip ips IH]; intros s0 s1 E; cbn [new_particles] in E; [injection E as <-; constructor|].
    destruct (new_particle _ _ _ _ _ _ _ _ _ _ _ _ _ _ _ _) as [s2|] eqn:E2; [|discriminate]. eapply born_trans; [|by eapply IH].
    unfold new_particle in E2. destruct (match ip with O => _ | S _ => _ end) as [[x k]|]; [|discriminate].
    destruct (negb _); [discriminate|]. destruct (add_particle _ _ _ _ _ _ _ _ _) as [[s3 T3]|] eqn:Ea; [|discriminate]. injection E2 as <-.
    eapply bn_more; [exact Hq|exact Ea|constructor]. }
  revert st. induction (r_cells dom) as [|c cs IH]; intros st E; cbn [new_cells] in E; [injection E as <-; constructor|].
  destruct (new_particles _ _ _ _ _ _ _ _ _ _ _ _ _ _ _ _) as [s1|] eqn:E1; [|discriminate]. eapply born_trans; [by eapply H1|by apply IH].
Qed.
Lemma sources_born step time negE st st' : add_from_sources fl u step time negE st = Ok st' -> Born step time st st'.
Proof using Hsrc.
  unfold add_from_sources. destruct (u_sources u) as [l|]; [|intros [= <-]; constructor]. cbn [default] in Hsrc.
  revert st. induction l as [|[dom q] l IH]; intros st E; cbn [source_list map add_more_particles fst snd] in E; [injection E as <-; constructor|].
  destruct (s_interval q =? 0)%Z; [discriminate|]. fold (source_list fl u negE l) in E.
  assert (IH' := IH ltac:(intros d r Hin; apply (Hsrc d); by right)). clear IH. destruct (step mod s_interval q =? 0)%Z; [|by apply IH'].
  destruct (create_maxwellian _ _ _ _ _ _ _ _ _ _ _ _ _ _ _) as [st1|] eqn:E1; [|discriminate].
  eapply born_trans; [eapply source_born; [apply (Hsrc dom); left|exact E1]|by apply IH'].
Qed.
Lemma born_good step time c st st' : Born step time st st' -> forall T xs, Good c st T xs -> Fed u st ->
  exists T' xs', Good c st' T' xs' /\ t_npoints T' = t_npoints T /\ t_last T' = t_last T /\ Gains le step time time time T T' /\ (forall m, (1 <= m)%Z -> Short m T -> Short m T') /\
    ((forall sn, Seen step time sn T (xs sn) -> Seen step time sn T' (xs' sn)) \/ Full T').
Proof using Hrefl Htrans HL fl.
  clear Hsrc HC Hle Hsp. induction 1 as [st|sn E Ex p st s1 T1 uid rng st' Hsn Ea H IH]; intros T xs HG HF.
  - exists T, xs. split; [exact HG|]. split; [reflexivity|]. split; [reflexivity|]. split; [apply gains_same; [exact Hrefl|exact Htrans|apply Hrefl|reflexivity]|].
    split; [done|]. left. by intros sn HS.
  - rewrite (g_traj _ _ _ _ HG) in Ea.
    destruct (add_good true sn step time E Ex c st T xs p s1 T1 uid rng HG (fun _ => HF sn Hsn) Ea) as (T2 & -> & A1 & A2 & A3 & A4 & A5 & A7 & A6).
    destruct (IH T2 _ A3) as (T' & xs' & B1 & B2 & B3 & B4 & B6 & B5).
    { apply fed_key; [exact HF|apply A4, HF, Hsn]. }
    exists T', xs'. split; [exact B1|]. split; [congruence|]. split; [congruence|]. split; [by eapply gains_later|]. split; [auto|].
    destruct (A6 eq_refl) as [Hp|Hf]; [|right; eapply (full_gains le); [exact B4|exact (g_sound _ _ _ _ A3)|exact (g_sound _ _ _ _ B1)|exact B2|exact Hf]].
    destruct B5 as [B5|B5]; [left|by right]. intros s HS. apply B5. intros q Hq Ht. apply elem_of_app in Hq as [Hq|Hq].
    + exact (seen_gains le _ _ _ _ _ _ _ _ _ _ A5 HS q Hq Ht).
    + destruct (String.eqb_spec sn s) as [<-|]; [|by apply elem_of_nil in Hq]. apply elem_of_list_singleton in Hq as ->. exact (Hp Ht).
Qed.
Lemma list_good step time c sn ps : forall st st' T xs, Good c st T xs -> create_from_list sn ps st = Ok st' ->
  exists T' xs', Good c st' T' xs' /\ t_npoints T' = t_npoints T /\ t_last T' = t_last T /\ Gains le step time time time T T' /\ (forall m, (1 <= m)%Z -> Short m T -> Short m T').
Proof using Hrefl Htrans HL fl.
  clear Hsrc HC Hle Hsp. induction ps as [|p ps IH]; intros st st' T xs HG E; cbn [create_from_list] in E.
  - injection E as <-. exists T, xs. split; [exact HG|]. split; [reflexivity|]. split; [reflexivity|]. split; [apply gains_same; [exact Hrefl|exact Htrans|apply Hrefl|reflexivity]|done].
  - destruct (add_particle _ _ _ _ _ _ _ _ _) as [[s1 T1]|] eqn:Ea; [|discriminate]. rewrite (g_traj _ _ _ _ HG) in Ea.
    change (add_particle false sn step time [] [] (ss_saps st sn) (Some T) p = Ok (s1, T1)) in Ea.
    destruct (add_good false sn step time [] [] c st T xs p s1 T1 (ss_uid st) (ss_rng st) HG ltac:(discriminate) Ea) as (T2 & -> & A1 & A2 & A3 & A4 & A5 & A7 & A6).
    destruct (IH _ _ _ _ A3 E) as (T' & xs' & B1 & B2 & B3 & B4 & B5). exists T', xs'. split; [exact B1|]. split; [congruence|]. split; [congruence|]. split; [by eapply gains_later|auto].
Qed.
Lemma initial_good step time c l : forall st st' T xs, Good c st T xs ->
  initialize_particles fl (u_names u) (u_spherical u) (u_pdim u) (u_pi4 u) (u_rnd u) (u_fuel u) (u_dE u) ANone l st = Ok st' ->
  exists T' xs', Good c st' T' xs' /\ t_npoints T' = t_npoints T /\ t_last T' = t_last T /\ Gains le step time time time T T' /\ (forall m, (1 <= m)%Z -> Short m T -> Short m T').
Proof using Hrefl Htrans HL.
  clear Hsrc HC Hle Hsp. induction l as [|[sn ps|q r|] l IH]; intros st st' T xs HG E; cbn [initialize_particles] in E; [| |discriminate E..].
  - injection E as <-. exists T, xs. split; [exact HG|]. split; [reflexivity|]. split; [reflexivity|]. split; [apply gains_same; [exact Hrefl|exact Htrans|apply Hrefl|reflexivity]|done].
  - destruct (negb _); [discriminate|]. destruct (create_from_list sn ps st) as [st1|] eqn:E1; [|discriminate].
    destruct (list_good step time c sn ps st st1 T xs HG E1) as (T2 & xs2 & A1 & A2 & A3 & A4 & A5). destruct (IH _ _ _ _ A1 E) as (T' & xs' & B1 & B2 & B3 & B4 & B5).
    exists T', xs'. split; [exact B1|]. split; [congruence|]. split; [congruence|]. split; [by eapply gains_later|auto].
Qed.

(** ** A step, the beginning and the end *)
Definition SeenAll (step : Z) (time : R) (T : traj) (xs : string -> list particle) : Prop :=
  (forall sn, sn ∈ u_charged u ++ u_neutral u -> Seen step time sn T (xs sn)) \/ Full T.
Context (st32 : R -> R).
Lemma step_good w w' T xs : Good (rs_count w) (rs_src w) T xs -> time_step fl st32 u w = Ok w' ->
  rs_count w' = (rs_count w + 1)%Z /\ rs_time w' = fl (rs_time w + u_dt u) /\ le (rs_time w) (rs_time w') /\
  exists T' xs', Good (rs_count w') (rs_src w') T' xs' /\ t_npoints T' = t_npoints T /\ Gains le (rs_count w') (rs_time w') (rs_time w) (rs_time w') T T' /\
    (forall m, (1 <= m)%Z -> Short m T -> Short (m + (Z.max 0 (u_maxc u) + 2)) T') /\
    ((rs_count w' mod u_traj_skip u = 0)%Z \/ t_last T' = Some (rs_count w') -> SeenAll (rs_count w') (rs_time w') T' xs').
Proof using Hrefl Htrans HL Hsp Hle HC Hsrc.
  intros HG E. pose proof HG as [G1 G2 G3 G4 G5]. unfold time_step in E. set (st := rs_src w) in *. set (step := (rs_count w + 1)%Z) in *. set (time := fl (rs_time w + u_dt u)) in *.
  assert (Hstart : le (rs_time w) (fl (time - u_dt u))).
  { destruct Hle as [H|(-> & -> & _)]; [apply H|unfold time, exact; lra]. }
  assert (Hend : le (rs_time w) time) by (eapply Htrans; [exact Hstart|by apply (start_le le Hrefl Htrans)]).
  destruct (advance_species _ _ _ _ _ _ _ _) as [[saps1 c1]|] eqn:E1; [|discriminate].
  assert (HG0 : Good (rs_count w) (SrcSt (ss_saps st) (ss_uid st) (ss_rng st) (Some T)) T xs) by (by split).
  pose proof Hsp as Hsp'. apply NoDup_app in Hsp' as (Hnd & _ & _).
  destruct (advance_good step time (rs_negE w) (rs_count w) (u_charged u) Hnd ltac:(clear; subst step; lia) (ss_saps st) (TCtx (rs_scr w) (ss_traj st)) saps1 c1 T xs _ _ G1 HG0 E1)
    as (T1 & xs1 & A1 & A2 & A3 & A4 & A5 & A6 & A8 & A7).
  rewrite A1 in E. cbn [ss_traj] in E. set (st1 := SrcSt saps1 (ss_uid st) (ss_rng st) (Some T1)) in *.
  assert (A6' : Gains le step time (rs_time w) time T T1).
  { eapply (gains_trans le Hrefl Htrans); [apply gains_same; [exact Hrefl|exact Htrans|exact Hstart|reflexivity]|exact A6|exact Hstart]. }
  destruct (every _ _ _ st1) as [st2|] eqn:E2; [|discriminate].
  assert (H2 : exists T2, Good step st2 T2 xs1 /\ ss_saps st2 = saps1 /\ t_npoints T2 = t_npoints T1 /\ Gains le step time time time T1 T2 /\ Few 1 T1 T2 /\
    ((step mod u_traj_skip u = 0)%Z \/ t_last T2 = Some step -> SeenAll step time T2 xs1)).
  { unfold every in E2. destruct (u_traj_skip u =? 0)%Z; [discriminate|]. destruct (Z.eqb_spec (step mod u_traj_skip u) 0) as [Hm|Hm].
    - destruct (sample_good step time (rs_negE w) (rs_count w) st1 st2 T1 xs1 ltac:(clear; subst step; lia) A2 E2) as (T2 & B1 & B2 & B3 & B4 & B5 & B7 & B6).
      exists T2. split; [exact B4|]. split; [exact B2|]. split; [exact B3|]. split; [exact B5|]. split; [exact B7|]. intros _. destruct B6 as [[B6 _]|B6]; [|exact B6].
      rewrite A4 in B6. specialize (G5 _ B6). clear - G5. subst step. lia.
    - injection E2 as <-. exists T1. split; [eapply good_later; [|exact A2]; clear; subst step; lia|]. split; [reflexivity|]. split; [reflexivity|].
      split; [apply gains_same; [exact Hrefl|exact Htrans|apply Hrefl|reflexivity]|]. split; [apply gains_few_nil; [reflexivity|clear; lia]|]. intros [H|H]; [contradiction|].
      rewrite A4 in H. specialize (G5 _ H). clear - G5. subst step. lia. }
  destruct H2 as (T2 & B1 & B2 & B3 & B4 & B6 & B5).
  destruct (add_from_sources _ _ _ _ _ st2) as [st3|] eqn:E3; [|discriminate].
  destruct (born_good step time step st2 st3 (sources_born _ _ _ _ _ E3) T2 xs1 B1) as (T3 & xs3 & C1 & C2 & C3 & C4 & C6 & C5).
  { intros sn Hs. rewrite B2. apply A7. by left. }
  cbv beta iota zeta in E.
  destruct (match u_out_interval u with None => _ | Some _ => _ end) as [[st4 o4]|] eqn:E4; [|discriminate].
  assert (H4 : exists saps, Looped (ss_saps st3) saps /\ st4 = with_saps st3 saps).
  { assert (Hid : exists saps, Looped (ss_saps st3) saps /\ st3 = with_saps st3 saps) by (exists (ss_saps st3); split; [constructor|by destruct st3]).
    destruct (u_out_interval u) as [k|]; [|injection E4 as <- <-; exact Hid]. unfold every in E4. destruct (k =? 0)%Z; [discriminate|].
    destruct (_ mod k =? 0)%Z; [by eapply write_looped|injection E4 as <- <-; exact Hid]. }
  destruct H4 as (saps4 & Hl4 & ->).
  destruct (density_update _ _ _ _ _ _ _ _ _ _ _) as [[[[saps5 rho] dofs] cells]|] eqn:E5; [|discriminate].
  assert (Hl5 : Looped saps4 saps5) by (by eapply density_looped).
  destruct (u_solve u rho) as [negE|]; [|discriminate].
  destruct (match rs_hist w with None => _ | Some _ => _ end) as [[st6 h6]|] eqn:E6; [|discriminate].
  set (st5 := with_saps (with_saps st3 saps4) saps5) in *.
  assert (H6 : exists saps, Looped (ss_saps st5) saps /\ st6 = with_saps st5 saps).
  { assert (Hid : exists saps, Looped (ss_saps st5) saps /\ st5 = with_saps st5 saps) by (exists (ss_saps st5); split; [constructor|reflexivity]).
    destruct (rs_hist w) as [k|]; [|injection E6 as <- <-; exact Hid]. unfold every in E6. destruct (u_hist_skip u =? 0)%Z; [discriminate|].
    destruct (_ mod u_hist_skip u =? 0)%Z; [by eapply history_phase_looped|injection E6 as <- <-; exact Hid]. }
  destruct H6 as (saps6 & Hl6 & ->). injection E as <-. cbn [rs_count rs_time rs_src]. split; [reflexivity|]. split; [reflexivity|]. split; [exact Hend|].
  exists T3, xs3. split; [|split; [|split; [|split]]].
  - apply good_looped; [exact Hl6|]. apply good_looped; [exact Hl5|]. apply good_looped; [exact Hl4|exact C1].
  - congruence.
  - eapply (gains_trans le Hrefl Htrans); [exact A6'| |exact Hend]. by eapply gains_later.
  - intros m Hm HS. apply C6; [clear - Hm; lia|]. replace (m + (Z.max 0 (u_maxc u) + 2))%Z with (m + (Z.max 0 (u_maxc u) + 1) + 1)%Z by (clear; lia).
    eapply few_short; [clear - Hm; lia|exact B6|]. eapply few_short; [clear - Hm; lia|exact A8|exact HS].
  - rewrite C3. intros H. destruct (B5 H) as [H1|H1].
    + destruct C5 as [C5|C5]; [left; intros sn Hs; by apply C5, H1|by right].
    + right. eapply (full_gains le); [exact C4|exact (g_sound _ _ _ _ B1)|exact (g_sound _ _ _ _ C1)|exact C2|exact H1].
Qed.
Lemma init_good file ini w w' T xs : Good (rs_count w) (rs_src w) T xs -> t_last T = None ->
  initialization fl st32 u file ini w = Ok w' -> rs_count w' = rs_count w /\ rs_time w' = rs_time w /\
  exists T' xs', Good (rs_count w') (rs_src w') T' xs' /\ t_npoints T' = t_npoints T /\ Gains le (rs_count w') (rs_time w') (rs_time w') (rs_time w') T T' /\
    (Short 0 T -> Short 2 T') /\ (ini <> None \/ t_last T' = Some (rs_count w') -> SeenAll (rs_count w') (rs_time w') T' xs').
Proof using Hrefl Htrans HL Hsp.
  clear Hsrc HC Hle. intros HG Hlast E. unfold initialization in E. set (o := if file then _ else _) in *. clearbody o.
  destruct (match ini with None => _ | Some _ => _ end) as [w1|] eqn:E1; [|discriminate].
  assert (H1 : rs_count w1 = rs_count w /\ rs_time w1 = rs_time w /\ exists T' xs', Good (rs_count w) (rs_src w1) T' xs' /\ t_npoints T' = t_npoints T /\
    Gains le (rs_count w) (rs_time w) (rs_time w) (rs_time w) T T' /\ (Short 0 T -> Short 2 T') /\ (ini <> None \/ t_last T' = Some (rs_count w) -> SeenAll (rs_count w) (rs_time w) T' xs')).
  { destruct ini as [l|].
    - unfold initial_particles in E1. cbn [rs_count rs_time rs_scr rs_src rs_out rs_rho rs_dofs rs_cells rs_negE rs_hist] in E1.
      destruct (initialize_particles _ _ _ _ _ _ _ _ _ _ _) as [st1|] eqn:F1; [|discriminate].
      destruct (initial_good (rs_count w) (rs_time w) (rs_count w) l _ _ T xs HG F1) as (T1 & xs1 & A1 & A2 & A3 & A4 & A5). cbv beta iota zeta in E1.
      destruct (if file then _ else _) as [[st2 o2]|] eqn:F2; [|discriminate].
      assert (H2 : exists saps, Looped (ss_saps st1) saps /\ st2 = with_saps st1 saps).
      { destruct file; [by eapply write_looped|]. injection F2 as <- <-. exists (ss_saps st1). split; [constructor|by destruct st1]. }
      destruct H2 as (saps2 & Hl2 & ->). destruct (record_trajectories _ _ _ _ _ _) as [st3|] eqn:F3; [|discriminate].
      destruct (sample_good (rs_count w) (rs_time w) (rs_negE w) (rs_count w) _ st3 T1 xs1 ltac:(clear; lia) (good_looped _ _ _ _ _ Hl2 A1) F3) as (T2 & B1 & B2 & B3 & B4 & B5 & B7 & B6).
      destruct (density_update _ _ _ _ _ _ _ _ _ _ _) as [[[[saps5 rho] dofs] cells]|] eqn:E5; [|discriminate].
      destruct (u_solve u rho) as [negE|]; [|discriminate]. injection E1 as <-. cbn [rs_count rs_time rs_src]. split; [reflexivity|]. split; [reflexivity|].
      exists T2, xs1. split; [apply good_looped; [by eapply density_looped|exact B4]|]. split; [congruence|]. split; [by eapply gains_later|].
      split; [intros HS; apply (few_short 1 1 T1 T2); [clear; lia|exact B7|]; apply A5; [clear; lia|]; eapply short_more; [|exact HS]; clear; lia|]. intros _. destruct B6 as [[B6 _]|B6]; [congruence|exact B6].
    - injection E1 as <-. cbn [rs_count rs_time rs_src]. split; [reflexivity|]. split; [reflexivity|]. exists T, xs. split; [exact HG|]. split; [reflexivity|].
      split; [apply gains_same; [exact Hrefl|exact Htrans|apply Hrefl|reflexivity]|]. split; [intros HS; eapply short_more; [|exact HS]; clear; lia|]. intros [H|H]; congruence. }
  destruct H1 as (Hc & Ht & T1 & xs1 & A1 & A2 & A3 & A4). destruct (record_run_history _ _ _ _ _ _) as [[st3 h3]|] eqn:E3; [|discriminate].
  injection E as <-. cbn [rs_count rs_time rs_src]. split; [exact Hc|]. split; [exact Ht|]. rewrite Hc, Ht. exists T1, xs1.
  destruct (history_phase_looped _ _ _ _ _ _ _ _ _ E3) as (saps & Hl & ->). split; [by apply good_looped|]. by split.
Qed.
Lemma finish_good file w w' T xs : Good (rs_count w) (rs_src w) T xs -> (t_last T = Some (rs_count w) -> SeenAll (rs_count w) (rs_time w) T xs) ->
  finish fl u file w = Ok w' ->
  exists T', Good (rs_count w) (rs_src w') T' xs /\ t_npoints T' = t_npoints T /\ Gains le (rs_count w) (rs_time w) (rs_time w) (rs_time w) T T' /\
    Few 1 T T' /\ SeenAll (rs_count w) (rs_time w) T' xs.
Proof using Hrefl Htrans HL Hsp.
  clear Hsrc HC Hle. intros HG Hs E. unfold finish in E. destruct (if file then _ else _) as [[st1 o1]|] eqn:E1; [|discriminate].
  assert (H1 : exists saps, Looped (ss_saps (rs_src w)) saps /\ st1 = with_saps (rs_src w) saps).
  { destruct file; [by eapply write_looped|]. injection E1 as <- <-. exists (ss_saps (rs_src w)). split; [constructor|by destruct (rs_src w)]. }
  destruct H1 as (saps & Hl & ->). destruct (record_trajectories _ _ _ _ _ _) as [st2|] eqn:E2; [|discriminate]. injection E as <-. cbn [rs_src].
  destruct (sample_good (rs_count w) (rs_time w) (rs_negE w) (rs_count w) _ st2 T xs ltac:(clear; lia) (good_looped _ _ _ _ _ Hl HG) E2) as (T2 & B1 & B2 & B3 & B4 & B5 & B7 & B6).
  exists T2. split; [exact B4|]. split; [exact B3|]. split; [exact B5|]. split; [exact B7|]. destruct B6 as [[B6 ->]|B6]; [by apply Hs|exact B6].
Qed.

(** The points of an entry after step [k]: each shows a particle with the ID of the entry, in one of the steps so far, and they are
    in the order of time. *)
Definition Path (c0 : Z) (ts : nat -> R) (k : nat) (e : entry) : Prop := exists ds, points e = map Some ds /\
  Forall (fun d => puid (d_p d) = e_uid e /\ exists j, (j <= k)%nat /\ d_step d = (c0 + Z.of_nat j)%Z /\
    le (ts (pred j)) (d_time d) /\ le (d_time d) (ts j) /\ ((d_time d = ts j /\ d_x d = px (d_p d)) \/ d_x d = px0 (d_p d))) ds /\
  StronglySorted (fun a b => (d_step a <= d_step b)%Z /\ le (d_time a) (d_time b)) ds.
Lemma timed_within lo hi ds : Timed le lo hi ds -> Forall (fun d => le lo (d_time d) /\ le (d_time d) hi) ds /\ StronglySorted (fun a b => le (d_time a) (d_time b)) ds.
Proof using Hrefl Htrans.
  clear - Hrefl Htrans. revert lo. induction ds as [|d ds IH]; intros lo; cbn; [intros _; split; constructor|]. intros [H1 H2]. destruct (IH _ H2) as [A1 A2]. split.
  - constructor; [split; [exact H1|by eapply (timed_le le Hrefl Htrans)]|]. eapply list.Forall_impl; [exact A1|]. cbn. intros x [B1 B2]. split; [by eapply Htrans|exact B2].
  - constructor; [exact A2|]. eapply list.Forall_impl; [exact A1|]. by intros x [B1 _].
Qed.
Lemma sorted_app (Q : datum -> datum -> Prop) l1 l2 : StronglySorted Q l1 -> StronglySorted Q l2 -> (forall a b, a ∈ l1 -> b ∈ l2 -> Q a b) -> StronglySorted Q (l1 ++ l2).
Proof using.
  clear. induction 1 as [|a l1 H1 IH Ha]; intros H2 H; [exact H2|]. cbn. constructor.
  - apply IH; [exact H2|]. intros x y Hx. apply H. by right.
  - apply Forall_app. split; [exact Ha|]. apply list.Forall_forall. intros y Hy. apply H; [left|exact Hy].
Qed.
Lemma path_more c0 ts k j o e' : (forall a b, (a <= b <= j)%nat -> le (ts a) (ts b)) -> (k <= j)%nat -> (pred j <= k)%nat ->
  match o with Some e => Path c0 ts k e | None => True end ->
  GainsE le (c0 + Z.of_nat j) (ts j) (ts k) (ts j) o e' -> Path c0 ts j e'.
Proof using Hrefl Htrans.
  clear Hsrc HC Hle Hsp HL. intros Hm Hkj Hp Ho (ds & G1 & G2 & G3). destruct (timed_within _ _ _ G1) as [W1 W2].
  assert (N1 : Forall (fun d => puid (d_p d) = e_uid e' /\ exists i, (i <= j)%nat /\ d_step d = (c0 + Z.of_nat i)%Z /\
    le (ts (pred i)) (d_time d) /\ le (d_time d) (ts i) /\ ((d_time d = ts i /\ d_x d = px (d_p d)) \/ d_x d = px0 (d_p d))) ds).
  { apply list.Forall_forall. intros d Hd. destruct (proj1 (list.Forall_forall _ _) G2 d Hd) as (S1 & S2 & S3). destruct (proj1 (list.Forall_forall _ _) W1 d Hd) as [T1 T2].
    split; [exact S2|]. exists j. split; [lia|]. split; [exact S1|]. split; [eapply Htrans; [apply Hm|exact T1]; lia|]. by split. }
  assert (N2 : StronglySorted (fun a b => (d_step a <= d_step b)%Z /\ le (d_time a) (d_time b)) ds).
  { clear - G2 W2. induction W2 as [|d ds H IH Hd]; [constructor|]. apply list.Forall_cons in G2 as [S1 S2]. constructor; [by apply IH|].
    apply list.Forall_forall. intros x Hx. destruct (proj1 (list.Forall_forall _ _) S2 x Hx) as (S3 & _). destruct S1 as (S1 & _).
    split; [clear - S1 S3; lia|exact (proj1 (list.Forall_forall _ _) Hd x Hx)]. }
  destruct o as [e|].
  - destruct G3 as [G3 G4]. destruct Ho as (ds0 & P1 & P2 & P3). exists (ds0 ++ ds). split; [by rewrite G4, P1, map_app|]. split.
    + apply Forall_app. split; [|exact N1]. eapply list.Forall_impl; [exact P2|]. cbv beta. intros d (Q1 & i & Q2 & Q3). split; [congruence|]. exists i. split; [lia|exact Q3].
    + apply sorted_app; [exact P3|exact N2|]. intros a b Ha Hb. destruct (proj1 (list.Forall_forall _ _) P2 a Ha) as (_ & i & I1 & I2 & _ & I4 & _).
      destruct (proj1 (list.Forall_forall _ _) G2 b Hb) as (S1 & _). destruct (proj1 (list.Forall_forall _ _) W1 b Hb) as [T1 _].
      split; [lia|]. eapply Htrans; [exact I4|]. eapply Htrans; [|exact T1]. apply Hm. lia.
  - exists ds. split; [exact G3|]. by split.
Qed.
Lemma good_pop c st T xs pop : Good c st T xs -> StoresAll (u_L u) (ss_saps st) pop -> Good c st T pop /\ forall sn, xs sn = pop sn.
Proof using.
  clear Hsrc HC Hle Hsp HL. intros HG HS. assert (Hx : forall sn, xs sn = pop sn).
  { intros sn. exact (stores_inj _ _ _ (fo_stores _ _ _ _ _ (g_traced _ _ _ _ HG sn)) (proj2 (HS sn))). }
  split; [|exact Hx]. destruct HG as [G1 G2 G3 G4 G5]. split; try assumption. intros sn. rewrite <- Hx. apply G2.
Qed.
Lemma seen_all_eq step time T xs pop : (forall sn, xs sn = pop sn) -> SeenAll step time T xs -> SeenAll step time T pop.
Proof using. intros Hx [H|H]; [left|by right]. intros sn Hs. rewrite <- Hx. by apply H. Qed.
Lemma seen_all_gains step0 time0 xs step time lo hi T T' : Gains le step time lo hi T T' -> Sound T -> Sound T' -> t_npoints T' = t_npoints T ->
  SeenAll step0 time0 T xs -> SeenAll step0 time0 T' xs.
Proof using.
  intros HG S1 S2 Hn [H|H]; [left|right; by eapply (full_gains le)]. intros sn Hs. eapply (seen_gains le); [exact HG|by apply H].
Qed.

(** The steps after which the flagged particles get a point. *)
Definition sampled (ini : option (list initial)) (n : nat) (c0 : Z) (k : nat) : Prop :=
  match k with O => ini <> None | S _ => ((c0 + Z.of_nat k) mod u_traj_skip u = 0)%Z end \/ k = n.
Lemma run_points file ini n w w' ws pop fate new T0 : Main fl st32 u file ini n w w' ws pop fate new ->
  (forall sn, ss_saps (rs_src w) sn = sap_init (u_L u)) ->
  ss_traj (rs_src w) = Some T0 -> (forall sn, t_sp T0 sn = []) -> (0 <= t_npoints T0)%Z -> t_last T0 = None ->
  let ts k := rs_time (ws k) in
  (ts 0%nat = rs_time w /\ forall k, (k < n)%nat -> ts (S k) = fl (ts k + u_dt u)) /\
  exists T, ss_traj (rs_src w') = Some T /\ t_npoints T = t_npoints T0 /\ (forall sn e, e ∈ t_sp T sn -> Path (rs_count w) ts n e) /\ Short (3 + Z.of_nat n * (Z.max 0 (u_maxc u) + 2)) T /\
    forall k, (k <= n)%nat -> sampled ini n (rs_count w) k -> SeenAll (rs_count w + Z.of_nat k) (ts k) T (pop k).
Proof using Hrefl Htrans HL Hsp Hle HC Hsrc.
  intros [M1 M2 M3 M4] H0 HT0 HE0 Hnp Hlast ts.
  pose proof (l_step _ _ _ _ _ _ _ _ _ _ _ _ M2) as Hst. pose proof (l_holds _ _ _ _ _ _ _ _ _ _ _ _ M2) as HH.
  assert (HG : Good (rs_count w) (rs_src w) T0 (fun _ => [])).
  { split; [exact HT0| | | |rewrite Hlast; discriminate].
    - intros sn. rewrite H0. split; cbn; [constructor| |reflexivity| |by rewrite HE0].
      + by destruct (C01_push_keeps_place (u_L u) (@nil particle) HL) as (s & [= <-] & Hst0).
      + rewrite HE0. split; [by intros a b i|]. split; [|done]. cbn. by intros i ?%elem_of_nil.
    - split; [exact Hnp|]. intros s e He. rewrite HE0 in He. by apply elem_of_nil in He.
    - intros sn. rewrite H0. exact (init_settled u HL). }
  destruct (init_good file ini w (ws 0%nat) T0 _ HG Hlast M1) as (Hc0 & Ht0 & T1 & xs1 & A1 & A2 & A3 & A6 & A4).
  destruct (good_pop _ _ _ _ (pop 0%nat) A1 (HH 0%nat ltac:(clear; lia))) as [A1' Hx1].
  assert (Hc : forall k, (k <= n)%nat -> rs_count (ws k) = (rs_count w + Z.of_nat k)%Z).
  { intros [|k] Hk; [rewrite Hc0; clear; lia|]. rewrite (proj2 (Hst k Hk)), Hc0. clear; lia. }
  assert (Htm : forall k, (k < n)%nat -> ts (S k) = fl (ts k + u_dt u)).
  { intros k Hk. destruct (step_parts _ _ _ _ _ (proj1 (Hst k Hk))) as (_ & _ & _ & _ & _ & _ & _ & _ & _ & _ & _ & _ & _ & _ & _ & _ & _ & Ht). exact Ht. }
  assert (Hmono : forall a b, (a <= b <= n)%nat -> le (ts a) (ts b)).
  { intros a b [Hab Hb]. induction Hab as [|b Hab IH]; [apply Hrefl|]. eapply Htrans; [apply IH; clear - Hb; lia|]. rewrite Htm by (clear - Hb; lia).
    destruct Hle as [H|(-> & -> & H)]; [apply H|]. unfold exact. lra. }
  split; [by split|].
  assert (HI : forall k, (k <= n)%nat -> exists T, Good (rs_count w + Z.of_nat k) (rs_src (ws k)) T (pop k) /\ t_npoints T = t_npoints T0 /\
    (forall sn e, e ∈ t_sp T sn -> Path (rs_count w) ts k e) /\ Short (2 + Z.of_nat k * (Z.max 0 (u_maxc u) + 2)) T /\
    (forall j, (j <= k)%nat -> match j with O => ini <> None | S _ => ((rs_count w + Z.of_nat j) mod u_traj_skip u = 0)%Z end ->
       SeenAll (rs_count w + Z.of_nat j) (ts j) T (pop j)) /\
    (t_last T = Some (rs_count w + Z.of_nat k)%Z -> SeenAll (rs_count w + Z.of_nat k) (ts k) T (pop k))).
  { induction k as [|k IH]; intros Hk.
    - pose proof (Hc 0%nat Hk) as Hc'. rewrite Hc' in *. exists T1. split; [exact A1'|]. split; [exact A2|]. split; [|split; [|split]].
      + intros sn e He. apply elem_of_list_lookup in He as [i Hi]. apply (path_more (rs_count w) ts 0 0 None e); [|clear; lia|clear; lia|exact I|].
        * intros a b Hab. apply Hmono. clear - Hab Hk. lia.
        * destruct (A3 sn) as [_ A5]. specialize (A5 i e Hi). rewrite HE0 in A5. exact A5.
      + apply A6. intros sn e He. rewrite HE0 in He. by apply elem_of_nil in He.
      + intros j Hj Hini. assert (j = 0%nat) as -> by (clear - Hj; lia). apply (seen_all_eq _ _ _ _ _ Hx1), A4. by left.
      + intros H. apply (seen_all_eq _ _ _ _ _ Hx1), A4. by right.
    - destruct (IH ltac:(clear - Hk; lia)) as (T & B1 & B2 & B3 & B6 & B4 & B5). destruct (Hst k Hk) as [E _]. rewrite <- (Hc k ltac:(clear - Hk; lia)) in B1.
      destruct (step_good (ws k) (ws (S k)) T (pop k) B1 E) as (_ & _ & _ & T' & xs' & C1 & C2 & C3 & C6 & C4).
      destruct (good_pop _ _ _ _ (pop (S k)) C1 (HH (S k) Hk)) as [C1' Hx']. rewrite (Hc (S k) Hk) in *.
      exists T'. split; [exact C1'|]. split; [congruence|]. split; [|split; [|split]].
      + intros sn e He. apply elem_of_list_lookup in He as [i Hi]. destruct (C3 sn) as [_ C5]. specialize (C5 i e Hi).
        apply (path_more (rs_count w) ts k (S k) (t_sp T sn !! i) e); [|clear; lia|clear; lia| |exact C5].
        * intros a b Hab. apply Hmono. clear - Hab Hk. lia.
        * destruct (t_sp T sn !! i) as [e0|] eqn:Ei; [|exact I]. apply (B3 sn). by eapply elem_of_list_lookup_2.
      + replace (2 + Z.of_nat (S k) * (Z.max 0 (u_maxc u) + 2))%Z with (2 + Z.of_nat k * (Z.max 0 (u_maxc u) + 2) + (Z.max 0 (u_maxc u) + 2))%Z by (clear; lia).
        apply C6; [clear; nia|exact B6].
      + intros j Hj Hd. destruct (decide (j = S k)) as [->|Hne].
        * apply (seen_all_eq _ _ _ _ _ Hx'), C4. by left.
        * eapply seen_all_gains; [exact C3|exact (g_sound _ _ _ _ B1)|exact (g_sound _ _ _ _ C1)|exact C2|]. apply B4; [clear - Hj Hne; lia|exact Hd].
      + intros H. apply (seen_all_eq _ _ _ _ _ Hx'), C4. by right. }
  destruct (HI n (le_n n)) as (T & B1 & B2 & B3 & B6 & B4 & B5). rewrite <- (Hc n (le_n n)) in B1, B5.
  destruct (finish_good file (ws n) w' T (pop n) B1 B5 M3) as (T' & C1 & C2 & C3 & C6 & C4). rewrite (Hc n (le_n n)) in *.
  exists T'. split; [exact (g_traj _ _ _ _ C1)|]. split; [congruence|]. split; [|split].
  - intros sn e He. apply elem_of_list_lookup in He as [i Hi]. destruct (C3 sn) as [_ C5]. specialize (C5 i e Hi).
    apply (path_more (rs_count w) ts n n (t_sp T sn !! i) e); [exact Hmono|clear; lia|clear; lia| |exact C5].
    destruct (t_sp T sn !! i) as [e0|] eqn:Ei; [|exact I]. apply (B3 sn). by eapply elem_of_list_lookup_2.
  - replace (3 + Z.of_nat n * (Z.max 0 (u_maxc u) + 2))%Z with (2 + Z.of_nat n * (Z.max 0 (u_maxc u) + 2) + 1)%Z by (clear; lia).
    eapply few_short; [clear; nia|exact C6|exact B6].
  - intros k Hk [Hs| ->]; [|exact C4]. eapply seen_all_gains; [exact C3|exact (g_sound _ _ _ _ B1)|exact (g_sound _ _ _ _ C1)|exact C2|]. by apply B4.
Qed.
End Run.

Section Statements.
Context (fl st32 : R -> R) (u : setup) (HL : (1 <= u_L u)%Z) (Hsp : NoDup (u_charged u ++ u_neutral u)).
Context (HC : forall sn, Civil (u_bcs u sn)).
Context (Hsrc : forall dom q, (dom, q) ∈ default [] (u_sources u) -> s_species q ∈ u_charged u).
Context (file : bool) (ini : option (list initial)) (n : nat) (w w' : runst) (ws : nat -> runst) (pop : nat -> string -> list particle).
Context (fate : nat -> string -> list (option particle)) (new : nat -> string -> list particle) (T0 : traj).
Context (HM : Main fl st32 u file ini n w w' ws pop fate new) (H0 : forall sn, ss_saps (rs_src w) sn = sap_init (u_L u)).
Context (HT0 : ss_traj (rs_src w) = Some T0) (HE0 : forall sn, t_sp T0 sn = []) (Hnp : (0 <= t_npoints T0)%Z) (Hlast : t_last T0 = None).

(** The trajectory of a particle shows this particle and no other.  Every point belongs to one of the steps of the program; it shows
    the particle at the end of the step, at the time of the step, or at the place where it crossed a boundary.  The points are in the
    order of the steps.  Rounding is arbitrary. *)
Theorem C52_points :
  (rs_time (ws 0%nat) = rs_time w /\ forall k, (k < n)%nat -> rs_time (ws (S k)) = fl (rs_time (ws k) + u_dt u)) /\
  exists T, ss_traj (rs_src w') = Some T /\ forall sn e, e ∈ t_sp T sn -> exists ds, points e = map Some ds /\
    (forall d, d ∈ ds -> puid (d_p d) = e_uid e /\ exists k, (k <= n)%nat /\ d_step d = (rs_count w + Z.of_nat k)%Z /\
       ((d_time d = rs_time (ws k) /\ d_x d = px (d_p d)) \/ d_x d = px0 (d_p d))) /\
    StronglySorted (fun a b => (d_step a <= d_step b)%Z) ds.
Proof using HL Hsp HC Hsrc HM H0 HT0 HE0 Hnp Hlast.
  destruct (run_points (fun _ _ => True) (fun _ => I) (fun _ _ _ _ _ => I) fl u HL Hsp (or_introl (fun _ _ => I)) HC Hsrc st32 file ini n w w' ws pop fate new T0 HM H0 HT0 HE0 Hnp Hlast)
    as (Ht & T & A1 & _ & A2 & _). split; [exact Ht|]. exists T. split; [exact A1|]. intros sn e He. destruct (A2 sn e He) as (ds & B1 & B2 & B3).
  exists ds. split; [exact B1|]. split.
  - intros d Hd. destruct (proj1 (list.Forall_forall _ _) B2 d Hd) as (C1 & k & C2 & C3 & _ & _ & C4). split; [exact C1|]. by exists k.
  - clear - B3. induction B3 as [|d ds H IH Hd]; constructor; [exact IH|]. eapply list.Forall_impl; [exact Hd|]. by intros x [Hx _].
Qed.

(** At every step at which the trajectories are sampled (and at the beginning, if there are initial particles, and at the end) every
    flagged particle of the charged and neutral species gets a point: the final trajectories have a point with the number and the
    time of the step, which shows this particle with its position.  The exception is that some trajectory has run out of room. *)
Theorem C52_samples k sn p : (k <= n)%nat ->
  match k with O => ini <> None | S _ => ((rs_count w + Z.of_nat k) mod u_traj_skip u = 0)%Z end \/ k = n ->
  sn ∈ u_charged u ++ u_neutral u -> p ∈ pop k sn -> is_traj p = true ->
  exists T, ss_traj (rs_src w') = Some T /\
    ((exists e d, e ∈ t_sp T sn /\ e_uid e = puid p /\ Some d ∈ points e /\
        d_step d = (rs_count w + Z.of_nat k)%Z /\ d_time d = rs_time (ws k) /\ d_x d = px p /\ d_p d = p) \/
     exists s e, e ∈ t_sp T s /\ (t_npoints T0 <= e_len e)%Z).
Proof using HL Hsp HC Hsrc HM H0 HT0 HE0 Hnp Hlast.
  intros Hk Hd Hsn Hp Hf.
  destruct (run_points (fun _ _ => True) (fun _ => I) (fun _ _ _ _ _ => I) fl u HL Hsp (or_introl (fun _ _ => I)) HC Hsrc st32 file ini n w w' ws pop fate new T0 HM H0 HT0 HE0 Hnp Hlast)
    as (_ & T & A1 & A2 & _ & _ & A3). exists T. split; [exact A1|]. destruct (A3 k Hk Hd) as [B|(s & e & B1 & B2)].
  - left. exact (B sn Hsn p Hp Hf).
  - right. exists s, e. split; [exact B1|]. unfold full in B2. clear - B2 A2. lia.
Qed.

(** No trajectory gets more than [max_facet_crossings + 2] points in a step, so with room for so many points nothing is missing. *)
Theorem C52_room : (3 + Z.of_nat n * (Z.max 0 (u_maxc u) + 2) < t_npoints T0)%Z ->
  forall k sn p, (k <= n)%nat ->
  match k with O => ini <> None | S _ => ((rs_count w + Z.of_nat k) mod u_traj_skip u = 0)%Z end \/ k = n ->
  sn ∈ u_charged u ++ u_neutral u -> p ∈ pop k sn -> is_traj p = true ->
  exists T e d, ss_traj (rs_src w') = Some T /\ e ∈ t_sp T sn /\ e_uid e = puid p /\ Some d ∈ points e /\
    d_step d = (rs_count w + Z.of_nat k)%Z /\ d_time d = rs_time (ws k) /\ d_x d = px p /\ d_p d = p.
Proof using HL Hsp HC Hsrc HM H0 HT0 HE0 Hnp Hlast.
  intros Hroom k sn p Hk Hd Hsn Hp Hf. destruct (C52_samples k sn p Hk Hd Hsn Hp Hf) as (T & A1 & [(e & d & B)|(s & e & B1 & B2)]); [by exists T, e, d|].
  destruct (run_points (fun _ _ => True) (fun _ => I) (fun _ _ _ _ _ => I) fl u HL Hsp (or_introl (fun _ _ => I)) HC Hsrc st32 file ini n w w' ws pop fate new T0 HM H0 HT0 HE0 Hnp Hlast)
    as (_ & T' & C1 & C2 & _ & C3 & _). assert (T' = T) as -> by congruence.
  destruct (C50_trajectories fl st32 u HL Hsp file ini n w w' ws pop fate new T0 HC HM H0 HT0 HE0 Hnp) as (Ts & T2 & _ & D1 & _ & D2 & _).
  assert (T2 = T) as -> by congruence. pose proof (points_length _ _ (proj2 D2 s e B1)) as Hlen. specialize (C3 s e B1). clear - Hroom B2 C3 Hlen. lia.
Qed.
End Statements.

(** With exact arithmetic the points of a trajectory are in the order of time, and the points of a step lie between the end of the
    step before and the end of the step. *)
Theorem C52_times st32 u file ini n w w' ws pop fate new T0 : (1 <= u_L u)%Z -> NoDup (u_charged u ++ u_neutral u) -> 0 <= u_dt u ->
  (forall sn, Civil (u_bcs u sn)) -> (forall dom q, (dom, q) ∈ default [] (u_sources u) -> s_species q ∈ u_charged u) ->
  Main exact st32 u file ini n w w' ws pop fate new -> (forall sn, ss_saps (rs_src w) sn = sap_init (u_L u)) ->
  ss_traj (rs_src w) = Some T0 -> (forall sn, t_sp T0 sn = []) -> (0 <= t_npoints T0)%Z -> t_last T0 = None ->
  exists T, ss_traj (rs_src w') = Some T /\ forall sn e, e ∈ t_sp T sn -> exists ds, points e = map Some ds /\
    StronglySorted (fun a b => d_time a <= d_time b) ds /\
    forall d, d ∈ ds -> exists k, (k <= n)%nat /\ d_step d = (rs_count w + Z.of_nat k)%Z /\ rs_time (ws (pred k)) <= d_time d <= rs_time (ws k).
Proof.
  intros HL Hsp Hdt HC Hsrc HM H0 HT0 HE0 Hnp Hlast.
  destruct (run_points Rle Rle_refl Rle_trans exact u HL Hsp (or_intror (conj eq_refl (conj eq_refl Hdt))) HC Hsrc st32 file ini n w w' ws pop fate new T0 HM H0 HT0 HE0 Hnp Hlast)
    as (_ & T & A1 & _ & A2 & _). exists T. split; [exact A1|]. intros sn e He. destruct (A2 sn e He) as (ds & B1 & B2 & B3).
  exists ds. split; [exact B1|]. split.
  - clear - B3. induction B3 as [|d ds H IH Hd]; constructor; [exact IH|]. eapply list.Forall_impl; [exact Hd|]. by intros x [_ Hx].
  - intros d Hd. destruct (proj1 (list.Forall_forall _ _) B2 d Hd) as (_ & k & C2 & C3 & C4 & C5 & _). by exists k.
Qed.

(** ** Example *)

(** The program of [C51_example] with room for 40 points.  The flagged particle [ea], with the ID 1, moves from 1/2 to 3/2 in the first
    step and leaves through the boundary in the second: its points show it at the times 0 and 1, and its times are in order. *)
Definition roomy_start : runst :=
  RunSt 0 0 [0] (SrcSt (fun _ => sap_init 2) 3 0 (Some (Traj 40 None (fun _ => [])))) (out_init 2 ["e"%string] (fun _ => sap_init 2)) [] (fun _ => []) (fun _ => []) (fun _ => [0]) (Some (hist_new 3)).
Example C52_example : exists m w' T, main_run exact exact (main_setup m) true main_initial 2 roomy_start = Ok w' /\ ss_traj (rs_src w') = Some T /\
  (exists e d, e ∈ t_sp T "e" /\ e_uid e = 1%Z /\ Some d ∈ points e /\ d_step d = 0%Z /\ d_time d = 0 /\ d_x d = [1/2]) /\
  (exists e d, e ∈ t_sp T "e" /\ e_uid e = 1%Z /\ Some d ∈ points e /\ d_step d = 1%Z /\ d_time d = 1 /\ nth 0 (d_x d) 0 = 3/2) /\
  (forall e, e ∈ t_sp T "e" -> exists ds, points e = map Some ds /\ StronglySorted (fun a b => d_time a <= d_time b) ds).
Proof.
  destruct C50_example as (m & w2 & x & Hx & E & HF & _ & _). exists m. set (u := main_setup m) in *.
  assert (HO : forall sn, Oblivious (u_bcs u sn)).
  { intros sn. apply (ships_oblivious exact). intros v bc Hb. cbn in Hb. unfold eg_bcs in Hb. destruct (v =? 1)%Z; [|discriminate]. injection Hb as <-. by left. }
  assert (HC : forall sn, Civil (u_bcs u sn)).
  { intros sn. apply (ships_civil exact). intros v bc Hb. cbn in Hb. unfold eg_bcs in Hb. destruct (v =? 1)%Z; [|discriminate]. injection Hb as <-. by left. }
  assert (HL : (1 <= u_L u)%Z) by (cbn; lia).
  assert (Hsp : NoDup (u_charged u ++ u_neutral u)) by apply NoDup_singleton.
  assert (Hsrc : forall dom q, (dom, q) ∈ default [] (u_sources u) -> s_species q ∈ u_charged u).
  { intros dom q Hq. apply elem_of_list_singleton in Hq. injection Hq as -> ->. left. }
  set (T0 := Traj 40 None (fun _ => [])).
  change main_start with (no_trajs roomy_start) in E.
  apply (C51_run_transparent exact exact u HL Hsp HO HC 40) with (T0 := T0) in E as (w' & E & ->);
    [|exact Hsrc|reflexivity|reflexivity|reflexivity|reflexivity|lia|discriminate|by left].
  change (o_file (rs_out (no_trajs w'))) with (o_file (rs_out w')) in HF.
  destruct (C50_phases exact exact u HL true main_initial 2 roomy_start w' (NoDup_singleton _) HC (fun _ => eq_refl) E) as (ws & pop & fate & new & HM).
  pose proof (m_loop _ _ _ _ _ _ _ _ _ _ _ _ HM) as HLg.
  assert (P0 : pop 0%nat "e" = [ea; eb]) by (rewrite (l_start _ _ _ _ _ _ _ _ _ _ _ _ HLg); reflexivity).
  destruct (init_phases _ _ _ _ _ _ _ (m_start _ _ _ _ _ _ _ _ _ _ _ _ HM)) as (? & ? & ? & _ & _ & _ & _ & Hc0 & Ht0).
  destruct (l_books _ _ _ _ _ _ _ _ _ _ _ _ HLg 0 "e" ltac:(lia)) as (B1 & B2 & B3 & _). rewrite Hc0 in B3. change (emitted _ _ _) with 0%nat in B3.
  apply nil_length_inv in B3. rewrite B3, app_nil_r in B1.
  destruct (l_books _ _ _ _ _ _ _ _ _ _ _ _ HLg 1 "e" ltac:(lia)) as (D1 & D2 & D3 & _). rewrite Hc0 in D3. change (emitted _ _ _) with 1%nat in D3.
  assert (Hsv : forall l : list (option particle), (length (survivors l) <= length l)%nat).
  { induction l as [|[q|] l IH]; [reflexivity|change (S (length (survivors l)) <= S (length l))%nat; clear - IH; lia|change (length (survivors l) <= S (length l))%nat; clear - IH; lia]. }
  assert (L1 : (length (pop 1%nat "e") <= 2)%nat).
  { rewrite B1. etransitivity; [apply Hsv|]. rewrite <- (Forall2_length _ _ _ B2), P0. reflexivity. }
  assert (L2 : (length (pop 2%nat "e") <= 3)%nat).
  { rewrite D1, app_length, D3. pose proof (Hsv (fate 1%nat "e")). rewrite <- (Forall2_length _ _ _ D2) in H. lia. }
  assert (Hpop : forall k, (k <= 2)%nat -> (Z.of_nat (population (u_names u) (pop k)) < 2 ^ 53)%Z).
  { intros k Hk. change (population (u_names u) (pop k)) with (length (pop k "e") + 0)%nat.
    destruct k as [|[|[|k]]]; [rewrite P0; cbn [length]; clear; lia|clear - L1; lia|clear - L2; lia|clear - Hk; lia]. }
  destruct (C50_file exact exact u HL exact_rounding) with (ini := main_initial) (n := 2%nat) (w := roomy_start) (w' := w') (saps0 := fun _ : string => sap_init (A:=particle) 2)
    (ws := ws) (pop := pop) (fate := fate) (new := new) as [HFile _]; [..|reflexivity|exact Hpop|].
  { apply NoDup_singleton. } { intros pA Hp. apply elem_of_list_singleton in Hp as ->. right. eexists _, _. split; [reflexivity|discriminate]. }
  { apply NoDup_singleton. } { exact HC. } { exact HM. } { reflexivity. } { reflexivity. }
  rewrite HF in HFile. change (all_groups u main_initial 2) with [0%nat; 1%nat; 2%nat] in HFile.
  assert (Hg : [Some (VF (3/2)); Some (VF (1/2))] = map (fun p => Some (VF (nth 0 (px p) 0))) (pop 1%nat "e") ++ []).
  { exact (f_equal (fun l => match l with _ :: Group _ _ ((_, c) :: _) :: _ => c | _ => [] end) HFile). }
  rewrite app_nil_r in Hg. destruct (pop 1%nat "e") as [|q1 ps] eqn:P1; [discriminate|]. cbn [map] in Hg. injection Hg as Hq1 Hps.
  assert (Hlen : length ps = 1%nat) by (apply (f_equal length) in Hps; rewrite map_length in Hps; exact (eq_sym Hps)).
  rewrite P0 in B2. inversion B2 as [|? r1 ? l1 R1 B2' Eq1 Ef1]; subst. inversion B2' as [|? r2 ? l2 R2 B2'' Eq2 Ef2]; subst. inversion B2''; subst.
  assert (Hid : puid q1 = 1%Z /\ is_traj q1 = true).
  { rewrite <- Ef1 in B1. destruct r1 as [r1|]; [|destruct r2; cbn in B1; [injection B1 as _ B1; rewrite B1 in Hlen; discriminate Hlen|discriminate]].
    change (q1 :: ps = r1 :: survivors [r2]) in B1. injection B1 as -> _. unfold Fate in R1. rewrite bool_decide_eq_true_2 in R1 by left. destruct R1 as (_ & U1 & U2 & _). rewrite U1, U2. split; reflexivity. }
  destruct Hid as [Hu1 Hf1].
  destruct (C52_points exact exact u HL Hsp HC Hsrc true main_initial 2 roomy_start w' ws pop fate new T0 HM (fun _ => eq_refl) eq_refl (fun _ => eq_refl) ltac:(cbn; lia) eq_refl) as ([Ht Hts] & _).
  assert (Hroom : (3 + Z.of_nat 2 * (Z.max 0 (u_maxc u) + 2) < t_npoints T0)%Z) by (cbn; lia).
  assert (HR := C52_room exact exact u HL Hsp HC Hsrc true main_initial 2 roomy_start w' ws pop fate new T0 HM (fun _ => eq_refl) eq_refl (fun _ => eq_refl) ltac:(cbn; lia) eq_refl Hroom).
  destruct (C52_times exact u true main_initial 2 roomy_start w' ws pop fate new T0 HL Hsp ltac:(cbn; lra) HC Hsrc HM (fun _ => eq_refl) eq_refl (fun _ => eq_refl) ltac:(cbn; lia) eq_refl) as (T & HT & Htimes).
  exists w', T. split; [exact E|]. split; [exact HT|]. split; [|split].
  - destruct (HR 0%nat "e"%string ea) as (T1 & e & d & A1 & A2 & A3 & A4 & A5 & A6 & A7 & _); [lia|left; discriminate|left|rewrite P0; left|reflexivity|].
    rewrite HT in A1. injection A1 as <-. exists e, d. split; [exact A2|]. split; [exact A3|]. split; [exact A4|]. split; [exact A5|]. split; [rewrite A6; exact Ht|exact A7].
  - destruct (HR 1%nat "e"%string q1) as (T1 & e & d & A1 & A2 & A3 & A4 & A5 & A6 & A7 & _); [lia|left; reflexivity|left|rewrite P1; left|exact Hf1|].
    rewrite HT in A1. injection A1 as <-. exists e, d. split; [exact A2|]. split; [rewrite A3; exact Hu1|]. split; [exact A4|]. split; [exact A5|]. split; [|rewrite A7; exact (eq_sym Hq1)].
    rewrite A6, (Hts 0%nat) by lia. rewrite Ht. cbn. unfold exact. lra.
  - intros e He. destruct (Htimes "e"%string e He) as (ds & D4 & D5 & _). exact (ex_intro _ ds (conj D4 D5)).
Qed.

Print Assumptions C52_points.
Print Assumptions C52_samples.
Print Assumptions C52_room.
Print Assumptions C52_times.
Print Assumptions C52_example.
