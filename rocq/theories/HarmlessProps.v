(** C51, continued: recording trajectories makes no program fail. *)
From Coq Require Import String.
From stdpp Require Import strings numbers list list_numbers relations.
From Verif Require Import SapModel MoverModel SapProofs SapSpec SapRefine StorageProps.
From Verif Require Import Vec VecProofs Rounding TrackModel TrajModel TrajProofs TrajProps TrajRecProps DiagModel DiagProofs DumpProps SumProps HistoryProps.
From Verif Require Import AcceptProps DensityModel DensityProps SourceModel SourceProps UidProps RunModel RunProps MainProps TransparentProps.
From Verif Require Import BcModel RunTotalProps MainTotalProps.
Local Open Scope R_scope.

(** ** The recording does not fail *)
Section Recording.
Context (fl : R -> R) (bcs : Z -> option (bcfun (K:=option traj))) (HO : Oblivious bcs) (HC : Civil bcs) (sn : string) (idx : list Z) (fi : Z).
(** The indices of the entries are [idx]. *)
Definition Kept (T : traj) : Prop := Sound T /\ map e_index (t_sp T sn) = idx.
Context (recd : tctx (K:=option traj) -> Z -> particle -> R -> res (tctx (K:=option traj))).
Context (Hrec : forall c p t c2 T, usr c = Some T -> Kept T -> fi ∈ idx -> recd (untraced c) fi p t = Ok c2 ->
  usr c2 = None /\ exists T', recd c fi p t = Ok (TCtx (scr c2) (Some T')) /\ Kept T').
Lemma on_marker_back m mf f n t p c q c2 T : usr c = Some T -> Kept T -> (is_traj p = true -> fi ∈ idx) ->
  on_marker bcs recd m fi mf f n t p (untraced c) = Ok (q, c2) ->
  usr c2 = None /\ exists T', on_marker bcs recd m fi mf f n t p c = Ok (q, TCtx (scr c2) (Some T')) /\ Kept T' /\ is_traj q = is_traj p.
Proof using HO HC Hrec.
  intros HT HK Hp E. unfold on_marker in *. destruct (_ =? 0)%Z.
  { injection E as <- <-. split; [reflexivity|]. exists T. split; [destruct c; cbn in *; by subst|done]. }
  destruct (if is_traj p then recd (untraced c) fi p t else Ok (untraced c)) as [c1|] eqn:E1; [|discriminate].
  assert (Hc1 : usr c1 = None /\ exists T1, (if is_traj p then recd c fi p t else Ok c) = Ok (TCtx (scr c1) (Some T1)) /\ Kept T1).
  { destruct (is_traj p); [eapply Hrec; eauto|]. injection E1 as <-. split; [reflexivity|]. exists T. split; [destruct c; cbn in *; by subst|exact HK]. }
  destruct Hc1 as (Hu1 & T1 & -> & HK1). destruct (bcs (marker m mf)) as [bc|] eqn:Eb; [|discriminate].
  pose proof (HO _ _ c1 p mf f n Eb) as F1. pose proof (HO _ _ (TCtx (scr c1) (Some T1)) p mf f n Eb) as F2.
  unfold untraced in F1, F2. cbn [scr usr] in F1, F2. rewrite E in F1. destruct (bc (TCtx (scr c1) None) p mf f n) as [[q3 c3]|]; [|discriminate].
  cbv beta iota in F1, F2. injection F1 as -> ->. split; [exact Hu1|]. exists T1. split; [exact F2|]. split; [exact HK1|].
  destruct (HC _ _ _ _ _ _ _ _ _ Eb E) as [(_ & _ & H) _]. exact H.
Qed.
Lemma track_loop_back k m maxc : forall fuel ci ml cnt tS dtR p c q n c2 T, usr c = Some T -> Kept T -> (is_traj p = true -> fi ∈ idx) ->
  track_loop fl bcs recd fuel k m maxc fi ci ml cnt tS dtR p (untraced c) = Ok (q, n, c2) ->
  usr c2 = None /\ is_traj q = is_traj p /\
  exists T', track_loop fl bcs recd fuel k m maxc fi ci ml cnt tS dtR p c = Ok (q, n, TCtx (scr c2) (Some T')) /\ Kept T'.
Proof using HO HC Hrec.
  induction fuel as [|fuel IH]; intros ci ml cnt tS dtR p c q n c2 T HT HK Hp E; cbn [track_loop] in *; [discriminate|].
  destruct (cells m ci) as [cr|]; [|discriminate].
  destruct (inside m ci _). { injection E as <- <- <-. split; [reflexivity|]. split; [reflexivity|]. exists T. split; [destruct c; cbn in *; by subst|exact HK]. }
  destruct (_ <? _)%Z; [discriminate|].
  destruct (find_facet _ _ _ _ _) as [[[cf f] nn]|]; [|discriminate]. cbv beta iota zeta in *.
  destruct (cf =? NO_FACET)%Z; [discriminate|].
  destruct (py_get (fids cr) cf) as [mf|]; [|discriminate].
  destruct (mf =? ml)%Z; [discriminate|].
  assert (Hput : forall dx, put_move k (untraced c) dx = untraced (put_move k c dx)) by (intros dx; destruct k; reflexivity). rewrite Hput in E.
  destruct (on_marker bcs recd _ _ _ _ _ _ _ _) as [[p2 c3]|] eqn:E1; [|discriminate].
  eapply on_marker_back in E1 as (Hu3 & T1 & -> & HK1 & Ht); [|by destruct k|exact HK|exact Hp]. change (is_traj p2 = is_traj p) in Ht.
  destruct (py_get (nbrs cr) cf) as [cn|]; [|discriminate].
  assert (Hc3 : c3 = untraced (TCtx (scr c3) (Some T1))). { destruct c3; cbn in Hu3 |- *; by rewrite Hu3. }
  destruct (cn =? NO_CELL)%Z.
  - destruct (is_deleted p2); [injection E as <- <- <-; split; [exact Hu3|]; split; [exact Ht|]; by exists T1|]. rewrite Hc3 in E. eapply IH in E; [rewrite <- Ht; exact E|done|exact HK1|by rewrite Ht].
  - rewrite Hc3 in E. eapply IH in E; [rewrite <- Ht; exact E|done|exact HK1|]. change (is_traj (set_pcell p2 cn)) with (is_traj p2). by rewrite Ht.
Qed.
Lemma track_back k m maxc time dt p c q c2 T : usr c = Some T -> Kept T -> (is_traj p = true -> fi ∈ idx) ->
  track fl bcs recd k m maxc fi time dt p (untraced c) = Ok (q, c2) ->
  usr c2 = None /\ is_traj q = is_traj p /\ exists T', track fl bcs recd k m maxc fi time dt p c = Ok (q, TCtx (scr c2) (Some T')) /\ Kept T'.
Proof using HO HC Hrec.
  unfold track. intros HT HK Hp E. destruct (track_loop _ _ _ _ _ _ _ _ _ _ _ _ _ p (untraced c)) as [[[q1 n] c1]|] eqn:E1; [|discriminate].
  eapply track_loop_back in E1 as (A1 & A2 & T1 & -> & A3); [|exact HT|exact HK|exact Hp]. injection E as <- <-.
  split; [exact A1|]. split; [exact A2|]. by exists T1.
Qed.
End Recording.


(** ** The movers *)
Lemma insert_still (es : list entry) i e e' fi z : es !! i = Some e -> e_index e = fi -> z <> fi ->
  z ∈ map e_index es -> z ∈ map e_index (<[i:=e']> es).
Proof.
  intros Hi He Hz Hin. apply elem_of_list_lookup in Hin as [j Hj]. rewrite list_lookup_fmap in Hj.
  destruct (es !! j) as [e2|] eqn:E2; [|discriminate]. injection Hj as Hj. assert (i <> j) by (intros ->; congruence).
  apply elem_of_list_lookup. exists j. rewrite list_lookup_fmap, list_lookup_insert_ne, E2 by assumption. cbn. by rewrite Hj.
Qed.
Lemma datum_back sn idx T p fi step time E Ex cr : Kept sn idx T -> fi ∈ idx ->
  exists T', record_datum (Some T) sn p fi step time E Ex cr = Ok (Some T') /\ Kept sn idx T'.
Proof.
  intros [HS Hi] Hin. pose proof (C22_datum_appends_one T sn p fi step time E Ex cr HS) as H.
  destruct (record_datum _ _ _ _ _ _ _ _ _) as [[T'|]|e] eqn:Er; [|done|destruct H as [_ H]; by rewrite Hi in H].
  exists T'. split; [reflexivity|]. pose proof (record_datum_frame _ _ _ _ _ _ _ _ _ _ Er) as (T4 & [= <-] & _ & F).
  destruct (C22_no_overflow (fun x => x) T T' HS) as (S1 & _); [by eapply re_datum|]. split; [exact S1|]. by rewrite F.
Qed.

(** The movers with their own arguments and boundary functions that keep the identity of particles and do not use the trajectories. *)
Inductive Recorder (fl : R -> R) (sn : string) : hooks particle (tctx (K:=option traj)) -> Prop :=
| rc_charged step time dt qom maxc m bcs dE negE Eext solved ext ao : Oblivious bcs -> Civil bcs ->
    Recorder fl sn (charged_hooks fl sn step time dt qom maxc m bcs dE negE Eext solved ext ao)
| rc_neutral step time dt maxc m bcs : Oblivious bcs -> Civil bcs -> Recorder fl sn (neutral_hooks fl sn step time dt maxc m bcs).
Lemma recorder_tracer fl sn hk : Recorder fl sn hk -> Tracer fl sn hk.
Proof. intros []; by constructor. Qed.
Lemma recorder_mover fl sn hk : Recorder fl sn hk -> MoverOf fl sn hk.
Proof. intros []; by constructor. Qed.

Section Movers.
Context (fl : R -> R) (sn : string) (hk : hooks particle (tctx (K:=option traj))) (HT : Recorder fl sn hk).
Lemma adv_back idx c i p q c2 T : usr c = Some T -> Kept sn idx T -> (is_traj p = true -> i ∈ idx) ->
  adv hk (untraced c) i p = Ok (q, c2) ->
  usr c2 = None /\ is_traj q = is_traj p /\ exists T', adv hk c i p = Ok (q, TCtx (scr c2) (Some T')) /\ Kept sn idx T'.
Proof using HT.
  intros HU HK Hp. destruct HT as [step time dt qom maxc m bcs dE negE Eext solved ext ao HO HC|step time dt maxc m bcs HO HC]; cbn [charged_hooks neutral_hooks adv].
  - destruct (select_E _ _ _ _ _ _ _) as [Es|]; [|discriminate]. unfold advance_charged.
    match goal with |- track _ _ _ _ _ _ _ _ _ ?p1 _ = _ -> _ => assert (Hf : is_traj p1 = is_traj p) by (destruct ao, Es; reflexivity) end.
    rewrite <- Hf in Hp |- *. apply (track_back fl bcs HO HC sn idx i) with (T := T); [|exact HU|exact HK|exact Hp].
    intros c0 p0 t c3 T0 H0 K0 Hin E. unfold rec_crossing_charged in *. destruct Es as [e|]; [|discriminate].
    destruct (match Eext with Some _ => _ | None => _ end) as [x|]; [|discriminate]. cbn in E. injection E as <-. split; [reflexivity|].
    rewrite H0. destruct (datum_back sn idx T0 p0 i step t e x true K0 Hin) as (T' & -> & K'). by exists T'.
  - unfold advance_neutral.
    match goal with |- track _ _ _ _ _ _ _ _ _ ?p1 _ = _ -> _ => assert (Hf : is_traj p1 = is_traj p) by reflexivity end.
    rewrite <- Hf in Hp |- *. apply (track_back fl bcs HO HC sn idx i) with (T := T); [|exact HU|exact HK|exact Hp].
    intros c0 p0 t c3 T0 H0 K0 Hin E. unfold rec_crossing_neutral in *. cbn in E. injection E as <-. split; [reflexivity|].
    rewrite H0. destruct (datum_back sn idx T0 p0 i step t [] [] true K0 Hin) as (T' & -> & K'). by exists T'.
Qed.
Lemma keep_back c ch i j q c2 T : usr c = Some T -> Sound T -> (is_traj q = true -> i ∈ map e_index (t_sp T sn)) ->
  on_keep hk (untraced c) ch i j q = Ok c2 ->
  c2 = untraced c /\ exists T', on_keep hk c ch i j q = Ok (TCtx (scr c) (Some T')) /\ Sound T' /\
    forall z, z <> i -> z ∈ map e_index (t_sp T sn) -> z ∈ map e_index (t_sp T' sn).
Proof using HT.
  intros HU HS Hq E. assert (on_keep hk = keep_particle sn) as Hk by (by destruct HT). rewrite Hk in *. unfold keep_particle in *. cbn in E. injection E as <-.
  split; [reflexivity|]. rewrite HU. assert (Hc : c = TCtx (scr c) (Some T)) by (destruct c; cbn in *; by subst).
  destruct (is_traj q) eqn:Eq; cbn [andb]; [|exists T; rewrite <- Hc; done]. destruct ch; [|exists T; rewrite <- Hc; done].
  unfold update_particleId. destruct (list_index_in _ _ (Hq eq_refl)) as [k Ek]. rewrite Ek. apply list_index_ok in Ek as Hi. rewrite list_lookup_fmap in Hi.
  destruct (t_sp T sn !! k) as [e|] eqn:Ee; [|discriminate]. injection Hi as Hi.
  eexists. split; [reflexivity|]. split.
  - destruct (C22_no_overflow (fun x => x) T (set_sp T sn (<[k:=Entry j (e_uid e) (e_len e) (e_data e)]> (t_sp T sn))) HS) as (S1 & _); [|exact S1].
    apply (re_update _ T sn i j). unfold update_particleId. by rewrite Ek, Ee.
  - intros z Hz Hin. rewrite set_sp_same. by eapply insert_still.
Qed.
Lemma drop_back c i p q c2 T : usr c = Some T -> Sound T -> (is_traj p = true -> i ∈ map e_index (t_sp T sn)) ->
  on_drop hk (untraced c) i p q = Ok c2 ->
  c2 = untraced c /\ exists T', on_drop hk c i p q = Ok (TCtx (scr c) (Some T')) /\ Sound T' /\
    forall z, z <> i -> z ∈ map e_index (t_sp T sn) -> z ∈ map e_index (t_sp T' sn).
Proof using HT.
  intros HU HS Hq E. destruct (mover_parts _ _ _ (recorder_mover _ _ _ HT)) as (step & time & dt & zE & _ & _ & Hd). rewrite Hd in *.
  unfold drop_particle in *. cbn in E. injection E as <-. split; [reflexivity|]. rewrite HU.
  assert (Hc : c = TCtx (scr c) (Some T)) by (destruct c; cbn in *; by subst).
  destruct (is_traj p) eqn:Eq; [|exists T; rewrite <- Hc; done].
  pose proof (C22_remove_closes fl T sn q i step time dt zE HS) as H. destruct (remove_particleId _ _ _ _ _ _ _ _ _) as [T'|e] eqn:Er.
  - destruct H as (k & e & e' & Hk & He & HT' & _). exists T'. split; [reflexivity|]. split.
    + destruct (C22_no_overflow fl T T' HS) as (S1 & _); [by eapply re_remove|exact S1].
    + intros z Hz Hin. rewrite HT', set_sp_same. by eapply insert_still.
  - destruct H as [_ H]. by apply H in Hq.
Qed.
Lemma seq_back xs : forall i kept ch c ys c2 T, usr c = Some T -> Sound T ->
  (forall k p, xs !! k = Some p -> is_traj p = true -> (i + Z.of_nat k)%Z ∈ map e_index (t_sp T sn)) ->
  seq_pass hk i kept ch (untraced c) xs = Ok (ys, c2) ->
  exists T', seq_pass hk i kept ch c xs = Ok (ys, TCtx (scr c2) (Some T')) /\ Sound T'.
Proof using HT.
  induction xs as [|p xs IH]; intros i kept ch c ys c2 T HU HS Hx E; cbn [seq_pass] in *.
  - injection E as <- <-. exists T. split; [destruct c; cbn in *; by subst|exact HS].
  - destruct (adv hk (untraced c) i p) as [[q c1]|] eqn:Ea; [|discriminate].
    assert (Hp : is_traj p = true -> i ∈ map e_index (t_sp T sn)) by (intros Ht; replace i with (i + Z.of_nat 0)%Z by lia; by apply (Hx 0%nat p)).
    destruct (adv_back (map e_index (t_sp T sn)) c i p q c1 T HU ltac:(by split) Hp Ea) as (Hu1 & Ht & T1 & -> & S1 & K1).
    assert (Hc1 : c1 = untraced (TCtx (scr c1) (Some T1))) by (destruct c1; cbn in *; by subst). rewrite Hc1 in E.
    destruct (deleted hk q).
    + destruct (on_drop hk _ i p q) as [c3|] eqn:Ed; [|discriminate].
      eapply drop_back in Ed as (-> & T2 & -> & S2 & K2); [|reflexivity|exact S1|by rewrite K1]. cbn [scr] in *.
      eapply (IH _ _ _ (TCtx (scr c1) (Some T2))); [reflexivity|exact S2| |exact E].
      intros k p' Hk Ht'. apply K2; [lia|]. rewrite K1. replace (i + 1 + Z.of_nat k)%Z with (i + Z.of_nat (S k))%Z by lia. by apply (Hx (S k) p').
    + destruct (on_keep hk _ ch i _ q) as [c3|] eqn:Ed; [|discriminate].
      eapply keep_back in Ed as (-> & T2 & -> & S2 & K2); [|reflexivity|exact S1|by rewrite K1, Ht]. cbn [scr] in *.
      eapply (IH _ _ _ (TCtx (scr c1) (Some T2))); [reflexivity|exact S2| |exact E].
      intros k p' Hk Ht'. apply K2; [lia|]. rewrite K1. replace (i + 1 + Z.of_nat k)%Z with (i + Z.of_nat (S k))%Z by lia. by apply (Hx (S k) p').
Qed.

(** A pass does not fail by recording: with an entry for every flagged particle, the pass that records does what the pass without
    trajectories does. *)
Theorem C51_mover_goes_on (L : Z) s xs c s' c2 T : (1 <= L)%Z -> Reachable L s -> Stores s xs ->
  usr c = Some T -> Sound T -> (forall k p, xs !! k = Some p -> is_traj p = true -> Z.of_nat k ∈ map e_index (t_sp T sn)) ->
  guarded_mover (py_ops particle) hk s (untraced c) = Ok (s', c2) ->
  exists T', guarded_mover (py_ops particle) hk s c = Ok (s', TCtx (scr c2) (Some T')) /\ Sound T'.
Proof using HT.
  intros HL HR Hs HU HS Hx E. pose proof (C04_pass_is_sequential L s xs hk (untraced c) HL HR Hs) as H1.
  destruct (seq_pass hk 0 [] false (untraced c) xs) as [[ys c3]|e] eqn:Ep; [|congruence]. destruct H1 as (s1 & E1 & _). rewrite E in E1. injection E1 as <- <-.
  apply (seq_back xs 0 [] false c ys c2 T HU HS) in Ep as (T' & Ep & S'); [|intros k p Hk Ht; rewrite Z.add_0_l; by apply (Hx k p)].
  pose proof (C04_pass_is_sequential L s xs hk c HL HR Hs) as H2. rewrite Ep in H2. destruct H2 as (s2 & E2 & _).
  pose proof (C51_movers fl sn hk s c s2 _ (recorder_tracer _ _ _ HT) E2) as E3. rewrite E in E3. injection E3 as -> _. by exists T'.
Qed.
End Movers.

(** ** The program *)
Section Run.
Context (fl st32 : R -> R) (u : setup) (HL : (1 <= u_L u)%Z) (Hsp : NoDup (u_charged u ++ u_neutral u)).
Context (HO : forall sn, Oblivious (u_bcs u sn)) (HC : forall sn, Civil (u_bcs u sn)) (np : Z).
(** The sources feed charged species. *)
Context (Hsrc : forall dom q, (dom, q) ∈ default [] (u_sources u) -> s_species q ∈ u_charged u).

(** Of an empty container: it accepts particles, or it refuses them because the last mover pass emptied it. *)
Definition Settled (s : sap particle) : Prop :=
  exists a, Rel (u_L u) s a /\ (a_items a = [] -> a_dead a = true \/ a_cursor a = 0%Z).
(** A container that refuses the next particle or accepts any number. *)
Definition Firm (s : sap particle) : Prop := (forall x r, push_back s x <> Ok r) \/ Accepts s.

Lemma rest_settled {B} (body : B -> Z -> list (option particle) -> res B) fuel : forall s a b s' b', Rel (u_L u) s a ->
  for_out_rest body fuel s b = Ok (s', b') -> exists a', Rel (u_L u) s' a' /\ a_items a' = a_items a /\ a_dead a' = a_dead a.
Proof using HL.
  induction fuel as [|fuel IH]; intros s a b s' b' HR E; cbn [for_out_rest] in E; [discriminate|].
  pose proof (loopnext_ok _ HL s a HR) as H. destruct a as [items dead cu nin nout]. cbn [py_step a_step] in H.
  destruct (get_next_segment s false) as [[s1 [n v]]|]; [|discriminate].
  destruct H as (s2 & got & E1 & _ & HR1). injection E1 as <- _. destruct v as [v|]; [|injection E as <- <-; eexists; by split].
  destruct (body b n v) as [b1|]; [|discriminate]. destruct (IH _ _ _ _ _ HR1 E) as (a' & A1 & A2 & A3). by exists a'.
Qed.
Lemma for_out_settled {B} (body : B -> Z -> list (option particle) -> res B) s b s' b' : Settled s ->
  for_out body s b = Ok (s', b') -> Settled s'.
Proof using HL.
  intros (a & HR & _) E. unfold for_out in E. pose proof (loopstart_ok _ HL s a HR) as H. destruct a as [items dead cu nin nout]. cbn [py_step a_step] in H.
  destruct (init_out_loop s) as [[s1 [n v]]|]; [|discriminate]. destruct H as (s2 & got & E1 & Hok & HR1). injection E1 as <- <-.
  destruct v as [v|].
  - destruct (body b n v) as [b1|]; [|discriminate]. destruct (rest_settled body _ _ _ _ _ _ HR1 E) as (a' & A1 & A2 & A3). exists a'. split; [exact A1|].
    cbn in A2, A3. rewrite A2, A3. intros ->. destruct dead; [by left|]. cbn in Hok. done.
  - injection E as <- <-. eexists. split; [exact HR1|]. intros _. by right.
Qed.
Lemma looped_settled saps saps' : Looped saps saps' -> (forall sn, Settled (saps sn)) -> forall sn, Settled (saps' sn).
Proof using HL.
  induction 1 as [saps|saps s B body x s' x' saps' E H IH]; intros HS; [exact HS|]. apply IH. intros sn. unfold set_key.
  destruct (String.eqb_spec sn s) as [->|Hne]; [by eapply for_out_settled|apply HS].
Qed.
Lemma init_settled : Settled (sap_init (u_L u)).
Proof using HL. exists a_init. split; [by apply Rel_init|]. intros _. by right. Qed.
Lemma push_settled s xs x s' r : Reachable (u_L u) s -> Stores s xs -> push_back s x = Ok (s', r) -> Settled s'.
Proof using HL.
  intros HR HS E. destruct r as [o i]. destruct (pushed _ _ _ _ _ _ _ HL HR HS E) as [HR1 HS1]. destruct (reach_rel _ HL s' HR1) as [a Ha].
  exists a. split; [exact Ha|]. rewrite (rel_stores_eq _ HL s' a _ Ha HS1). by destruct xs.
Qed.
Lemma pass_settled {C} (hk : hooks particle C) s xs c s' c' : Reachable (u_L u) s -> Stores s xs -> Settled s ->
  guarded_mover (py_ops particle) hk s c = Ok (s', c') -> Settled s' /\ Firm s'.
Proof using HL.
  intros HR HS (a & Ha & Hset) E. destruct xs as [|z xs _] using rev_ind.
  - pose proof (rel_stores_eq _ HL s a _ Ha HS) as Hi. unfold guarded_mover in E. destruct HS as [Hn _]. rewrite Hn in E. cbn in E. injection E as <- <-.
    split; [by exists a|]. destruct (a_dead a) eqn:Hd.
    + left. intros x r. pose proof (push_ok _ HL s a x Ha) as H. destruct a as [items dead cu nin nout]. cbn in Hd. subst dead.
      unfold py_step, a_step, push_refused in H. cbn in H. destruct (push_back s x) as [[? [? ?]]|]; [discriminate H|discriminate].
    + right. destruct (Hset Hi) as [Hc|Hc]; [congruence|]. intros ys.
      destruct (push_all_good _ HL ys s a Ha Hd) as (s3 & rs & _ & E3 & _); [|eauto]. rewrite Hc, Hi. unfold last_segment. cbn [length].
      change (Z.of_nat 0) with 0%Z. rewrite (div_minus _ HL). reflexivity.
  - destruct (C47_mover_accepts (u_L u) (fun _ => True) hk s xs z c s' c' HL) as (fate & r & HF & HS' & Hif); [by split|done|exact HR|exact HS|exact E|].
    split.
    + pose proof (r_pass _ hk s c s' c' HR E) as HR'. destruct (reach_rel _ HL s' HR') as [a' Ha']. exists a'. split; [exact Ha'|].
      rewrite (rel_stores_eq _ HL s' a' _ Ha' HS'). intros Hnil. left. rewrite Hnil in Hif. change (Z.of_nat (length [])) with 0%Z in Hif. rewrite Zmod_0_l in Hif.
      assert (r = None) as ->. { rewrite survivors_app in Hnil. apply app_eq_nil in Hnil as [_ Hnil]. by destruct r. }
      cbn [Z.eqb andb] in Hif. destruct (a_dead a') eqn:Hd; [reflexivity|]. pose proof (push_live _ HL s' a' z Ha' Hd) as H. cbv zeta in H.
      rewrite (rel_stores_eq _ HL s' a' _ Ha' HS'), survivors_app in H. rewrite survivors_app in Hnil. rewrite Hnil in H. cbn in H.
      destruct H as (s2 & nout & E2 & _). rewrite Hif in E2. discriminate E2.
    + destruct (_ && _); [left; intros x y; by rewrite Hif|by right].
Qed.

(** What holds between the phases: the trajectories follow their particles, their points are within their arrays, and those of
    neutral species have at most [m] points. *)
Record Fine (m : Z) (saps : string -> sap particle) (T : traj) (xs : string -> list particle) : Prop := {
  f_traced : Traced u saps T xs;
  f_sound : Sound T;
  f_np : t_npoints T = np;
  f_slack : forall sn e, sn ∈ u_neutral u -> e ∈ t_sp T sn -> (e_len e <= m)%Z;
  f_settled : forall sn, Settled (saps sn)
}.
Lemma fine_later m saps T xs saps' T' xs' : Fine m saps T xs -> Traced u saps' T' xs' -> Later fl T T' ->
  (forall sn e, sn ∈ u_neutral u -> e ∈ t_sp T' sn -> (e_len e <= m)%Z) -> (forall sn, Settled (saps' sn)) -> Fine m saps' T' xs'.
Proof using.
  intros [F1 F2 F3 F4 F5] HT [Hr _] Hs Hset. destruct (C22_history fl T T' F2 Hr) as (S1 & S2 & _). split; [exact HT|exact S1|congruence|exact Hs|exact Hset].
Qed.
Lemma neutral_not_charged sn : sn ∈ u_neutral u -> sn ∉ u_charged u.
Proof using Hsp. intros H1 H2. apply NoDup_app in Hsp as (_ & Hd & _). exact (Hd _ H2 H1). Qed.

Lemma species_recorder step time negE sn : Recorder fl sn (charged_hooks fl sn step time (u_dt u) (u_qom u sn) (u_maxc u) (u_mesh u) (u_bcs u sn) (u_dE u) (Some negE)
  (u_Eext u step) (u_solved u sn) (u_ext u sn) false).
Proof using HO HC. by constructor. Qed.
Lemma advance_back step time negE m sns : (forall sn, sn ∈ sns -> sn ∈ u_charged u) -> forall saps c saps' c2 T xs, usr c = Some T -> Fine m saps T xs ->
  advance_species fl u step time negE sns saps (untraced c) = Ok (saps', c2) ->
  exists T' xs', advance_species fl u step time negE sns saps c = Ok (saps', TCtx (scr c2) (Some T')) /\ Fine m saps' T' xs' /\
    (forall sn, sn ∈ sns \/ Firm (saps sn) -> Firm (saps' sn)).
Proof using HL HO HC Hsp.
  induction sns as [|sn sns IH]; intros Hch saps c saps' c2 T xs HU HF E; cbn [advance_species] in *.
  - injection E as <- <-. exists T, xs. split; [destruct c; cbn in *; by subst|]. split; [exact HF|]. by intros sn [?%elem_of_nil|?].
  - destruct (guarded_mover _ _ _ (untraced c)) as [[s1 c1]|] eqn:E1; [|discriminate].
    pose proof (f_traced _ _ _ _ HF sn) as [G1 G2 _ G4 _]. cbn [fst] in G1, G2.
    destruct (C51_mover_goes_on fl sn _ (species_recorder step time negE sn) (u_L u) _ (xs sn) c s1 c1 T HL G1 G2 HU (f_sound _ _ _ _ HF)) as (T1 & E2 & S1); [|exact E1|].
    { destruct G4 as (_ & _ & G4). exact G4. }
    assert (Hc1 : c1 = untraced (TCtx (scr c1) (Some T1))).
    { pose proof (C51_movers fl sn _ _ _ _ _ (recorder_tracer _ _ _ (species_recorder step time negE sn)) E2) as E3. rewrite E1 in E3. injection E3 as E3. exact E3. }
    destruct (advance_traced fl u HL step time negE [sn] HC saps c (set_key saps sn s1) (TCtx (scr c1) (Some T1)) T xs HU (f_traced _ _ _ _ HF)) as (T2 & xs2 & A1 & A2 & A3).
    { cbn [advance_species]. rewrite E2. reflexivity. }
    cbn [usr] in A1. injection A1 as <-.
    destruct (C21_pass_reindexes fl sn (u_L u) _ (xs sn) _ c s1 _ T HL G1 G2 (recorder_mover _ _ _ (species_recorder step time negE sn)) HU G4 E2) as (ft & T3 & _ & _ & _ & B1 & _ & _ & _ & B2).
    cbn [usr] in B1. injection B1 as <-.
    destruct (pass_settled _ _ _ _ _ _ G1 G2 (f_settled _ _ _ _ HF sn) E2) as [P1 P2].
    rewrite Hc1 in E. destruct (IH ltac:(intros s Hs; apply Hch; by right) (set_key saps sn s1) (TCtx (scr c1) (Some T1)) saps' c2 T1 xs2 eq_refl) as (T' & xs' & I1 & I2 & I3); [|exact E|].
    { apply (fine_later m saps T xs); [exact HF|exact A2|exact A3| |].
      - intros s e Hs He. rewrite B2 in He; [by eapply (f_slack _ _ _ _ HF)|]. intros ->. apply (neutral_not_charged _ Hs). apply Hch. left.
      - intros s. unfold set_key. destruct (String.eqb_spec s sn) as [->|Hne]; [exact P1|apply (f_settled _ _ _ _ HF)]. }
    exists T', xs'. rewrite E2. split; [exact I1|]. split; [exact I2|]. intros s Hs. apply I3. unfold set_key.
    destruct (String.eqb_spec s sn) as [->|Hne]; [right; exact P2|]. destruct Hs as [[->|Hs]%elem_of_cons|Hs]; [done|by left|by right].
Qed.

(** Sampling. *)
Lemma rec_charged_any get mk es : Forall (SoundEntry np) es -> (forall e, e ∈ es -> live e -> exists p, get (e_index e) = Ok p) ->
  exists es' b, rec_charged np get mk es = Ok (es', b).
Proof using.
  induction 1 as [|e es He Hes IH]; intros Hg; cbn [rec_charged]; [eauto|].
  destruct IH as (es' & b & E); [intros e0 H0; apply Hg; by right|].
  destruct (_ =? _)%Z eqn:El; [rewrite E; eauto|]. destruct (Hg e) as (p & Hp); [left|unfold live; lia|].
  rewrite Hp. destruct (_ <? _)%Z eqn:Ef; [eauto|]. destruct (write_point_ok _ e (mk p) He) as (e1 & -> & _); [lia|]. rewrite E. eauto.
Qed.
Lemma rec_charged_all_any get mk sps : NoDup sps -> forall T, Sound T -> t_npoints T = np ->
  (forall s e, s ∈ sps -> e ∈ t_sp T s -> live e -> exists p, get s (e_index e) = Ok p) -> exists T' b, rec_charged_all get mk sps T = Ok (T', b).
Proof using.
  induction 1 as [|sn sps Hnin Hnd IH]; intros T HS Hnp Hr; cbn [rec_charged_all]; [eauto|]. pose proof (sound_sp T sn HS) as Hall. rewrite Hnp in *.
  destruct (rec_charged_any (get sn) mk (t_sp T sn) Hall) as (es & b & E); [intros e; apply Hr; left|]. rewrite E. destruct b; [eauto|].
  apply rec_charged_shape in E as [E1 _]; [|exact Hall]. apply IH; [apply sound_set; [exact HS|by rewrite Hnp]|exact Hnp|].
  intros s e Hs. rewrite set_sp_other by (by intros ->). apply Hr. by right.
Qed.
Lemma points_length k e : SoundEntry k e -> Z.of_nat (length (points e)) = e_len e.
Proof using. intros (H1 & H2 & _). unfold points. rewrite take_length. lia. Qed.
Lemma traced_get saps T xs sn e : Traced u saps T xs -> e ∈ t_sp T sn -> live e ->
  exists p, (let! o := get_item (saps sn) (e_index e) in Ok (seen (u_junk u) o)) = Ok p.
Proof using.
  intros HF He Hl. destruct (HF sn) as [_ [_ H2] _ (_ & H4 & _) _]. cbn [fst] in H2.
  destruct (H4 (e_index e)) as (Hz & p & Hp & _); [apply elem_of_list_fmap; by exists e|exact Hl|].
  apply H2 in Hp. rewrite Z2Nat.id in Hp by exact Hz. rewrite Hp. eauto.
Qed.
Lemma sample_back step time negE m st T xs : (u_neutral u = [] \/ m < np)%Z -> ss_traj st = Some T -> Fine m (ss_saps st) T xs ->
  exists T', record_trajectories fl u step time negE st = Ok (with_traj st (Some T')) /\ Fine (m + 1) (ss_saps st) T' xs.
Proof using HL Hsp.
  clear st32 HO HC Hsrc. intros Hm HT HF. pose proof HF as [F1 F2 F3 F4 F5].
  assert (HE : exists st1, record_trajectories fl u step time negE st = Ok st1).
  { unfold record_trajectories. rewrite HT. cbv zeta.
    set (get := fun sn i => let! o := get_item (ss_saps st sn) i in Ok (seen (u_junk u) o)).
    enough (HE : exists T', record_trajectory_data fl T (u_charged u) (u_neutral u) get (u_dE u) (Some negE) (u_Erec u step) step time = Ok T').
    { destruct HE as [T' ->]. eauto. }
    unfold record_trajectory_data. destruct (match t_last T with Some _ => _ | None => _ end); [eauto|]. cbv zeta.
    match goal with |- context [rec_charged_all get ?mk _ _] => set (mkc := mk) end. pose proof Hsp as Hsp'. apply NoDup_app in Hsp' as (N1 & N2 & N3).
    destruct (rec_charged_all_any get mkc (u_charged u) N1 T F2 F3) as (T1 & b & E1); [intros s e _ He Hl; by eapply traced_get|]. rewrite E1.
    destruct b; [eauto|]. destruct (rec_charged_all_shape get mkc _ N1 _ _ _ F2 E1) as (S1 & S2 & _ & S4 & _).
    match goal with |- context [rec_neutral_all get ?mk _ _] => destruct (rec_neutral_all_room get mk (u_neutral u) N3 T1 S1) as [T2 ->] end; [|eauto].
    intros s Hs e He Hl. rewrite S4 in He by (intros Hc; exact (N2 _ Hc Hs)). split.
    - unfold full. rewrite S2, F3. specialize (F4 s e Hs He). destruct Hm as [Hm|Hm]; [by rewrite Hm in Hs; apply elem_of_nil in Hs|lia].
    - by eapply traced_get. }
  destruct HE as [st1 E]. destruct (quiet_traced fl u HL Hsp _ _ (quiet_sample fl u _ _ _ _ _ E) T xs HT F1) as (T' & A1 & A2 & A3).
  pose proof (sample_saps fl u _ _ _ _ _ E) as Hsaps. rewrite Hsaps in A2. exists T'.
  pose proof E as E0. unfold record_trajectories in E0. rewrite HT in E0.
  destruct (record_trajectory_data _ _ _ _ _ _ _ _ _ _) as [T1|] eqn:Er; [|discriminate]. injection E0 as <-. cbn in A1. injection A1 as ->.
  split; [exact E|]. destruct A3 as [Hr _]. destruct (C22_history fl T T' F2 Hr) as (S1 & S2 & _). split; [exact A2|exact S1|congruence| |exact F5].
  intros sn e' Hs He. apply elem_of_list_lookup in He as [k Hk]. destruct (record_data_keys _ _ _ _ _ _ _ _ _ _ _ Er sn) as [Ki Ku].
  destruct (map_keys_lookup T T' sn k e' Ki Ku Hk) as (e & He2 & _).
  destruct (C22_no_overflow fl T T' F2) as (_ & _ & C3); [by eapply (re_data fl T (u_charged u) (u_neutral u))|].
  destruct (C3 sn k e He2) as (e2 & Hk2 & Hpt). rewrite Hk in Hk2. injection Hk2 as <-.
  assert (Hin : e ∈ t_sp T sn) by (by eapply elem_of_list_lookup_2). specialize (F4 sn e Hs Hin).
  pose proof (points_length _ _ (proj2 F2 sn e Hin)) as L1. pose proof (points_length _ _ (proj2 S1 sn e' ltac:(by eapply elem_of_list_lookup_2))) as L2.
  destruct Hpt as [Hpt|[d Hpt]]; rewrite Hpt in L2; [|rewrite app_length in L2; cbn [length] in L2]; lia.
Qed.
Lemma fine_more m m' saps T xs : (m <= m')%Z -> Fine m saps T xs -> Fine m' saps T xs.
Proof using. clear HO HC Hsrc. intros Hm [F1 F2 F3 F4 F5]. split; [exact F1|exact F2|exact F3| |exact F5]. intros sn e Hs He. specialize (F4 sn e Hs He). lia. Qed.
Lemma fine_looped m saps saps' T xs : Looped saps saps' -> Fine m saps T xs -> Fine m saps' T xs.
Proof using HL.
  intros Hl [F1 F2 F3 F4 F5]. split; [|exact F2|exact F3|exact F4|by eapply looped_settled].
  pose proof (looped_holds _ HL _ _ _ Hl (traced_stores _ _ _ _ F1)) as HH. intros sn. destruct (F1 sn) as [_ _ H3 H4 H5]. destruct (HH sn) as [H1 H2]. by split.
Qed.

(** New particles. *)
Definition Fed (st : srcst) : Prop := forall sn, sn ∈ u_charged u -> Firm (ss_saps st sn).
Definition FineSt (m : Z) (st : srcst) : Prop := exists T xs, ss_traj st = Some T /\ Fine m (ss_saps st) T xs.
Lemma add_back first sn step time E Ex m saps T xs p s1 T1 uid rng : (0 <= m)%Z -> Fine m saps T xs ->
  (first = true -> sn ∈ u_charged u /\ Firm (saps sn)) -> add_particle first sn step time E Ex (saps sn) None p = Ok (s1, T1) ->
  T1 = None /\ exists T', add_particle first sn step time E Ex (saps sn) (Some T) p = Ok (s1, Some T') /\
    FineSt m (SrcSt (set_key saps sn s1) uid rng (Some T')) /\ (Firm (saps sn) -> Firm s1).
Proof using fl HL Hsp.
  clear st32 HO HC Hsrc. intros Hm HF Hfirst Ea. destruct (f_traced _ _ _ _ HF sn) as [G1 G2 _ G4 _]. cbn [fst] in G1, G2.
  assert (Hp : exists o, push_back (saps sn) p = Ok (s1, (o, Z.of_nat (length (xs sn)))) /\ T1 = None /\ (Accepts (saps sn) -> current_out_item s1 o = Ok (Some p))).
  { unfold add_particle in Ea. destruct (push_back (saps sn) p) as [[s2 [o i]]|] eqn:Ep; [|discriminate].
    assert (s2 = s1 /\ T1 = None) as [-> ->] by (destruct (is_traj p); by injection Ea as -> <-). exists o.
    assert (Hi : o = (Z.of_nat (length (xs sn)) mod u_L u)%Z /\ i = Z.of_nat (length (xs sn))).
    { destruct (C06_push_or_assert (u_L u) (saps sn) (xs sn) p HL G1 G2) as [(s3 & E3 & _)|[E3 _]]; [|congruence]. rewrite Ep in E3. by injection E3 as _ -> ->. }
    destruct Hi as [-> ->]. split; [reflexivity|]. split; [reflexivity|]. intros HA.
    destruct (push_current _ HL _ _ p G1 G2 HA) as (s3 & E3 & _ & _ & _ & Hc). rewrite Ep in E3. injection E3 as <-. exact Hc. }
  destruct Hp as (o & Ep & -> & Hcur). split; [reflexivity|].
  assert (HE : exists T', add_particle first sn step time E Ex (saps sn) (Some T) p = Ok (s1, Some T') /\
    forall s e, s ∈ u_neutral u -> e ∈ t_sp T' s -> (e_len e <= m)%Z).
  { unfold add_particle. rewrite Ep. destruct (is_traj p); [|exists T; split; [reflexivity|apply (f_slack _ _ _ _ HF)]].
    cbv zeta. set (T2 := create_trajectory T sn _ (puid p)). destruct first.
    - destruct (Hfirst eq_refl) as [Hch [Hno|HA]]; [by apply Hno in Ep|]. rewrite (Hcur HA).
      assert (S2 : Sound T2) by (destruct (C22_no_overflow fl T T2 (f_sound _ _ _ _ HF)) as (S2 & _); [constructor|exact S2]).
      destruct (datum_back sn (map e_index (t_sp T2 sn)) T2 p (Z.of_nat (length (xs sn))) step time E Ex false) as (T3 & Er & _); [by split| |].
      { unfold T2, create_trajectory. rewrite set_sp_same, map_app. apply elem_of_app. right. left. }
      rewrite Er. exists T3. split; [reflexivity|]. intros s e Hs He. pose proof (record_datum_frame _ _ _ _ _ _ _ _ _ _ Er) as (T4 & [= <-] & (_ & _ & F3 & _) & _).
      assert (s <> sn) by (intros ->; exact (neutral_not_charged _ Hs Hch)). rewrite F3 in He by assumption. unfold T2, create_trajectory in He.
      rewrite set_sp_other in He by assumption. by eapply (f_slack _ _ _ _ HF).
    - exists T2. split; [reflexivity|]. intros s e Hs He. unfold T2, create_trajectory in He. destruct (String.eqb_spec s sn) as [->|Hne].
      + rewrite set_sp_same in He. apply elem_of_app in He as [He|He]; [by eapply (f_slack _ _ _ _ HF)|]. apply elem_of_list_singleton in He as ->. exact Hm.
      + rewrite set_sp_other in He by assumption. by eapply (f_slack _ _ _ _ HF). }
  destruct HE as (T' & Ea' & Hsl). exists T'. split; [exact Ea'|]. split.
  - set (st := SrcSt saps 0 0 (Some T)). set (st' := SrcSt (set_key saps sn s1) uid rng (Some T')).
    destruct (added_traced fl u HL st st') with (T := T) (xs := xs) as (T2 & xs2 & A1 & A2 & A3); [|reflexivity|exact (f_traced _ _ _ _ HF)|].
    { eapply (ad_more first sn step time E Ex p st s1 (Some T') uid rng st'); [exact Ea'|constructor]. }
    cbn in A1. injection A1 as <-. exists T', xs2. split; [reflexivity|]. apply (fine_later m saps T xs); [exact HF|exact A2|exact A3|exact Hsl|].
    intros s. change (Settled (set_key saps sn s1 s)). unfold set_key. destruct (String.eqb_spec s sn) as [->|Hne]; [|apply (f_settled _ _ _ _ HF)]. by eapply push_settled.
  - intros [Hno|HA]; [by apply Hno in Ep|right]. by eapply (C47_push_accepts (u_L u)).
Qed.
Lemma fed_key st sn s1 uid rng T : Fed st -> Firm s1 -> Fed (SrcSt (set_key (ss_saps st) sn s1) uid rng T).
Proof using. intros HF H1 s Hs. cbn. unfold set_key. destruct (String.eqb_spec s sn); [exact H1|by apply HF]. Qed.
Lemma list_back m sn ps : (0 <= m)%Z -> forall st st2, FineSt m st -> create_from_list sn ps (no_traj st) = Ok st2 ->
  exists st', create_from_list sn ps st = Ok st' /\ st2 = no_traj st' /\ FineSt m st'.
Proof using fl HL Hsp.
  intros Hm. induction ps as [|p ps IH]; intros st st2 HF E; cbn [create_from_list] in *; [injection E as <-; by exists st|].
  cbn [no_traj with_traj ss_saps ss_uid ss_rng ss_traj] in E. destruct (add_particle _ _ _ _ _ _ _ None p) as [[s1 T1]|] eqn:Ea; [|discriminate].
  destruct HF as (T & xs & HT & HF).
  destruct (add_back false sn 0 0 [] [] m (ss_saps st) T xs p s1 T1 (ss_uid st) (ss_rng st) Hm HF ltac:(discriminate) Ea) as (-> & T' & Ea' & HF' & _).
  rewrite HT, Ea'. apply (IH _ _ HF'). exact E.
Qed.
Lemma initial_back m l : (0 <= m)%Z -> forall st st2, FineSt m st ->
  initialize_particles fl (u_names u) (u_spherical u) (u_pdim u) (u_pi4 u) (u_rnd u) (u_fuel u) (u_dE u) ANone l (no_traj st) = Ok st2 ->
  exists st', initialize_particles fl (u_names u) (u_spherical u) (u_pdim u) (u_pi4 u) (u_rnd u) (u_fuel u) (u_dE u) ANone l st = Ok st' /\ st2 = no_traj st' /\ FineSt m st'.
Proof using fl HL Hsp.
  intros Hm. induction l as [|[sn ps|q r|] l IH]; intros st st2 HF E; cbn [initialize_particles] in *; [injection E as <-; by exists st| |discriminate|discriminate].
  destruct (negb _); [discriminate|]. destruct (create_from_list sn ps _) as [st1|] eqn:E1; [|discriminate].
  apply (list_back m) in E1 as (st' & -> & -> & HF'); [|exact Hm|exact HF]. by apply IH.
Qed.
Lemma new_particle_back m nE Ex sn step time g drift c w ip st st2 : (0 <= m)%Z -> sn ∈ u_charged u -> FineSt m st -> Fed st ->
  new_particle fl (u_pdim u) (u_rnd u) (u_fuel u) (u_dE u) nE Ex sn step time g drift c w ip (no_traj st) = Ok st2 ->
  exists st', new_particle fl (u_pdim u) (u_rnd u) (u_fuel u) (u_dE u) nE Ex sn step time g drift c w ip st = Ok st' /\ st2 = no_traj st' /\ FineSt m st' /\ Fed st'.
Proof using fl HL Hsp.
  intros Hm Hsn (T & xs & HT & HF) Hfed. unfold new_particle. cbn [no_traj with_traj ss_saps ss_uid ss_rng ss_traj].
  destruct (match ip with O => _ | S _ => _ end) as [[x k]|]; [|discriminate]. destruct (negb _); [discriminate|]. cbv zeta.
  match goal with |- context [add_particle true sn step time ?E ?X (ss_saps st sn) None ?p] => destruct (add_particle true sn step time E X (ss_saps st sn) None p) as [[s1 T1]|] eqn:Ea; [|discriminate];
    destruct (add_back true sn step time E X m (ss_saps st) T xs p s1 T1 (ss_uid st + 1) (S k) Hm HF ltac:(intros _; split; [exact Hsn|by apply Hfed]) Ea) as (-> & T' & Ea' & HF' & Hfirm) end.
  intros [= <-]. rewrite HT, Ea'. eexists. split; [reflexivity|]. split; [reflexivity|]. split; [exact HF'|]. apply fed_key; [exact Hfed|by apply Hfirm, Hfed].
Qed.
Lemma new_particles_back m nE Ex sn step time g drift c w ips : (0 <= m)%Z -> sn ∈ u_charged u -> forall st st2, FineSt m st -> Fed st ->
  new_particles fl (u_pdim u) (u_rnd u) (u_fuel u) (u_dE u) nE Ex sn step time g drift c w ips (no_traj st) = Ok st2 ->
  exists st', new_particles fl (u_pdim u) (u_rnd u) (u_fuel u) (u_dE u) nE Ex sn step time g drift c w ips st = Ok st' /\ st2 = no_traj st' /\ FineSt m st' /\ Fed st'.
Proof using fl HL Hsp.
  intros Hm Hsn. induction ips as [|ip ips IH]; intros st st2 HF Hfed E; cbn [new_particles] in *; [injection E as <-; by exists st|].
  destruct (new_particle _ _ _ _ _ _ _ _ _ _ _ _ _ _ _ (no_traj st)) as [st1|] eqn:E1; [|discriminate].
  apply (new_particle_back m) in E1 as (st' & -> & -> & HF' & Hfed'); [|assumption..]. by apply IH.
Qed.
Lemma new_cells_back m nE Ex sn step time g drift mult n cs : (0 <= m)%Z -> sn ∈ u_charged u -> forall st st2, FineSt m st -> Fed st ->
  new_cells fl (u_pdim u) (u_rnd u) (u_fuel u) (u_dE u) nE Ex sn step time g drift mult n cs (no_traj st) = Ok st2 ->
  exists st', new_cells fl (u_pdim u) (u_rnd u) (u_fuel u) (u_dE u) nE Ex sn step time g drift mult n cs st = Ok st' /\ st2 = no_traj st' /\ FineSt m st' /\ Fed st'.
Proof using fl HL Hsp.
  intros Hm Hsn. induction cs as [|c cs IH]; intros st st2 HF Hfed E; cbn [new_cells] in *; [injection E as <-; by exists st|].
  destruct (new_particles _ _ _ _ _ _ _ _ _ _ _ _ _ _ _ (no_traj st)) as [st1|] eqn:E1; [|discriminate].
  apply (new_particles_back m) in E1 as (st' & -> & -> & HF' & Hfed'); [|assumption..]. by apply IH.
Qed.
Lemma sources_back m step time negE st st2 : (0 <= m)%Z -> FineSt m st -> Fed st -> add_from_sources fl u step time negE (no_traj st) = Ok st2 ->
  exists st', add_from_sources fl u step time negE st = Ok st' /\ st2 = no_traj st' /\ FineSt m st' /\ Fed st'.
Proof using fl HL Hsp Hsrc.
  intros Hm. unfold add_from_sources. destruct (u_sources u) as [l|]; [|intros HF Hfed [= <-]; by exists st]. cbn [default] in Hsrc. revert st.
  induction l as [|[dom q] l IH]; intros st HF Hfed E; cbn [source_list map add_more_particles fst snd] in *; [injection E as <-; by exists st|].
  destruct (_ =? 0)%Z; [discriminate|].
  assert (IH' := IH ltac:(intros d r Hin; apply (Hsrc d); by right)). clear IH. destruct (_ =? 0)%Z; [|by apply IH'].
  unfold create_maxwellian in E |- *. cbn [fst snd] in *. destruct (negb _); [discriminate|]. destruct (weight_mult _ _ _ _) as [mult|]; [|discriminate].
  destruct (new_cells _ _ _ _ _ _ _ _ _ _ _ _ _ _ _ (no_traj st)) as [st1|] eqn:E1; [|discriminate].
  apply (new_cells_back m) in E1 as (st' & -> & -> & HF' & Hfed'); [|assumption|apply (Hsrc dom); left|assumption..]. by apply IH'.
Qed.

(** The phases that only loop over the particles. *)
Lemma finest_looped m st saps : Looped (ss_saps st) saps -> FineSt m st -> FineSt m (with_saps st saps).
Proof using HL. intros Hl (T & xs & HT & HF). exists T, xs. split; [exact HT|]. by eapply fine_looped. Qed.
Lemma write_back m close step time st o st2 o2 : FineSt m st -> write_snapshot fl u close step time (no_traj st, o) = Ok (st2, o2) ->
  exists st', write_snapshot fl u close step time (st, o) = Ok (st', o2) /\ st2 = no_traj st' /\ FineSt m st'.
Proof using HL.
  intros HF E. assert (exists st', write_snapshot fl u close step time (st, o) = Ok (st', o2) /\ st2 = no_traj st') as (st' & E1 & E2).
  { unfold write_snapshot in *. change (ss_saps (no_traj st)) with (ss_saps st) in E. destruct (write_particles _ _ _ _ _ _ _ _ _ _) as [o1|]; [|discriminate].
    injection E as <- <-. eexists. split; reflexivity. }
  exists st'. split; [exact E1|]. split; [exact E2|]. destruct (write_looped _ _ _ _ _ _ _ _ _ E1) as (saps & Hl & ->). by apply finest_looped.
Qed.
Lemma history_back m step time st h st2 h2 : FineSt m st -> record_run_history fl st32 u step time (no_traj st, h) = Ok (st2, h2) ->
  exists st', record_run_history fl st32 u step time (st, h) = Ok (st', h2) /\ st2 = no_traj st' /\ FineSt m st'.
Proof using HL.
  intros HF E. assert (exists st', record_run_history fl st32 u step time (st, h) = Ok (st', h2) /\ st2 = no_traj st') as (st' & E1 & E2).
  { unfold record_run_history in *. cbn [fst snd] in *. destruct h as [h|]; [|injection E as <- <-; eexists; split; reflexivity].
    change (ss_saps (no_traj st)) with (ss_saps st) in E. destruct (record_history _ _ _ _ _ _ _ _ _) as [[saps h1]|]; [|discriminate].
    injection E as <- <-. eexists. split; reflexivity. }
  exists st'. split; [exact E1|]. split; [exact E2|]. destruct (history_phase_looped _ _ _ _ _ _ _ _ _ E1) as (saps & Hl & ->). by apply finest_looped.
Qed.
Lemma step_back m w w2 : (0 <= m)%Z -> (u_neutral u = [] \/ m < np)%Z -> u_traj_skip u <> 0%Z -> FineSt m (rs_src w) ->
  time_step fl st32 u (no_trajs w) = Ok w2 -> exists w', time_step fl st32 u w = Ok w' /\ w2 = no_trajs w' /\ FineSt (m + 1) (rs_src w').
Proof using HL Hsp HO HC Hsrc.
  intros Hm Hroom Hskip (T & xs & HT & HF) E. unfold time_step in *. cbn [no_trajs rs_count rs_time rs_scr rs_src rs_out rs_rho rs_dofs rs_cells rs_negE rs_hist] in *.
  set (st := rs_src w) in *. set (step := (rs_count w + 1)%Z) in *. set (time := fl (rs_time w + u_dt u)) in *. cbn [no_traj with_traj ss_saps ss_traj ss_uid ss_rng] in E.
  destruct (advance_species _ _ _ _ _ _ _ (TCtx (rs_scr w) None)) as [[saps1 c1]|] eqn:E1; [|discriminate].
  pose proof E1 as E1'. apply (advance_back step time (rs_negE w) m (u_charged u) ltac:(tauto) (ss_saps st) (TCtx (rs_scr w) (ss_traj st)) saps1 c1 T xs HT HF) in E1 as (T1 & xs1 & A1 & A2 & A3).
  rewrite A1. cbn [usr scr].
  assert (Hc1 : usr c1 = None).
  { apply (advance_same fl u HO) in A1. unfold untraced in A1. cbn [scr] in A1. rewrite E1' in A1. injection A1 as ->. reflexivity. }
  rewrite Hc1 in E. cbn [ss_traj]. set (st1 := SrcSt saps1 (ss_uid st) (ss_rng st) (Some T1)).
  assert (H2 : exists st2, every (u_traj_skip u) step (record_trajectories fl u step time (rs_negE w)) st1 = Ok st2 /\
    no_traj st2 = no_traj st1 /\ FineSt (m + 1) st2 /\ Fed st2).
  { unfold every. destruct (Z.eqb_spec (u_traj_skip u) 0) as [?|_]; [contradiction|]. destruct (_ =? 0)%Z.
    - destruct (sample_back step time (rs_negE w) m st1 T1 xs1 Hroom eq_refl A2) as (T2 & -> & HF2). eexists. split; [reflexivity|]. split; [reflexivity|].
      split; [by exists T2, xs1|]. intros sn Hs. apply A3. by left.
    - exists st1. split; [reflexivity|]. split; [reflexivity|]. split; [exists T1, xs1; split; [reflexivity|]; eapply fine_more; [|exact A2]; clear HO HC Hsrc; lia|].
      intros sn Hs. apply A3. by left. }
  destruct H2 as (st2 & -> & B1 & B2 & B3). change (SrcSt saps1 (ss_uid st) (ss_rng st) None) with (no_traj st1) in E. cbn [no_traj with_traj ss_traj] in E.
  change (SrcSt (ss_saps st1) (ss_uid st1) (ss_rng st1) None) with (no_traj st1) in E. rewrite <- B1 in E.
  destruct (add_from_sources _ _ _ _ _ (no_traj st2)) as [st3|] eqn:E3; [|discriminate].
  apply (sources_back (m + 1)) in E3 as (st3' & -> & -> & C1 & _); [|clear HO HC Hsrc; lia|exact B2|exact B3]. cbv beta iota zeta.
  destruct (match u_out_interval u with None => Ok (no_traj st3', rs_out w) | Some _ => _ end) as [[st4 o4]|] eqn:E4; [|discriminate].
  assert (H4 : exists st4', match u_out_interval u with None => Ok (st3', rs_out w)
    | Some k => every k step (write_snapshot fl u false step time) (st3', rs_out w) end = Ok (st4', o4) /\ st4 = no_traj st4' /\ FineSt (m + 1) st4').
  { destruct (u_out_interval u) as [k|]; [|injection E4 as <- <-; by exists st3']. unfold every in E4 |- *. destruct (k =? 0)%Z; [discriminate|].
    destruct (_ mod k =? 0)%Z; [by apply write_back|injection E4 as <- <-; by exists st3']. }
  destruct H4 as (st4' & -> & -> & D1). change (ss_saps (no_traj st4')) with (ss_saps st4') in E.
  destruct (density_update _ _ _ _ _ _ _ _ _ _ _) as [[[[saps5 rho] dofs] cells]|] eqn:E5; [|discriminate].
  assert (D2 : FineSt (m + 1) (with_saps st4' saps5)) by (apply finest_looped; [by eapply density_looped|exact D1]).
  destruct (u_solve u rho) as [negE|]; [|discriminate]. change (with_saps (no_traj st4') saps5) with (no_traj (with_saps st4' saps5)) in E. set (st5 := with_saps st4' saps5) in *.
  destruct (match rs_hist w with None => Ok (no_traj st5, None) | Some _ => _ end) as [[st6 h6]|] eqn:E6; [|discriminate].
  assert (H6 : exists st6', match rs_hist w with None => Ok (st5, None)
    | Some _ => every (u_hist_skip u) step (record_run_history fl st32 u step time) (st5, rs_hist w) end = Ok (st6', h6) /\ st6 = no_traj st6' /\ FineSt (m + 1) st6').
  { destruct (rs_hist w) as [k|]; [|injection E6 as <- <-; by exists st5]. unfold every in E6 |- *. destruct (u_hist_skip u =? 0)%Z; [discriminate|].
    destruct (_ mod u_hist_skip u =? 0)%Z; [by apply history_back|injection E6 as <- <-; by exists st5]. }
  destruct H6 as (st6' & -> & -> & F1). injection E as <-. eexists. split; [reflexivity|]. split; [reflexivity|]. exact F1.
Qed.
Lemma loop_back n : forall m w w2, (0 <= m)%Z -> (u_neutral u = [] \/ m + Z.of_nat n <= np)%Z -> u_traj_skip u <> 0%Z -> FineSt m (rs_src w) ->
  time_loop fl st32 u n (no_trajs w) = Ok w2 -> exists w', time_loop fl st32 u n w = Ok w' /\ w2 = no_trajs w' /\ FineSt (m + Z.of_nat n) (rs_src w').
Proof using HL Hsp HO HC Hsrc.
  induction n as [|n IH]; intros m w w2 Hm Hroom Hskip HF E; cbn [time_loop] in *.
  - injection E as <-. exists w. change (Z.of_nat 0) with 0%Z. rewrite Z.add_0_r. by split.
  - destruct (time_step _ _ _ (no_trajs w)) as [w1|] eqn:E1; [|discriminate].
    apply (step_back m) in E1 as (w1' & -> & -> & HF1); [|exact Hm|clear HO HC Hsrc; destruct Hroom; [by left|right; lia]|exact Hskip|exact HF].
    replace (m + Z.of_nat (S n))%Z with (m + 1 + Z.of_nat n)%Z by (clear HO HC Hsrc; lia). apply IH; [clear HO HC Hsrc; lia|clear HO HC Hsrc; destruct Hroom; [by left|right; lia]|exact Hskip|exact HF1|exact E].
Qed.
Lemma init_back file ini w w2 : (u_neutral u = [] \/ 0 < np)%Z -> FineSt 0 (rs_src w) ->
  initialization fl st32 u file ini (no_trajs w) = Ok w2 -> exists w', initialization fl st32 u file ini w = Ok w' /\ w2 = no_trajs w' /\ FineSt 1 (rs_src w').
Proof using HL Hsp.
  clear HO HC Hsrc. intros Hroom HF E. unfold initialization in *. cbn [no_trajs rs_count rs_time rs_scr rs_src rs_out rs_rho rs_dofs rs_cells rs_negE rs_hist] in *.
  set (o := if file then _ else _) in *. clearbody o.
  destruct (match ini with None => Ok (RunSt _ _ _ (no_traj _) _ _ _ _ _ _) | Some _ => _ end) as [w1|] eqn:E1; [|discriminate].
  assert (H1 : exists w1', match ini with None => Ok (RunSt (rs_count w) (rs_time w) (rs_scr w) (rs_src w) o (rs_rho w) (rs_dofs w) (rs_cells w) (rs_negE w) (rs_hist w))
    | Some l => initial_particles fl u file l (RunSt (rs_count w) (rs_time w) (rs_scr w) (rs_src w) o (rs_rho w) (rs_dofs w) (rs_cells w) (rs_negE w) (rs_hist w)) end
    = Ok w1' /\ w1 = no_trajs w1' /\ FineSt 1 (rs_src w1')).
  { destruct ini as [l|].
    - unfold initial_particles in *. cbn [rs_count rs_time rs_scr rs_src rs_out rs_rho rs_dofs rs_cells rs_negE rs_hist] in *.
      destruct (initialize_particles _ _ _ _ _ _ _ _ _ _ (no_traj _)) as [st1|] eqn:F1; [|discriminate].
      apply (initial_back 0) in F1 as (st1' & -> & -> & G1); [|lia|exact HF]. cbv beta iota zeta.
      destruct (if file then _ else Ok (no_traj st1', o)) as [[st2 o2]|] eqn:F2; [|discriminate].
      assert (H2 : exists st2', (if file then write_snapshot fl u false (rs_count w) (rs_time w) (st1', o) else Ok (st1', o)) = Ok (st2', o2) /\ st2 = no_traj st2' /\ FineSt 0 st2').
      { destruct file; [by apply write_back|injection F2 as <- <-; by exists st1']. }
      destruct H2 as (st2' & -> & -> & (T2 & xs2 & HT2 & G2)).
      destruct (sample_back (rs_count w) (rs_time w) (rs_negE w) 0 st2' T2 xs2 Hroom HT2 G2) as (T3 & -> & G3).
      change (record_trajectories fl u (rs_count w) (rs_time w) (rs_negE w) (no_traj st2')) with (@Ok srcst (no_traj st2')) in E1. cbv beta iota in E1 |- *.
      change (ss_saps (with_traj st2' (Some T3))) with (ss_saps st2'). change (ss_saps (no_traj st2')) with (ss_saps st2') in E1.
      destruct (density_update _ _ _ _ _ _ _ _ _ _ _) as [[[[saps5 rho] dofs] cells]|] eqn:E5; [|discriminate].
      destruct (u_solve u rho) as [negE|]; [|discriminate]. injection E1 as <-. eexists. split; [reflexivity|]. split; [reflexivity|].
      cbn [rs_src]. apply finest_looped; [by eapply density_looped|]. by exists T3, xs2.
    - injection E1 as <-. eexists. split; [reflexivity|]. split; [reflexivity|]. cbn [rs_src]. destruct HF as (T & xs & HT & HF). exists T, xs. split; [exact HT|]. eapply fine_more; [|exact HF]. lia. }
  destruct H1 as (w1' & -> & -> & G1). cbn [no_trajs rs_count rs_time rs_scr rs_src rs_out rs_rho rs_dofs rs_cells rs_negE rs_hist] in *.
  destruct (record_run_history _ _ _ _ _ (no_traj _, _)) as [[st3 h3]|] eqn:E3; [|discriminate].
  apply (history_back 1) in E3 as (st3' & -> & -> & G3); [|exact G1]. injection E as <-. eexists. split; [reflexivity|]. split; [reflexivity|]. exact G3.
Qed.
Lemma finish_back m file w w2 : (u_neutral u = [] \/ m < np)%Z -> FineSt m (rs_src w) ->
  finish fl u file (no_trajs w) = Ok w2 -> exists w', finish fl u file w = Ok w' /\ w2 = no_trajs w'.
Proof using HL Hsp.
  clear HO HC Hsrc. intros Hroom HF E. unfold finish in *. cbn [no_trajs rs_count rs_time rs_scr rs_src rs_out rs_rho rs_dofs rs_cells rs_negE rs_hist] in *.
  destruct (if file then _ else Ok (no_traj _, _)) as [[st1 o1]|] eqn:E1; [|discriminate].
  assert (H1 : exists st1', (if file then write_snapshot fl u true (rs_count w) (rs_time w) (rs_src w, rs_out w) else Ok (rs_src w, rs_out w)) = Ok (st1', o1) /\ st1 = no_traj st1' /\ FineSt m st1').
  { destruct file; [by apply write_back|injection E1 as <- <-; by exists (rs_src w)]. }
  destruct H1 as (st1' & -> & -> & (T1 & xs1 & HT1 & G1)).
  destruct (sample_back (rs_count w) (rs_time w) (rs_negE w) m st1' T1 xs1 Hroom HT1 G1) as (T2 & -> & _).
  change (record_trajectories fl u (rs_count w) (rs_time w) (rs_negE w) (no_traj st1')) with (@Ok srcst (no_traj st1')) in E. injection E as <-. eexists. split; reflexivity.
Qed.

(** The program ends without trajectories if and only if it ends with them, and the final states are the same except for the
    trajectories.  The trajectories start empty; those of neutral species need room for a point of every step and two more (those
    of charged species need not). *)
Theorem C51_run_transparent file ini n w T0 : (forall sn, ss_saps (rs_src w) sn = sap_init (u_L u)) ->
  ss_traj (rs_src w) = Some T0 -> (forall sn, t_sp T0 sn = []) -> t_npoints T0 = np -> (0 <= np)%Z -> u_traj_skip u <> 0%Z ->
  u_neutral u = [] \/ (Z.of_nat n + 2 <= np)%Z ->
  forall w2, main_run fl st32 u file ini n (no_trajs w) = Ok w2 <-> exists w', main_run fl st32 u file ini n w = Ok w' /\ w2 = no_trajs w'.
Proof using HL Hsp HO HC Hsrc.
  intros H0 HT0 HE0 Hnp Hnp0 Hskip Hroom w2. split; [|intros (w' & E & ->); by apply C51_run_unchanged].
  assert (HF : FineSt 0 (rs_src w)).
  { exists T0, (fun _ => []). split; [exact HT0|]. split.
    - intros sn. rewrite H0. split; cbn; [constructor| |reflexivity| |by rewrite HE0].
      + by destruct (C01_push_keeps_place (u_L u) (@nil particle) HL) as (s & [= <-] & Hst0).
      + rewrite HE0. split; [by intros a b i|]. split; [|done]. cbn. by intros i ?%elem_of_nil.
    - split; [by rewrite Hnp|]. intros s e He. rewrite HE0 in He. by apply elem_of_nil in He.
    - exact Hnp.
    - intros sn e _ He. rewrite HE0 in He. by apply elem_of_nil in He.
    - intros sn. rewrite H0. exact init_settled. }
  intros E. unfold main_run in *. destruct (initialization _ _ _ _ _ (no_trajs w)) as [w1|] eqn:E1; [|discriminate].
  apply init_back in E1 as (w1' & -> & -> & HF1); [|clear HO HC Hsrc; destruct Hroom; [by left|right; lia]|exact HF].
  destruct (time_loop _ _ _ _ (no_trajs w1')) as [w3|] eqn:E2; [|discriminate].
  apply (loop_back n 1) in E2 as (w3' & -> & -> & HF2); [|lia|clear HO HC Hsrc; destruct Hroom; [by left|right; lia]|exact Hskip|exact HF1].
  apply (finish_back (1 + Z.of_nat n)) in E as (w' & E & ->); [|clear HO HC Hsrc; destruct Hroom; [by left|right; lia]|exact HF2]. by exists w'.
Qed.
End Run.

(** The boundary functions that come with the code qualify (for [Civil] see [ships_civil]). *)
Lemma ships_oblivious fl bcs : Ships fl bcs -> Oblivious bcs.
Proof.
  intros HS v bc c p mf f n Hb. destruct c as [sc T]. destruct (HS v bc Hb) as [->|[->| ->]]; unfold absorb_bc, noop_bc, reflect_bc, untraced; cbn [scr usr]; try reflexivity.
  all: repeat match goal with |- context [match ?x with _ => _ end] => destruct x; try reflexivity end.
Qed.

(** The run that [C50_completes] promises also succeeds with trajectories. *)
Theorem C51_completes u a b vs mk d vl st32 file ini n np w T0 : (1 <= u_L u)%Z -> LineRun u vs mk a b d vl ->
  Start u np (no_trajs w) -> u_out_interval u = None /\ file = false \/ u_out_interval u <> None /\ file = true ->
  (forall e, e ∈ default [] ini -> exists sn ps, e = Listed sn ps /\ sn ∈ u_names u /\ Forall (OnLine vs) ps) ->
  (0 < u_hist_skip u)%Z -> (forall m, np = Some m -> (Z.of_nat n / u_hist_skip u < m)%Z) ->
  (forall m w1 w2 pop, (m <= n)%nat -> initialization exact st32 u file ini (no_trajs w) = Ok w1 -> time_loop exact st32 u m w1 = Ok w2 -> Fit u (u_L u) vs w2 pop ->
     (Z.of_nat (sum_list_with (fun sn => length (pop sn) + emitted u sn (rs_count w2 + 1))%nat (u_names u)) < 2 ^ 53)%Z /\
     ((m < n)%nat -> forall sn, sn ∈ u_charged u -> Feedable (u_L u) u a b w2 pop sn)) ->
  (Z.of_nat (population (u_names u) (initial_of ini)) < 2 ^ 53)%Z ->
  (forall sn, Oblivious (u_bcs u sn)) -> NoDup (u_charged u ++ u_neutral u) ->
  ss_traj (rs_src w) = Some T0 -> (forall sn, t_sp T0 sn = []) -> (0 <= t_npoints T0)%Z -> u_traj_skip u <> 0%Z ->
  u_neutral u = [] \/ (Z.of_nat n + 2 <= t_npoints T0)%Z ->
  exists w', main_run exact st32 u file ini n w = Ok w'.
Proof.
  intros HL HR HS Hfile Hini Hsk Hnp Hmeet Hpop HO Hnd HT0 HE0 Hn0 Hskip Hroom.
  destruct (C50_completes u HL _ _ _ _ _ _ HR st32 file ini n np (no_trajs w) HS Hfile Hini Hsk Hnp Hmeet Hpop) as (w2 & E).
  apply (C51_run_transparent exact st32 u HL Hnd HO (lr_civil _ _ _ _ _ _ _ HR) (t_npoints T0)) with (T0 := T0) in E as (w' & E & _); try assumption; try reflexivity.
  - by exists w'.
  - intros dom q Hin. by destruct (lr_sources _ _ _ _ _ _ _ HR dom q Hin) as (_ & Hch & _).
  - exact (s_empty _ _ _ HS).
Qed.

(** ** Example *)

(** The program of [C50_example] with trajectories of five points, sampled at every step.  The particle [ea], with the ID 1, is
    flagged: it gets a trajectory.  The file is the same as without trajectories. *)
Definition traced_start : runst :=
  RunSt 0 0 [0] (SrcSt (fun _ => sap_init 2) 3 0 (Some (Traj 5 None (fun _ => [])))) (out_init 2 ["e"%string] (fun _ => sap_init 2)) [] (fun _ => []) (fun _ => []) (fun _ => [0]) (Some (hist_new 3)).
Example C51_example : exists m w' x, 1 <= x <= 2 /\
  main_run exact exact (main_setup m) true main_initial 2 traced_start = Ok w' /\
  o_file (rs_out w') = [Group 0 0 [("x"%string, [Some (VF (1/2)); Some (VF (1/2))])]; Group 1 1 [("x"%string, [Some (VF (3/2)); Some (VF (1/2))])];
                        Group 2 2 [("x"%string, [Some (VF (1/2)); Some (VF x)])]] /\
  exists T k e, ss_traj (rs_src w') = Some T /\ t_sp T "e" !! k = Some e /\ e_uid e = 1%Z /\ (e_len e <= 5)%Z.
Proof.
  destruct C50_example as (m & w2 & x & Hx & E & HF & _ & _). exists m.
  assert (HO : forall sn, Oblivious (u_bcs (main_setup m) sn)).
  { intros sn. apply (ships_oblivious exact). intros v bc Hb. cbn in Hb. unfold eg_bcs in Hb. destruct (v =? 1)%Z; [|discriminate]. injection Hb as <-. by left. }
  assert (HC : forall sn, Civil (u_bcs (main_setup m) sn)).
  { intros sn. apply (ships_civil exact). intros v bc Hb. cbn in Hb. unfold eg_bcs in Hb. destruct (v =? 1)%Z; [|discriminate]. injection Hb as <-. by left. }
  assert (HL : (1 <= u_L (main_setup m))%Z) by (cbn; lia).
  assert (Hsp : NoDup (u_charged (main_setup m) ++ u_neutral (main_setup m))) by apply NoDup_singleton.
  change main_start with (no_trajs traced_start) in E.
  apply (C51_run_transparent exact exact (main_setup m) HL Hsp HO HC 5) with (T0 := Traj 5 None (fun _ => [])) in E as (w' & E & ->);
    [|intros dom q Hq; apply elem_of_list_singleton in Hq; injection Hq as -> ->; left|reflexivity|reflexivity|reflexivity|reflexivity|lia|discriminate|by left].
  exists w', x. split; [exact Hx|]. split; [exact E|]. split; [exact HF|].
  destruct (C50_phases exact exact (main_setup m) HL true main_initial 2 traced_start w' (NoDup_singleton _) HC (fun _ => eq_refl) E) as (ws & pop & fate & new & HM).
  destruct (C50_trajectories exact exact (main_setup m) HL Hsp true main_initial 2 traced_start w' ws pop fate new (Traj 5 None (fun _ => [])) HC HM (fun _ => eq_refl) eq_refl (fun _ => eq_refl)) as (Ts & T & H1 & HT & _ & HS & Hn & Hk); [cbn; lia|].
  destruct (H1 0%nat ltac:(lia)) as [_ HL0]. destruct (HL0 "e"%string) as (_ & _ & Hflag).
  destruct (Hflag 0%nat ea) as (k & e & He & _ & Hu).
  { destruct HM as [_ M2 _ _]. rewrite (l_start _ _ _ _ _ _ _ _ _ _ _ _ M2). reflexivity. }
  { reflexivity. }
  destruct (Hk 0%nat "e"%string k e ltac:(lia) He) as (e' & He' & Hu' & _). exists T, k, e'. split; [exact HT|]. split; [exact He'|]. split; [rewrite Hu', Hu; reflexivity|].
  destruct (proj2 HS "e"%string e' ltac:(by eapply elem_of_list_lookup_2)) as (Hlen & _). rewrite Hn in Hlen. cbn in Hlen. lia.
Qed.

Print Assumptions C51_mover_goes_on.
Print Assumptions C51_run_transparent.
Print Assumptions C51_completes.
Print Assumptions C51_example.
