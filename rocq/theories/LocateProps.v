(** C53: finding the cells of the particles. *)
From stdpp Require Import strings.
From Verif Require Import SapModel MoverModel SapProofs SapSpec SapRefine StorageProps.
From Verif Require Import Vec VecProofs TrackModel Geometry Conforming DiagModel DiagProofs SourceModel RegionProps LocateModel.
From Coq Require Import ZifyBool ZifyNat.
Ltac Zify.zify_post_hook ::= Z.div_mod_to_equations.

(** What the search tree of DOLFIN promises: for a point in a cell of the mesh the number of such a cell, otherwise 2^32 - 1.  Cell
    numbers fit an int32. *)
Record Search (m : mesh) (first : vec -> Z) : Prop := {
  se_found : forall x c cr, cells m c = Some cr -> inside m c x = true ->
    exists cr', cells m (first x) = Some cr' /\ inside m (first x) x = true;
  se_none : forall x, (forall c cr, cells m c = Some cr -> inside m c x = false) -> first x = (2 ^ 32 - 1)%Z;
  se_range : forall c cr, cells m c = Some cr -> (0 <= c < 2 ^ 31)%Z
}.

(** The particle lies in the cell [c] of the mesh. *)
Definition LiesIn (m : mesh) (p : particle) (c : Z) : Prop := is_Some (cells m c) /\ inside m c (take (gdim m) (px p)) = true.
(** [q] is [p] with the number of a cell in which it lies. *)
Definition Located (m : mesh) (p q : particle) : Prop := LiesIn m p (pcell q) /\
  px q = px p /\ px0 q = px0 p /\ pu q = pu p /\ pw q = pw p /\ pbits q = pbits p /\ puid q = puid p /\ pcross q = pcross p.

Section Loop.
Context (m : mesh) (first : vec -> Z) (junk : particle) (L : Z) (HL : (1 <= L)%Z).

(** The work on one particle. *)
Definition place (p : particle) : res particle :=
  let! c := compute_cell_index m first (px p) in
  let q := set_pcell p (int32 c) in
  let! b := is_inside_cell m (px q) (pcell q) in
  if b then Ok q else Raise RuntimeError.
Fixpoint placed (ps : list particle) : res (list particle) :=
  match ps with
  | [] => Ok []
  | p :: r => let! q := place p in let! qs := placed r in Ok (q :: qs)
  end.
Lemma placed_app a b : placed (a ++ b) = let! x := placed a in let! y := placed b in Ok (x ++ y).
Proof using.
  induction a as [|p a IH]; cbn [placed app]; [by destruct (placed b)|]. destruct (place p) as [q|]; [|done].
  rewrite IH. destruct (placed a) as [x|]; [|done]. by destruct (placed b).
Qed.
Lemma placed_length ps qs : placed ps = Ok qs -> length qs = length ps.
Proof using.
  revert qs. induction ps as [|p r IH]; intros qs E; cbn [placed] in E; [by injection E as <-|].
  destruct (place p) as [q|]; [|done]. destruct (placed r) as [qs1|]; [|done]. injection E as <-. cbn. f_equal. by apply IH.
Qed.

Lemma one_ok s items cu nin nout (k : nat) ip p : Reachable L s -> Rel L s (AState items false cu nin nout) -> items !! k = Some p ->
  (0 <= ip < L)%Z -> Z.of_nat k = (cu * L + ip)%Z -> (k < length items)%nat ->
  match place p with
  | Raise e => locate_one m first junk s ip = Raise e
  | Ok q => exists s', locate_one m first junk s ip = Ok s' /\ Reachable L s' /\ Rel L s' (AState (<[k := q]> items) false cu nin nout)
  end.
Proof using HL.
  intros HRe HR Hp Hip Hk Hlt. pose proof HR as [Hcu [H1 H2 H3 H4 H5 H6 H7]]. cbn [a_items a_cursor a_nin a_nout a_dead] in *.
  assert (Hd : (Z.of_nat k / L = cu)%Z) by (symmetry; apply Z.div_unique with ip; lia).
  assert (Hmd : (Z.of_nat k mod L = ip)%Z) by (symmetry; apply Z.mod_unique with cu; lia).
  pose proof (rel_get L HL s _ k p HR Hp) as Eg. unfold get_item in Eg. rewrite H1, Hd, Hmd in Eg.
  unfold locate_one, place. rewrite H4, Eg. change (seen junk (Some p)) with p.
  destruct (compute_cell_index m first (px p)) as [c|]; [|done]. cbv zeta. set (q := set_pcell p (int32 c)).
  pose proof (set_ok L HL s _ (Z.of_nat k) q HR) as Hs. cbn [py_step a_step] in Hs. unfold set_item in Hs. rewrite H1, Hd, Hmd in Hs.
  assert (Hslot : slot_of (nout * L) (Z.of_nat k) = Some (Z.of_nat k)).
  { unfold slot_of. replace (Z.of_nat k <? 0)%Z with false by (clear; lia). destruct H3 as [W P K].
    pose proof (Prefix_le L _ _ HL W P) as Hle. rewrite H5 in Hle.
    replace ((0 <=? Z.of_nat k)%Z && (Z.of_nat k <? nout * L)%Z) with true by (clear - Hle Hlt; lia). done. }
  rewrite Hslot, Nat2Z.id in Hs.
  destruct Hs as (s' & got & E & _ & HR').
  destruct (store (arr s (out_sa s)) cu ip (Some q)) as [a1|] eqn:Es; [|done]. injection E as <- <-.
  destruct (is_inside_cell m (px q) (pcell q)) as [[|]|]; [|done|done].
  eexists. split; [reflexivity|]. split; [|exact HR'].
  eapply (r_op L s (SetAt (Z.of_nat k) q) _ ODone HRe). cbn [py_step]. unfold set_item. rewrite H1, Hd, Hmd, Es. done.
Qed.

Lemma segment_ok mid : forall pre post s cu nin nout ip, Reachable L s -> Rel L s (AState (pre ++ mid ++ post) false cu nin nout) ->
  (0 <= ip)%Z -> (ip + Z.of_nat (length mid) <= L)%Z -> Z.of_nat (length pre) = (cu * L + ip)%Z ->
  match placed mid with
  | Raise e => locate_segment m first junk (length mid) ip s = Raise e
  | Ok qs => exists s', locate_segment m first junk (length mid) ip s = Ok s' /\ Reachable L s' /\ Rel L s' (AState (pre ++ qs ++ post) false cu nin nout)
  end.
Proof using HL.
  induction mid as [|p mid IH]; intros pre post s cu nin nout ip HRe HR Hip Hlen Hpre; cbn [placed length locate_segment].
  - by exists s.
  - cbn [length] in Hlen.
    pose proof (one_ok s _ cu nin nout (length pre) ip p HRe HR) as H1. rewrite app_length in H1. cbn [app length] in H1.
    rewrite lookup_app_r, Nat.sub_diag in H1 by (clear; lia).
    specialize (H1 eq_refl ltac:(clear - Hip Hlen; lia) Hpre ltac:(clear; lia)).
    destruct (place p) as [q|e]; [|by rewrite H1]. destruct H1 as (s1 & -> & HRe1 & HR1).
    rewrite insert_app_r_alt, Nat.sub_diag in HR1 by (clear; lia). cbn [insert list_insert] in HR1. rewrite cons_middle, app_assoc in HR1.
    specialize (IH (pre ++ [q]) post s1 cu nin nout (ip + 1)%Z HRe1 HR1 ltac:(clear - Hip; lia) ltac:(clear - Hlen; lia)).
    rewrite app_length in IH. cbn [length] in IH. specialize (IH ltac:(clear - Hpre; lia)).
    destruct (placed mid) as [qs|e]; [|exact IH]. destruct IH as (s' & E & HRe' & HR').
    exists s'. split; [exact E|]. split; [exact HRe'|]. rewrite <- app_assoc in HR'. exact HR'.
Qed.

Lemma rest_ok fuel : forall done todo s cu nin nout, Reachable L s -> Rel L s (AState (done ++ todo) false cu nin nout) ->
  Z.of_nat (length done) = Z.min ((cu + 1) * L) (Z.of_nat (length (done ++ todo))) ->
  (Z.of_nat (length (done ++ todo)) <= (cu + Z.of_nat fuel) * L)%Z -> (1 <= fuel)%nat ->
  match placed todo with
  | Raise e => locate_rest m first junk fuel s = Raise e
  | Ok qs => exists s' cu', locate_rest m first junk fuel s = Ok s' /\ Reachable L s' /\ Rel L s' (AState (done ++ qs) false cu' nin nout) /\
      (cu' * L >= Z.of_nat (length (done ++ todo)))%Z
  end.
Proof using HL.
  induction fuel as [|f IH]; intros dn todo s cu nin nout HRe HR Hdn Hf Hf1; [clear - Hf1; lia|].
  pose proof HR as [Hcu _]. cbn [a_cursor] in Hcu. cbn [locate_rest].
  pose proof (loopnext_ok L HL s _ HR) as H. cbn [py_step a_step] in H. set (n := Z.of_nat (length (dn ++ todo))) in *.
  assert (Hn : n = (Z.of_nat (length dn) + Z.of_nat (length todo))%Z) by (unfold n; rewrite app_length; clear; lia).
  destruct ((cu + 1) * L <? n)%Z eqn:El.
  - destruct H as (s1 & got & E & Hok & HR1). destruct (get_next_segment s false) as [[s1' [c b]]|] eqn:En; [|done]. injection E as -> <-.
    assert (HRe1 : Reachable L s1) by (eapply (r_op L s LoopNext); [done|cbn; by rewrite En]).
    destruct b as [v|]; [|done]. destruct Hok as [<- _].
    set (k := Z.to_nat (Z.min L (n - (cu + 1) * L))) in *.
    assert (Hdn' : Z.of_nat (length dn) = ((cu + 1) * L)%Z) by (clear - Hdn El; lia).
    assert (Hk : (k <= length todo)%nat) by (clear - k Hn Hdn' HL El; lia).
    rewrite <- (take_drop k todo) in HR1 |- *.
    pose proof (segment_ok (take k todo) dn (drop k todo) s1 (cu + 1)%Z nin nout 0%Z HRe1 HR1) as HS. rewrite take_length in HS.
    replace (k `min` length todo)%nat with k in HS by (clear - Hk; lia).
    specialize (HS ltac:(lia) ltac:(clear - k El HL; lia) ltac:(clear - Hdn'; lia)).
    rewrite placed_app. rewrite take_drop in *.
    destruct (placed (take k todo)) as [q1|e] eqn:E1; [|by rewrite HS]. destruct HS as (s2 & -> & HRe2 & HR2).
    pose proof (placed_length _ _ E1) as Hq1. rewrite take_length in Hq1.
    assert (Hq1' : length q1 = k) by (clear - Hq1 Hk; lia).
    assert (Hlen : length ((dn ++ q1) ++ drop k todo) = length (dn ++ todo)) by (rewrite !app_length, drop_length; clear - Hq1' Hk; lia).
    rewrite app_assoc in HR2. specialize (IH (dn ++ q1) (drop k todo) s2 (cu + 1)%Z nin nout HRe2 HR2).
    rewrite Hlen in IH. fold n in IH. rewrite app_length, Hq1' in IH.
    specialize (IH ltac:(clear - k El HL Hdn'; lia)).
    destruct (Nat.eq_dec f 0) as [->|Hf0]; [clear - Hf El; lia|].
    specialize (IH ltac:(clear - Hf; nia) ltac:(clear - Hf0; lia)).
    destruct (placed (drop k todo)) as [q2|e]; [|exact IH]. destruct IH as (s' & cu' & E & HRe' & HR' & Hcu').
    exists s', cu'. split; [exact E|]. split; [exact HRe'|]. split; [by rewrite app_assoc|exact Hcu'].
  - assert (length todo = 0%nat) as ->%nil_length_inv by (clear - Hn Hdn El; lia). cbn [placed].
    destruct H as (s1 & got & E & Hok & HR1). destruct (get_next_segment s false) as [[s1' [c b]]|] eqn:En; [|done]. injection E as -> <-.
    destruct b as [v|]; [done|]. exists s1, (cu + 1)%Z. split; [done|]. split; [eapply (r_op L s LoopNext); [done|cbn; by rewrite En]|].
    split; [exact HR1|]. clear - El. lia.
Qed.

(** The loop over one species gives the result of the work on its particles, one after the other. *)
Lemma species_ok s ps : Counted L s ps ->
  match placed ps with
  | Raise e => locate_species m first junk s = Raise e
  | Ok qs => exists s', locate_species m first junk s = Ok s' /\ Counted L s' qs /\
      (ps <> [] -> exists cu nin nout, Rel L s' (AState qs false cu nin nout) /\ (cu * L >= Z.of_nat (length ps))%Z)
  end.
Proof using HL.
  intros (HRe & Hs & Hnp). unfold locate_species. destruct ps as [|p0 ps0].
  - specialize (Hnp eq_refl). destruct (never_pushed_rel L HL s Hnp) as (a & Ha & Hi & Hd).
    pose proof (loopstart_ok L HL s a Ha) as H. destruct a as [items dead cu nin nout]. cbn [a_items a_dead] in Hi, Hd. subst items dead.
    cbn [py_step a_step placed] in *. destruct (init_out_loop s) as [[s1 [n b]]|] eqn:Ei; [|by destruct H as (? & ? & ? & _)].
    destruct H as (s2 & got & E1 & Hok & HR1). injection E1 as <- <-. cbn in Hok. destruct b as [v|]; [done|].
    exists s1. split; [done|]. split; [|done]. split; [eapply (r_op L s LoopStart); [done|cbn; by rewrite Ei]|].
    split; [by apply (rel_stores L HL) in HR1|]. intros _. apply (np_op L s LoopStart _ (OBlock n None) Hnp); [done|]. cbn. by rewrite Ei.
  - set (ps := p0 :: ps0) in *. assert (Hne : ps <> []) by done. clearbody ps. clear p0 ps0 Hnp.
    destruct (reach_rel L HL s HRe) as [a Ha]. pose proof (rel_stores_eq L HL s a ps Ha Hs) as Hi.
    pose proof (loopstart_ok L HL s a Ha) as H. destruct a as [items dead cu nin nout]. cbn [a_items] in Hi. subst items.
    pose proof Ha as [_ Ha']. cbn [a_dead a_items] in Ha'. destruct dead; [by destruct Ha' as [-> _]|]. cbn [py_step a_step] in H.
    assert (Hpos : (0 < length ps)%nat) by (destruct ps; [done|cbn; lia]).
    replace (Z.of_nat (length ps) =? 0)%Z with false in H by (clear - Hpos; lia).
    destruct H as (s1 & got & E & Hok & HR1). destruct (init_out_loop s) as [[s1' [c b]]|] eqn:Ei; [|done]. injection E as -> <-.
    assert (HRe1 : Reachable L s1) by (eapply (r_op L s LoopStart); [done|cbn; by rewrite Ei]).
    destruct b as [v|]; [|done]. destruct Hok as [<- _]. set (k := Z.to_nat (Z.min L (Z.of_nat (length ps)))) in *.
    assert (Hk : (k <= length ps)%nat) by (clear - k HL; lia).
    pose proof (segment_ok (take k ps) [] (drop k ps) s1 0%Z nin nout 0%Z HRe1) as HS. cbn [app length] in HS. rewrite take_drop, take_length in HS.
    replace (k `min` length ps)%nat with k in HS by (clear - Hk; lia).
    specialize (HS HR1 ltac:(lia) ltac:(clear - k HL; lia) ltac:(lia)).
    replace (placed ps) with (placed (take k ps ++ drop k ps)) by (by rewrite take_drop). rewrite placed_app.
    destruct (placed (take k ps)) as [q1|e] eqn:E1; [|by rewrite HS]. destruct HS as (s2 & -> & HRe2 & HR2).
    pose proof (placed_length _ _ E1) as Hq1. rewrite take_length in Hq1.
    assert (Hq1' : length q1 = k) by (clear - Hq1 Hk; lia).
    assert (Hnl : (Z.of_nat (length ps) <= nout * L)%Z /\ nseg (arr s (out_sa s)) = nout /\ (1 <= nout)%Z).
    { cbn [a_cursor a_nin a_nout] in Ha'. destruct Ha' as [_ _ [W P K] _ H5 _ _]. pose proof (Prefix_le L _ _ HL W P) as Hle. destruct W as [_ _ Wp]. rewrite H5 in Hle, Wp. split; [clear - Hle; lia|]. split; [exact H5|exact Wp]. }
    destruct Hnl as (Hnl & -> & Hno).
    pose proof (rest_ok (Z.to_nat (nout + 1)) q1 (drop k ps) s2 0%Z nin nout HRe2 HR2) as HRs.
    rewrite app_length, drop_length, Hq1' in HRs.
    specialize (HRs ltac:(clear - k HL Hk; lia) ltac:(clear - Hnl Hno Hk HL; nia) ltac:(clear - Hno; lia)).
    destruct (placed (drop k ps)) as [q2|e] eqn:E2; [|exact HRs]. destruct HRs as (s' & cu' & E & HRe' & HR' & Hcu').
    pose proof (placed_length _ _ E2) as Hq2. rewrite drop_length in Hq2.
    exists s'. split; [exact E|]. split.
    + split; [exact HRe'|]. split; [by apply (rel_stores L HL) in HR'|]. intros H0. apply (f_equal length) in H0. rewrite app_length in H0. cbn [length] in H0. clear - H0 Hq1' Hq2 Hpos Hk. lia.
    + intros _. exists cu', nin, nout. split; [exact HR'|]. clear - Hcu' Hk. lia.
Qed.
End Loop.

(** ** Statements *)

Lemma place_inside m first p c : Search m first -> LiesIn m p c -> exists q, place m first p = Ok q /\ Located m p q.
Proof.
  intros [S1 _ S3] [[cr Hc] Hin]. destruct (S1 _ _ _ Hc Hin) as (cr' & Hc' & Hin'). pose proof (S3 _ _ Hc') as Hr.
  unfold place, compute_cell_index. set (f := first (take (gdim m) (px p))) in *.
  replace (f =? NO_CELL)%Z with false by (unfold NO_CELL; lia). unfold is_inside_cell. cbn [pcell px set_pcell].
  rewrite int32_small by exact Hr. rewrite Hc', Hin'. eexists. split; [reflexivity|]. unfold Located, LiesIn. cbn. rewrite Hc', Hin'. done.
Qed.
Lemma place_outside m first p : Search m first -> (forall c, ~ LiesIn m p c) -> place m first p = Raise KeyError.
Proof.
  intros [_ S2 S3] Hno. unfold place, compute_cell_index. rewrite (S2 (take (gdim m) (px p))).
  - change (2 ^ 32 - 1 =? NO_CELL)%Z with false. unfold is_inside_cell. cbn [pcell px set_pcell].
    change (int32 (2 ^ 32 - 1)) with (-1)%Z. destruct (cells m (-1)%Z) as [cr|] eqn:E; [|done]. pose proof (S3 _ _ E). lia.
  - intros c cr Hc. destruct (inside m c (take (gdim m) (px p))) eqn:E; [|done]. destruct (Hno c). split; [by eexists|done].
Qed.
Lemma lies_dec m first p : Search m first -> (exists c, LiesIn m p c) \/ forall c, ~ LiesIn m p c.
Proof.
  intros [S1 S2 S3]. set (x := take (gdim m) (px p)). destruct (cells m (first x)) as [cr|] eqn:E; [destruct (inside m (first x) x) eqn:E1|].
  - left. exists (first x). split; [by eexists|done].
  - right. intros c [[cr' Hc] Hin]. destruct (S1 _ _ _ Hc Hin) as (? & ? & ?). fold x in H0. congruence.
  - right. intros c [[cr' Hc] Hin]. destruct (S1 _ _ _ Hc Hin) as (? & ? & ?). fold x in H. congruence.
Qed.
Lemma placed_inside m first ps : Search m first -> (forall p, p ∈ ps -> exists c, LiesIn m p c) ->
  exists qs, placed m first ps = Ok qs /\ Forall2 (Located m) ps qs.
Proof.
  intros HS. induction ps as [|p ps IH]; intros H; [by exists []|]. destruct (H p) as [c Hc]; [left|].
  destruct (place_inside _ _ _ _ HS Hc) as (q & E & Hq). destruct IH as (qs & E1 & Hqs); [intros p' Hp'; apply H; by right|].
  exists (q :: qs). cbn [placed]. rewrite E, E1. split; [done|]. by constructor.
Qed.
Lemma all_or_one m first (ps : list particle) : Search m first ->
  (forall p, p ∈ ps -> exists c, LiesIn m p c) \/ exists p, p ∈ ps /\ forall c, ~ LiesIn m p c.
Proof.
  intros HS. induction ps as [|p ps IH]; [left; intros p Hp; by apply elem_of_nil in Hp|].
  destruct (lies_dec m first p HS) as [Hp|Hp]; [|right; exists p; split; [left|done]].
  destruct IH as [IH|(q & Hq & Hno)]; [|right; exists q; split; [by right|done]].
  left. intros q Hq. by apply elem_of_cons in Hq as [->|Hq]; [|apply IH].
Qed.
Lemma placed_outside m first ps p : Search m first -> p ∈ ps -> (forall c, ~ LiesIn m p c) -> placed m first ps = Raise KeyError.
Proof.
  intros HS. induction ps as [|p' ps IH]; intros Hp Hno; [by apply elem_of_nil in Hp|]. cbn [placed].
  destruct (lies_dec m first p' HS) as [[c Hc]|Hc].
  - destruct (place_inside _ _ _ _ HS Hc) as (q & E & _). rewrite E. apply elem_of_cons in Hp as [->|Hp]; [by destruct (Hno c)|].
    by rewrite IH.
  - by rewrite (place_outside _ _ _ HS Hc).
Qed.

Section Statements.
Context (m : mesh) (first : vec -> Z) (junk : particle) (L : Z) (HL : (1 <= L)%Z) (HS : Search m first).

(** If every particle of every species lies in a cell, then every particle gets the number of a cell in which it lies; nothing else
    changes, neither in the particles nor in their number and order. *)
Theorem C53_located names saps pop : NoDup names -> (forall sn, sn ∈ names -> Counted L (saps sn) (pop sn)) ->
  (forall sn p, sn ∈ names -> p ∈ pop sn -> exists c, LiesIn m p c) ->
  exists saps' pop', compute_mesh_cell_indices (Some m) first junk names saps = Ok saps' /\
    (forall sn, sn ∈ names -> Counted L (saps' sn) (pop' sn) /\ Forall2 (Located m) (pop sn) (pop' sn)) /\
    (forall sn, sn ∉ names -> saps' sn = saps sn).
Proof using HL HS.
  cbn [compute_mesh_cell_indices]. revert saps. induction names as [|sn r IH]; intros saps Hnd HC Hin.
  - exists saps, pop. split; [done|]. split; [intros sn Hsn; by apply elem_of_nil in Hsn|done].
  - apply list.NoDup_cons in Hnd as [Hni Hnd]. cbn [locate_all].
    destruct (placed_inside m first (pop sn) HS) as (qs & E & HF); [intros p Hp; apply (Hin sn); [left|done]|].
    pose proof (species_ok m first junk L HL (saps sn) (pop sn) (HC sn ltac:(left))) as H. rewrite E in H. destruct H as (s1 & -> & Hc & _).
    destruct (IH (set_key saps sn s1) Hnd) as (saps' & pop' & E' & H1 & H2).
    { intros x Hx. unfold set_key. destruct (String.eqb_spec x sn) as [->|]; [done|]. apply HC. by right. }
    { intros x p Hx. apply Hin. by right. }
    exists saps', (fun x => if String.eqb x sn then qs else pop' x). split; [exact E'|]. split.
    + intros x Hx. destruct (String.eqb_spec x sn) as [->|Hne].
      * rewrite (H2 sn Hni). unfold set_key. rewrite String.eqb_refl. by split.
      * apply H1. by apply elem_of_cons in Hx as [->|Hx].
    + intros x Hx. rewrite H2 by (intros H; apply Hx; by right). unfold set_key. destruct (String.eqb_spec x sn) as [->|]; [|done]. destruct Hx. left.
Qed.

(** If some particle lies in no cell, then the call fails, and with a KeyError: the exit with a message that the code has for
    particles out of bounds is never taken, nor is the check at the end of the loop. *)
Theorem C53_outside names saps pop sn p : NoDup names -> (forall sn, sn ∈ names -> Counted L (saps sn) (pop sn)) ->
  sn ∈ names -> p ∈ pop sn -> (forall c, ~ LiesIn m p c) ->
  compute_mesh_cell_indices (Some m) first junk names saps = Raise KeyError.
Proof using HL HS.
  cbn [compute_mesh_cell_indices]. revert saps. induction names as [|s0 r IH]; intros saps Hnd HC Hsn Hp Hno; [by apply elem_of_nil in Hsn|].
  apply list.NoDup_cons in Hnd as [Hni Hnd]. cbn [locate_all].
  pose proof (species_ok m first junk L HL (saps s0) (pop s0) (HC s0 ltac:(left))) as H.
  destruct (all_or_one m first (pop s0) HS) as [Hall|(q & Hq & Hq')].
  - destruct (placed_inside m first (pop s0) HS Hall) as (qs & E & _). rewrite E in H. destruct H as (s1 & -> & Hc & _).
    apply elem_of_cons in Hsn as [->|Hsn]; [destruct (Hall p Hp) as [c Hc']; by destruct (Hno c)|].
    apply IH; [done| |done|done|done]. intros x Hx. unfold set_key. destruct (String.eqb_spec x s0) as [->|]; [done|]. apply HC. by right.
  - rewrite (placed_outside m first _ q HS Hq Hq') in H. by rewrite H.
Qed.

(** Without the dictionary of cells ([compute_dictionaries] was not set; [initialize_particle_mesh] does not make it) the call fails
    as soon as there is a particle that the search tree finds. *)
Theorem C53_no_dictionary_refuted g ins mk s p ps : Counted L s (p :: ps) -> (0 <= first (take g (px p)))%Z ->
  locate_species (Mesh g (fun _ => None) ins mk) first junk s = Raise KeyError.
Proof using HL.
  intros HC Hf. pose proof (species_ok (Mesh g (fun _ => None) ins mk) first junk L HL s _ HC) as H. cbn [placed] in H.
  unfold place, compute_cell_index in H. cbn [gdim] in H. replace (first (take g (px p)) =? NO_CELL)%Z with false in H by (unfold NO_CELL; lia).
  exact H.
Qed.

(** After the call particles can be added to a species whose last segment is full only after the next mover pass. *)
Theorem C53_push_refused_refuted s ps s' x : Counted L s ps -> ps <> [] -> (Z.of_nat (length ps) mod L = 0)%Z ->
  locate_species m first junk s = Ok s' -> push_back s' x = Raise AssertionError.
Proof using HL.
  intros HC Hne Hm E. pose proof (species_ok m first junk L HL s ps HC) as H. destruct (placed m first ps) as [qs|e] eqn:Ep; [|congruence].
  destruct H as (s1 & E1 & _ & H). rewrite E in E1. injection E1 as <-. destruct (H Hne) as (cu & nin & nout & HR & Hcu).
  pose proof (placed_length _ _ _ _ Ep) as Hlen. pose proof (push_ok L HL _ _ x HR) as Hp. cbn [py_step a_step] in Hp.
  unfold push_refused in Hp. cbn [a_items a_dead a_cursor] in Hp. rewrite Hlen in Hp.
  assert (0 < length ps)%nat by (destruct ps; [done|cbn; lia]). set (n := Z.of_nat (length ps)) in *.
  replace (0 <? n)%Z with true in Hp by lia. replace (n mod L =? 0)%Z with true in Hp by lia.
  assert (n / L <= cu)%Z by (apply Z.div_le_upper_bound; lia).
  replace (cu + 1 =? n / L)%Z with false in Hp by lia. cbn in Hp.
  destruct (push_back s' x) as [[s2 [o i]]|e]; [done|congruence].
Qed.
End Statements.

(** On a conforming mesh, in exact arithmetic, every particle then is in its cell in the sense of the tracking theorems (C12 to C15). *)
Corollary C53_ready m first junk L names saps pop : (1 <= L)%Z -> Search m first -> Conforming m -> NoDup names ->
  (forall sn, sn ∈ names -> Counted L (saps sn) (pop sn)) ->
  (forall sn p, sn ∈ names -> p ∈ pop sn -> length (px p) = gdim m /\ exists c cr, cells m c = Some cr /\ InCell (gdim m) cr (px p)) ->
  exists saps' pop', compute_mesh_cell_indices (Some m) first junk names saps = Ok saps' /\
    forall sn, sn ∈ names -> Counted L (saps' sn) (pop' sn) /\
      Forall2 (fun p q => px q = px p /\ exists cr, cells m (pcell q) = Some cr /\ InCell (gdim m) cr (px q)) (pop sn) (pop' sn).
Proof.
  intros HL HS HC Hnd HN Hin. destruct (C53_located m first junk L HL HS names saps pop Hnd HN) as (saps' & pop' & E & H1 & _).
  { intros sn p Hsn Hp. destruct (Hin sn p Hsn Hp) as (Hlen & c & cr & Hc & Hi). exists c. split; [by eexists|].
    rewrite take_ge by lia. by apply (cf_inside _ HC _ _ _ Hc Hlen). }
  exists saps', pop'. split; [exact E|]. intros sn Hsn. destruct (H1 sn Hsn) as [H2 H3]. split; [exact H2|].
  assert (H4 : forall p, p ∈ pop sn -> length (px p) = gdim m) by (intros p Hp; by apply (Hin sn)).
  clear - H3 H4 HC. induction H3 as [|p q ps qs (Hl & Hx & _) H3 IH]; constructor.
  - split; [exact Hx|]. destruct Hl as [[cr Hc] Hi]. exists cr. split; [exact Hc|]. rewrite Hx.
    assert (Hlen : length (px p) = gdim m) by (apply H4; left). rewrite take_ge in Hi by lia. by apply (cf_inside _ HC _ _ _ Hc Hlen).
  - apply IH. intros p' Hp'. apply H4. by right.
Qed.

(** ** Examples *)

(** A search on the cells [0,1] and [1,3]. *)
Definition line_first (x : vec) : Z := if line_inside 0 x then 0%Z else if line_inside 1 x then 1%Z else (2 ^ 32 - 1)%Z.
Lemma line_search : Search line_mesh line_first.
Proof.
  split.
  - intros x c cr Hc Hi. unfold line_first. destruct (line_inside 0 x) eqn:E0; [by eexists|]. destruct (line_inside 1 x) eqn:E1; [by eexists|].
    line_cases Hc; cbn [inside line_mesh] in Hi; congruence.
  - intros x Hno. unfold line_first. change (line_inside 0 x) with (inside line_mesh 0%Z x). change (line_inside 1 x) with (inside line_mesh 1%Z x).
    by rewrite (Hno 0%Z _ eq_refl), (Hno 1%Z _ eq_refl).
  - intros c cr Hc. line_cases Hc; lia.
Qed.
Lemma line_first_0 a : 0 <= a <= 1 -> line_first [a] = 0%Z.
Proof. intros H. unfold line_first, line_inside. cbn [Z.eqb]. by rewrite (proj2 (Rltb_false _ _)), (proj2 (Rltb_false _ _)) by lra. Qed.
Lemma line_first_1 a : 1 < a <= 3 -> line_first [a] = 1%Z.
Proof.
  intros H. unfold line_first, line_inside. cbn [Z.eqb]. rewrite (proj2 (Rltb_false a 0)), (proj2 (Rltb_true 1 a)) by lra. cbn [negb andb].
  by rewrite (proj2 (Rltb_false _ _)), (proj2 (Rltb_false _ _)) by lra.
Qed.

(** Three particles in segments of length 2, all stored with the cell number 7. *)
Definition loc_p (a : R) : particle := Particle [a] [a] [0] 1 0 7 1 0.
Definition loc_hist : list (op particle) := [Push (loc_p (1/2)); Push (loc_p 2); Push (loc_p (5/2))].
Definition loc_sap : sap particle := snd (run py_step (sap_init 2) loc_hist).
Lemma loc_counted : Counted 2 loc_sap [loc_p (1/2); loc_p 2; loc_p (5/2)].
Proof.
  split; [|split; [split|intros H; discriminate H]].
  - apply (run_reach 2 loc_hist (sap_init 2) [OPos 0 0; OPos 1 1; OPos 0 2]); [constructor|]. cbv -[loc_p]. reflexivity.
  - cbv -[loc_p]. reflexivity.
  - intros k x Hk. destruct k as [|[|[|k]]]; cbn in Hk; try discriminate Hk; injection Hk as <-; cbv -[loc_p]; reflexivity.
Qed.

Lemma place_line_0 a : 0 <= a <= 1 -> place line_mesh line_first (loc_p a) = Ok (set_pcell (loc_p a) 0).
Proof.
  intros H. unfold place, compute_cell_index. change (take (gdim line_mesh) (px (loc_p a))) with [a]. rewrite line_first_0 by lra.
  change (0 =? NO_CELL)%Z with false. cbv iota beta zeta. change (int32 0) with 0%Z. unfold is_inside_cell.
  change (cells line_mesh (pcell (set_pcell (loc_p a) 0))) with (cells line_mesh 0%Z).
  change (inside line_mesh (pcell (set_pcell (loc_p a) 0)) (take (gdim line_mesh) (px (set_pcell (loc_p a) 0)))) with (negb (Rltb a 0) && negb (Rltb 1 a)).
  rewrite !(proj2 (Rltb_false _ _)) by lra. reflexivity.
Qed.
Lemma place_line_1 a : 1 < a <= 3 -> place line_mesh line_first (loc_p a) = Ok (set_pcell (loc_p a) 1).
Proof.
  intros H. unfold place, compute_cell_index. change (take (gdim line_mesh) (px (loc_p a))) with [a]. rewrite line_first_1 by lra.
  change (1 =? NO_CELL)%Z with false. cbv iota beta zeta. change (int32 1) with 1%Z. unfold is_inside_cell.
  change (cells line_mesh (pcell (set_pcell (loc_p a) 1))) with (cells line_mesh 1%Z).
  change (inside line_mesh (pcell (set_pcell (loc_p a) 1)) (take (gdim line_mesh) (px (set_pcell (loc_p a) 1)))) with (negb (Rltb a 1) && negb (Rltb 3 a)).
  rewrite !(proj2 (Rltb_false _ _)) by lra. reflexivity.
Qed.

(** Their cells are found. *)
Example C53_example junk : exists s', locate_species line_mesh line_first junk loc_sap = Ok s' /\
  get_number_of_items s' = 3%Z /\ get_item s' 0 = Ok (Some (set_pcell (loc_p (1/2)) 0)) /\
  get_item s' 1 = Ok (Some (set_pcell (loc_p 2) 1)) /\ get_item s' 2 = Ok (Some (set_pcell (loc_p (5/2)) 1)).
Proof.
  pose proof loc_counted as HC.
  pose proof (species_ok line_mesh line_first junk 2 ltac:(lia) loc_sap _ HC) as H.
  assert (Ep : placed line_mesh line_first [loc_p (1/2); loc_p 2; loc_p (5/2)] = Ok [set_pcell (loc_p (1/2)) 0; set_pcell (loc_p 2) 1; set_pcell (loc_p (5/2)) 1]).
  { cbn [placed]. rewrite place_line_0 by lra. rewrite !place_line_1 by lra. reflexivity. }
  rewrite Ep in H. destruct H as (s' & E' & (_ & [Hn Hg] & _) & _). exists s'. split; [exact E'|]. split; [exact Hn|].
  split; [exact (Hg 0%nat _ eq_refl)|]. split; [exact (Hg 1%nat _ eq_refl)|exact (Hg 2%nat _ eq_refl)].
Qed.

(** A species whose only particle [p] was moved to [q], outside the mesh, and deleted: the loop takes the deleted particle from memory,
    and fails, although the species is empty. *)
Theorem C53_died_out_refuted (p q : particle) : exists s : sap particle, Reachable 2 s /\ Stores s [] /\
  forall m first junk, Search m first -> (forall c, ~ LiesIn m q c) -> locate_species m first junk s = Raise KeyError.
Proof.
  set (h := [Push p; Pass (fun _ => q) (fun _ => true)]).
  exists (snd (run py_step (sap_init 2) h)). split; [|split].
  - apply (run_reach 2 h (sap_init 2) [OPos 0 0; ODone]); [constructor|]. cbv. reflexivity.
  - split; [cbv; reflexivity|]. intros k x Hk. by rewrite lookup_nil in Hk.
  - intros m first junk HS Hj.
    pose proof (place_outside m first q HS Hj) as H.
    assert (E : exists s1 b, init_out_loop (snd (run py_step (sap_init 2) h)) = Ok (s1, (2%Z, Some b)) /\
      fetch (arr s1 (out_sa s1)) (cur (arr s1 (out_sa s1))) 0 = Ok (Some q) /\
      forall x, exists a1, store (arr s1 (out_sa s1)) (cur (arr s1 (out_sa s1))) 0 x = Ok a1).
    { eexists _, _. split; [cbv; reflexivity|]. split; [cbv; reflexivity|]. intros x. eexists. cbv. reflexivity. }
    destruct E as (s1 & b & E & F & G). unfold locate_species. rewrite E. change (Z.to_nat 2) with 2%nat. cbn [locate_segment].
    unfold locate_one. rewrite F. cbn [seen default]. unfold place in H. change (Datatypes.id q) with q.
    destruct (compute_cell_index m first (px q)) as [c|e]; cbv iota beta in H |- *; [|congruence].
    destruct (G (Some (set_pcell q (int32 c)))) as [a1 ->]. cbv iota beta.
    destruct (is_inside_cell _ _ _) as [[|]|e]; cbv iota beta in H |- *; congruence.
Qed.

Print Assumptions C53_located.
Print Assumptions C53_outside.
Print Assumptions C53_no_dictionary_refuted.
Print Assumptions C53_push_refused_refuted.
Print Assumptions C53_ready.
Print Assumptions C53_example.
Print Assumptions C53_died_out_refuted.
