(** Facts about the trajectory bookkeeping and the complete movers. *)
From Verif Require Import Vec VecProofs TrackModel BcModel TrackProofs TrackGeomProofs.
From Verif Require Import SapModel MoverModel StorageProps TrajModel.

(** What tracking keeps: a property of the particle that does not depend on the start point, the
    cell and the crossing count, and a property of the shared state. *)
Lemma track_preserves fl {K} (bcs : Z -> option (bcfun (K:=K))) recd k m maxc fi time dt
    (P : particle -> Prop) (G : tctx (K:=K) -> Prop) p c q c' :
  (forall p v, P p -> P (set_px0 p v)) -> (forall p n, P p -> P (set_pcell p n)) ->
  (forall p n, P p -> P (set_pcross p n)) ->
  (forall c dx, G c -> G (put_move k c dx)) ->
  (forall c p t c', P p -> is_traj p = true -> G c -> recd c fi p t = Ok c' -> G c') ->
  (forall v b c p mf f n q c', bcs v = Some b -> P p -> G c -> b c p mf f n = Ok (q, c') -> P q /\ G c') ->
  P p -> G c -> track fl bcs recd k m maxc fi time dt p c = Ok (q, c') -> P q /\ G c'.
Proof.
  intros P1 P2 P3 G1 G2 B Hp Hc Ht.
  set (Inv := fun s : lstate (K:=K) => P (l_p s) /\ G (l_c s)).
  set (Q := fun (q : particle) (n : Z) (c' : tctx (K:=K)) => P q /\ G c').
  pose proof (track_rule fl bcs recd k m maxc fi Inv Q (fun _ => True) time dt p c) as HR.
  rewrite Ht in HR. destruct HR as (q0 & n & -> & HQ1 & HQ2); [|by split|by split; [apply P3|]].
  assert (Hon : forall mf f n t p1 c1 p2 c2, P p1 -> G c1 ->
    on_marker bcs recd m fi mf f n t p1 c1 = Ok (p2, c2) -> P p2 /\ G c2).
  { intros mf f n t p1 c1 p2 c2 H1 H2. unfold on_marker. destruct (marker m mf =? 0)%Z.
    { intros [= <- <-]. by split. }
    destruct (if is_traj p1 then _ else _) as [c3|] eqn:Er; [|done].
    destruct (bcs _) as [b|] eqn:Eb; [|done]. eapply B; [done..|].
    destruct (is_traj p1) eqn:Et.
    - eapply G2; [|exact Et| |exact Er]; done.
    - by injection Er as <-. }
  intros s [I1 I2]. destruct (iter_ok fl bcs recd k m maxc fi s)
      as [|cr Hcr Hin| | | |cr i f nn r Hcr Hin Hmax Hff Hcs]; try done.
  destruct Hcs as [| | | |cr i f nn mf p2 c2 Hfi Hne Ho Hnb Hd|cr i f nn mf p2 c2 Hfi Hne Ho Hnb Hd
        |cr i f nn mf p2 c2 cn Hfi Hne Ho Hnb Hcn]; try done;
    (apply Hon in Ho as [Ho1 Ho2]; [|by apply P1|by apply G1]); split; try done; by apply P2.
Qed.

(** What stays the same for the shipped boundary functions. *)
Definition same_identity (p q : particle) : Prop :=
  pw q = pw p /\ puid q = puid p /\ is_traj q = is_traj p.
Definition Ships {K} (fl : R -> R) (bcs : Z -> option (bcfun (K:=K))) : Prop :=
  forall v b, bcs v = Some b -> b = absorb_bc \/ b = noop_bc \/ b = reflect_bc fl.

Lemma ships_identity {K} fl (bcs : Z -> option (bcfun (K:=K))) : Ships fl bcs ->
  forall v b c p mf f n q c', bcs v = Some b -> b c p mf f n = Ok (q, c') -> same_identity p q /\ c' = c.
Proof.
  intros HS v b c p mf f n q c' Hb.
  destruct (HS v b Hb) as [->|[->| ->]]; unfold absorb_bc, noop_bc, reflect_bc.
  - intros [= <- <-]. split; [|done]. split; [done|]. split; [done|]. apply absorb_traj.
  - intros [= <- <-]. done.
  - destruct n as [nv|]; [|done]. destruct (_ || _); [done|]. by intros [= <- <-].
Qed.

Lemma list_index_ok l x k : list_index l x = Ok k -> l !! k = Some x.
Proof.
  revert k. induction l as [|y l IH]; intros k; cbn; [done|].
  destruct (y =? x)%Z eqn:E; [intros [= <-]; cbn; f_equal; lia|].
  destruct (list_index l x) as [j|]; [|done]. intros [= <-]. by apply IH.
Qed.
Lemma list_index_in l x : x ∈ l -> exists k, list_index l x = Ok k.
Proof.
  induction l as [|y l IH]; [by intros ?%elem_of_nil|]. intros [->|H]%elem_of_cons; cbn.
  - rewrite Z.eqb_refl. eauto.
  - destruct (y =? x)%Z; [eauto|]. destruct (IH H) as [k ->]. eauto.
Qed.

(** Parts of the trajectory object that the bookkeeping of species [sn] leaves alone. *)
Definition frame (sn : string) (T T' : traj) : Prop :=
  t_npoints T' = t_npoints T /\ t_last T' = t_last T /\
  (forall s, s <> sn -> t_sp T' s = t_sp T s) /\
  map e_uid (t_sp T' sn) = map e_uid (t_sp T sn).
Lemma frame_refl sn T : frame sn T T.
Proof. done. Qed.
Lemma frame_trans sn T1 T2 T3 : frame sn T1 T2 -> frame sn T2 T3 -> frame sn T1 T3.
Proof.
  intros (A1 & A2 & A3 & A4) (B1 & B2 & B3 & B4). split; [congruence|]. split; [congruence|].
  split; [|congruence]. intros s Hs. rewrite B3, A3; done.
Qed.
Lemma set_sp_same T sn es : t_sp (set_sp T sn es) sn = es.
Proof. cbn. by rewrite String.eqb_refl. Qed.
Lemma set_sp_other T sn es s : s <> sn -> t_sp (set_sp T sn es) s = t_sp T s.
Proof. intros H. cbn. destruct (String.eqb_spec s sn); done. Qed.
Lemma map_insert_id {A B} (f : A -> B) l i x y : l !! i = Some x -> f y = f x -> map f (<[i := y]> l) = map f l.
Proof.
  intros Hx Hf. rewrite list_fmap_insert. rewrite Hf. apply list_insert_id.
  rewrite list_lookup_fmap, Hx. done.
Qed.
Lemma frame_insert T sn i e e' : t_sp T sn !! i = Some e -> e_uid e' = e_uid e ->
  frame sn T (set_sp T sn (<[i := e']> (t_sp T sn))).
Proof.
  intros He Hu. split; [done|]. split; [done|]. split; [intros; by apply set_sp_other|].
  rewrite set_sp_same. by eapply map_insert_id.
Qed.

Lemma write_point_fields e d e' : write_point e d = Ok e' ->
  e_index e' = e_index e /\ e_uid e' = e_uid e /\ e_len e' = (e_len e + 1)%Z.
Proof. unfold write_point. destruct (py_set _ _ _); [|done]. by intros [= <-]. Qed.

Lemma record_datum_frame T sn p fi step time E Ex cr T' :
  record_datum (Some T) sn p fi step time E Ex cr = Ok T' ->
  exists T1, T' = Some T1 /\ frame sn T T1 /\ map e_index (t_sp T1 sn) = map e_index (t_sp T sn).
Proof.
  unfold record_datum. destruct (list_index _ fi) as [i|] eqn:Ei; [|done].
  destruct (t_sp T sn !! i) as [e|] eqn:Ee; [|done].
  destruct (_ <? e_len e)%Z; [intros [= <-]; eauto using frame_refl|].
  destruct (write_point e _) as [e1|] eqn:Ew; [|done]. intros [= <-].
  apply write_point_fields in Ew as (W1 & W2 & W3).
  eexists. split; [done|]. split; [by eapply frame_insert|]. rewrite set_sp_same. by eapply map_insert_id.
Qed.

Lemma update_frame T sn fi fo T' : update_particleId T sn fi fo = Ok T' ->
  frame sn T T' /\ exists i, list_index (map e_index (t_sp T sn)) fi = Ok i /\
    map e_index (t_sp T' sn) = <[i := fo]> (map e_index (t_sp T sn)).
Proof.
  unfold update_particleId. destruct (list_index _ fi) as [i|] eqn:Ei; [|done].
  destruct (t_sp T sn !! i) as [e|] eqn:Ee; [|done]. intros [= <-].
  split; [by eapply frame_insert|]. exists i. split; [done|]. rewrite set_sp_same.
  by rewrite list_fmap_insert.
Qed.

Lemma remove_frame fl T sn q fi step time dt zE T' : remove_particleId fl T sn q fi step time dt zE = Ok T' ->
  frame sn T T' /\ exists i, list_index (map e_index (t_sp T sn)) fi = Ok i /\
    map e_index (t_sp T' sn) = <[i := NO_PINDEX]> (map e_index (t_sp T sn)).
Proof.
  unfold remove_particleId. destruct (list_index _ fi) as [i|] eqn:Ei; [|done].
  destruct (t_sp T sn !! i) as [e|] eqn:Ee; [|done].
  destruct (if (t_npoints T - 1 <? e_len e)%Z then _ else _) as [e1|] eqn:Ew; [|done]. intros [= <-].
  assert (Hu : e_uid e1 = e_uid e).
  { destruct (_ <? _)%Z; [by injection Ew as <-|]. by apply write_point_fields in Ew as (_ & ? & _). }
  split; [by eapply frame_insert|]. exists i. split; [done|]. rewrite set_sp_same.
  by rewrite list_fmap_insert.
Qed.

(** The fate of the particles in a pass: [Some q] for a survivor that ends as [q]. *)
Definition survivors {A} (fate : list (option A)) : list A := omap (fun r => r) fate.
(** The new index of the particle at old index [z]: the number of survivors before it. *)
Definition reindex {A} (fate : list (option A)) (z : Z) : Z :=
  if (z <? 0)%Z then NO_PINDEX else
  match fate !! Z.to_nat z with
  | Some (Some _) => Z.of_nat (length (survivors (take (Z.to_nat z) fate)))
  | _ => NO_PINDEX
  end.
(** A list of live indices for the particles [xs]: different ones, and those of the flagged particles. *)
Definition Indexed (xs : list particle) (idx : list Z) : Prop :=
  (forall a b i, idx !! a = Some i -> idx !! b = Some i -> i <> NO_PINDEX -> a = b) /\
  (forall i, i ∈ idx -> i <> NO_PINDEX -> (0 <= i)%Z /\ exists p, xs !! Z.to_nat i = Some p /\ is_traj p = true) /\
  (forall k p, xs !! k = Some p -> is_traj p = true -> Z.of_nat k ∈ idx).

Lemma survivors_app {A} (f g : list (option A)) : survivors (f ++ g) = survivors f ++ survivors g.
Proof. apply omap_app. Qed.
Lemma survivors_length {A} (f : list (option A)) : (length (survivors f) <= length f)%nat.
Proof. induction f as [|[a|] f IH]; cbn; [lia|change (omap (fun r => r) f) with (survivors f); lia..]. Qed.

(** During the pass: indices below the position are new ones, the others still old ones. *)
Definition cur_index {A} (fate : list (option A)) (z : Z) : Z :=
  if (z <? Z.of_nat (length fate))%Z then reindex fate z else z.

Lemma cur_index_pos {A} (f : list (option A)) z : (NO_PINDEX <= z)%Z ->
  cur_index f z = Z.of_nat (length f) <-> z = Z.of_nat (length f).
Proof.
  intros Hz. unfold cur_index, reindex, NO_PINDEX in *.
  destruct (z <? _)%Z eqn:E; [|lia]. split; [|lia]. intros H. exfalso.
  destruct (z <? 0)%Z eqn:E1; [lia|].
  destruct (f !! Z.to_nat z) as [[a|]|]; [|lia|lia].
  pose proof (survivors_length (take (Z.to_nat z) f)) as Hl. rewrite take_length in Hl. lia.
Qed.
Lemma cur_index_snoc {A} (f : list (option A)) r z : z <> Z.of_nat (length f) ->
  cur_index (f ++ [r]) z = cur_index f z.
Proof.
  intros Hz. unfold cur_index. rewrite app_length. cbn.
  destruct (z <? Z.of_nat (length f))%Z eqn:E.
  - replace (z <? _)%Z with true by lia. unfold reindex. destruct (z <? 0)%Z eqn:E1; [done|].
    rewrite lookup_app_l by lia. rewrite take_app_le by lia. done.
  - replace (z <? _)%Z with false by lia. done.
Qed.
Lemma cur_index_here {A} (f : list (option A)) r :
  cur_index (f ++ [r]) (Z.of_nat (length f)) =
  match r with Some _ => Z.of_nat (length (survivors f)) | None => NO_PINDEX end.
Proof.
  unfold cur_index. rewrite app_length. cbn. replace (_ <? _)%Z with true by lia.
  unfold reindex. replace (_ <? 0)%Z with false by lia.
  rewrite Nat2Z.id, list_lookup_middle by done. rewrite take_app. by destruct r.
Qed.

(** Replacing the entry of the present particle. *)
Lemma step_index {A} (f : list (option A)) r idx k :
  (forall a b i, idx !! a = Some i -> idx !! b = Some i -> i <> NO_PINDEX -> a = b) ->
  (forall i, i ∈ idx -> (NO_PINDEX <= i)%Z) ->
  list_index (map (cur_index f) idx) (Z.of_nat (length f)) = Ok k ->
  <[k := match r with Some _ => Z.of_nat (length (survivors f)) | None => NO_PINDEX end]>
    (map (cur_index f) idx) = map (cur_index (f ++ [r])) idx.
Proof.
  intros Hnd Hge Hk. apply list_index_ok in Hk. rewrite list_lookup_fmap in Hk.
  destruct (idx !! k) as [z|] eqn:Ez; [|done]. cbn in Hk. injection Hk as Hk.
  apply (proj1 (cur_index_pos f z (Hge z (elem_of_list_lookup_2 _ k _ Ez)))) in Hk.
  apply list_eq. intros j. rewrite list_lookup_fmap.
  destruct (decide (j = k)) as [->|Hj].
  - rewrite list_lookup_insert by (rewrite map_length; by eapply lookup_lt_Some).
    rewrite Ez. cbn. rewrite Hk, cur_index_here. done.
  - rewrite list_lookup_insert_ne by done. rewrite list_lookup_fmap.
    destruct (idx !! j) as [y|] eqn:Ey; [|done]. cbn. f_equal. symmetry. apply cur_index_snoc.
    intros ->. apply Hj. eapply Hnd; [exact Ey|rewrite Ez; congruence|unfold NO_PINDEX; lia].
Qed.
(** No entry: nothing to replace. *)
Lemma skip_index {A} (f : list (option A)) r idx : Z.of_nat (length f) ∉ idx ->
  map (cur_index f) idx = map (cur_index (f ++ [r])) idx.
Proof.
  intros H. apply map_ext_in. intros z Hz. symmetry. apply cur_index_snoc. intros ->. apply H.
  by apply elem_of_list_In.
Qed.
Lemma stay_index {A} (f : list (option A)) (q : A) idx : length (survivors f) = length f ->
  map (cur_index f) idx = map (cur_index (f ++ [Some q])) idx.
Proof.
  intros H. apply map_ext. intros z. destruct (decide (z = Z.of_nat (length f))) as [->|Hn].
  - rewrite cur_index_here, H. unfold cur_index. by replace (_ <? _)%Z with false by lia.
  - by rewrite cur_index_snoc.
Qed.

Section Pass.
Context (hk : hooks particle (tctx (K:=option traj))) (sn : string).
Context (fl : R -> R) (step : Z) (time dt : R) (zE : vec).
Hypothesis Hdel : deleted hk = is_deleted.
Hypothesis Hkeep : on_keep hk = keep_particle sn.
Hypothesis Hdrop : on_drop hk = drop_particle fl sn step time dt zE.
(** The per-particle work keeps the identity and the indices. *)
Hypothesis Hadv : forall c i p q c1 T, adv hk c i p = Ok (q, c1) -> usr c = Some T ->
  same_identity p q /\ exists T1, usr c1 = Some T1 /\ frame sn T T1 /\
    map e_index (t_sp T1 sn) = map e_index (t_sp T sn).

Lemma pass_reindexes_gen xs idx0 : Indexed xs idx0 ->
  forall rest f ch c T ys c',
  (length f + length rest = length xs)%nat -> (forall k, rest !! k = xs !! (length f + k)%nat) ->
  usr c = Some T -> map e_index (t_sp T sn) = map (cur_index f) idx0 ->
  (ch = false -> length (survivors f) = length f) ->
  seq_pass hk (Z.of_nat (length f)) (survivors f) ch c rest = Ok (ys, c') ->
  exists g T', length g = length rest /\ ys = survivors (f ++ g) /\
    Forall2 (fun p r => match r with Some q => same_identity p q /\ is_deleted q = false | None => True end) rest g /\
    usr c' = Some T' /\ frame sn T T' /\ map e_index (t_sp T' sn) = map (cur_index (f ++ g)) idx0.
Proof.
  intros (Hnd & Hlive & Hflag). induction rest as [|p rest IH]; intros f ch c T ys c' Hlen Hxs HT Hidx Hch E.
  - cbn in E. injection E as <- <-. exists [], T. rewrite app_nil_r. cbn. split; [done|]. split; [done|].
    split; [constructor|]. split; [done|]. split; [apply frame_refl|done].
  - cbn [seq_pass] in E. destruct (adv hk c _ p) as [[q c1]|] eqn:Ea; [|done].
    destruct (Hadv _ _ _ _ _ _ Ea HT) as (Hid & T1 & HT1 & HF1 & HI1).
    assert (Hp : xs !! length f = Some p).
    { pose proof (Hxs O) as H0. rewrite Nat.add_0_r in H0. by rewrite <- H0. }
    assert (Hge : forall i, i ∈ idx0 -> (NO_PINDEX <= i)%Z).
    { intros i Hi. destruct (decide (i = NO_PINDEX)); [lia|]. destruct (Hlive i Hi n). unfold NO_PINDEX. lia. }
    assert (Hno : is_traj p = false -> Z.of_nat (length f) ∉ idx0).
    { intros Hp0 Hi. destruct (Hlive _ Hi) as (_ & p' & Hp' & Ht'); [unfold NO_PINDEX; lia|].
      rewrite Nat2Z.id, Hp in Hp'. congruence. }
    assert (Hlen' : forall r : option particle, (length (f ++ [r]) + length rest = length xs)%nat).
    { intros r. rewrite app_length. cbn in *. lia. }
    assert (Hxs' : forall (r : option particle) k, rest !! k = xs !! (length (f ++ [r]) + k)%nat).
    { intros r k. rewrite app_length. cbn [length]. etransitivity; [exact (Hxs (S k))|f_equal; lia]. }
    assert (Hpos : forall r : option particle, (Z.of_nat (length f) + 1)%Z = Z.of_nat (length (f ++ [r]))).
    { intros r. rewrite app_length. cbn. lia. }
    rewrite Hdel in E. destruct (is_deleted q) eqn:Ed.
    + rewrite Hdrop in E. destruct (drop_particle _ _ _ _ _ _ _ _ _ _) as [c2|] eqn:Eb; [|done].
      assert (HH : exists T2, usr c2 = Some T2 /\ frame sn T1 T2 /\
        map e_index (t_sp T2 sn) = map (cur_index (f ++ [None])) idx0).
      { unfold drop_particle in Eb. rewrite HT1 in Eb. destruct (is_traj p) eqn:Et.
        - destruct (remove_particleId _ _ _ _ _ _ _ _ _) as [T2|] eqn:Er; [|done]. injection Eb as <-.
          apply remove_frame in Er as (HF & k & Hk & He). exists T2. split; [done|]. split; [done|].
          rewrite He, HI1, Hidx. rewrite HI1, Hidx in Hk. by eapply (step_index f None).
        - injection Eb as <-. exists T1. split; [done|]. split; [apply frame_refl|].
          rewrite HI1, Hidx. apply skip_index. by apply Hno. }
      destruct HH as (T2 & HT2 & HF2 & HI2).
      rewrite (Hpos None) in E. replace (survivors f) with (survivors (f ++ [None])) in E
        by (rewrite survivors_app; apply app_nil_r).
      destruct (IH (f ++ [None]) true c2 T2 ys c') as (g & T' & G1 & G2 & G3 & G4 & G5 & G6); try done.
      exists (None :: g), T'. rewrite <- (app_assoc f [None] g) in *. cbn in *. split; [lia|]. split; [done|].
      split; [by constructor|]. split; [done|]. split; [|done].
      eapply frame_trans; [exact HF1|]. by eapply frame_trans.
    + rewrite Hkeep in E. destruct (keep_particle _ _ _ _ _ _) as [c2|] eqn:Eb; [|done].
      destruct Hid as (Hi1 & Hi2 & Hi3).
      assert (HH : exists T2, usr c2 = Some T2 /\ frame sn T1 T2 /\
        map e_index (t_sp T2 sn) = map (cur_index (f ++ [Some q])) idx0).
      { unfold keep_particle in Eb. rewrite HT1 in Eb. destruct (is_traj q) eqn:Et; [destruct ch|]; cbn in Eb.
        - destruct (update_particleId _ _ _ _) as [T2|] eqn:Er; [|done]. injection Eb as <-.
          apply update_frame in Er as (HF & k & Hk & He). exists T2. split; [done|]. split; [done|].
          rewrite He, HI1, Hidx. rewrite HI1, Hidx in Hk. by eapply (step_index f (Some q)).
        - injection Eb as <-. exists T1. split; [done|]. split; [apply frame_refl|].
          rewrite HI1, Hidx. apply stay_index. by apply Hch.
        - injection Eb as <-. exists T1. split; [done|]. split; [apply frame_refl|].
          rewrite HI1, Hidx. apply skip_index. apply Hno. congruence. }
      destruct HH as (T2 & HT2 & HF2 & HI2).
      rewrite (Hpos (Some q)) in E. replace (survivors f ++ [q]) with (survivors (f ++ [Some q])) in E
        by (by rewrite survivors_app).
      destruct (IH (f ++ [Some q]) ch c2 T2 ys c') as (g & T' & G1 & G2 & G3 & G4 & G5 & G6); try done.
      { intros Hc. rewrite survivors_app, !app_length, (Hch Hc). done. }
      exists (Some q :: g), T'. rewrite <- (app_assoc f [Some q] g) in *. cbn in *. split; [lia|]. split; [done|].
      split; [by constructor|]. split; [done|]. split; [|done].
      eapply frame_trans; [exact HF1|]. by eapply frame_trans.
Qed.

End Pass.

(** After the pass the indices designate the same particles again. *)
Lemma survivors_rank {A} (f : list (option A)) i q : f !! i = Some (Some q) ->
  survivors f !! length (survivors (take i f)) = Some q.
Proof.
  intros H. assert (Hs : survivors f = survivors (take i f) ++ q :: survivors (drop (S i) f)).
  { rewrite <- (take_drop_middle f i (Some q) H) at 1. exact (survivors_app (take i f) (Some q :: drop (S i) f)). }
  rewrite Hs. by apply list_lookup_middle.
Qed.
Lemma survivors_from {A} (f : list (option A)) k q : survivors f !! k = Some q ->
  exists i, f !! i = Some (Some q) /\ k = length (survivors (take i f)).
Proof.
  revert k. induction f as [|[a|] f IH]; intros k; cbn; [done| |].
  - change (omap (fun r => r) f) with (survivors f). destruct k as [|k]; cbn.
    + intros [= ->]. exists O. done.
    + intros H. destruct (IH k H) as (i & Hi & ->). exists (S i). done.
  - change (omap (fun r => r) f) with (survivors f). intros H. destruct (IH k H) as (i & Hi & ->).
    exists (S i). done.
Qed.
Lemma rank_inj {A} (f : list (option A)) i j a b : f !! i = Some (Some a) -> f !! j = Some (Some b) ->
  length (survivors (take i f)) = length (survivors (take j f)) -> i = j.
Proof.
  assert (Hlt : forall i j a, f !! i = Some (Some a) -> (i < j)%nat ->
    (length (survivors (take i f)) < length (survivors (take j f)))%nat).
  { intros i' j' a' Hi Hij. assert (Ht : take j' f = take i' f ++ drop i' (take j' f)).
    { rewrite <- (take_drop i' (take j' f)) at 1. by rewrite take_take, Nat.min_l by lia. }
    rewrite Ht, survivors_app, app_length.
    assert (Hd : drop i' (take j' f) !! O = Some (Some a')).
    { rewrite lookup_drop, Nat.add_0_r, lookup_take by lia. done. }
    destruct (drop i' (take j' f)) as [|o l]; [done|]. cbn in Hd. injection Hd as ->. cbn. lia. }
  intros Hi Hj He. destruct (lt_eq_lt_dec i j) as [[H|H]|H]; [|done|].
  - specialize (Hlt i j a Hi H). lia.
  - specialize (Hlt j i b Hj H). lia.
Qed.

Lemma Indexed_reindex xs f idx : Indexed xs idx ->
  Forall2 (fun p r => match r with Some q => same_identity p q /\ is_deleted q = false | None => True end) xs f ->
  Indexed (survivors f) (map (reindex f) idx).
Proof.
  intros (Hnd & Hlive & Hflag) HF. split; [|split].
  - intros a b i Ha Hb Hi. rewrite !list_lookup_fmap in *.
    destruct (idx !! a) as [za|] eqn:Ea; [|done]. destruct (idx !! b) as [zb|] eqn:Eb; [|done].
    cbn in Ha, Hb. injection Ha as Ha. injection Hb as Hb.
    assert (za = zb).
    { unfold reindex in Ha, Hb. destruct (za <? 0)%Z eqn:Sa; [congruence|]. destruct (zb <? 0)%Z eqn:Sb; [congruence|].
      destruct (f !! Z.to_nat za) as [[qa|]|] eqn:Fa; [|congruence..].
      destruct (f !! Z.to_nat zb) as [[qb|]|] eqn:Fb; [|congruence..].
      pose proof (rank_inj f _ _ _ _ Fa Fb) as Hr. lia. }
    subst zb. eapply Hnd; [exact Ea|exact Eb|]. intros ->. by apply Hi.
  - intros i Hi Hne. apply elem_of_list_fmap in Hi as (z & -> & Hz).
    unfold reindex in *. destruct (z <? 0)%Z eqn:Sz; [done|].
    destruct (f !! Z.to_nat z) as [[q|]|] eqn:Fz; [|done..].
    split; [lia|]. exists q. rewrite Nat2Z.id. split; [by apply survivors_rank|].
    destruct (Hlive z Hz) as (_ & p & Hp & Ht); [unfold NO_PINDEX; lia|].
    destruct (Forall2_lookup_lr _ _ _ _ _ _ HF Hp Fz) as [(_ & _ & ->) _]. done.
  - intros k q Hk Ht. apply survivors_from in Hk as (i & Hi & ->).
    destruct (Forall2_lookup_r _ _ _ _ _ HF Hi) as (p & Hp & (_ & _ & Htp) & _).
    apply elem_of_list_fmap. exists (Z.of_nat i). split.
    + unfold reindex. replace (Z.of_nat i <? 0)%Z with false by lia. rewrite Nat2Z.id, Hi. done.
    + apply (Hflag i p); [done|congruence].
Qed.

(** ** The complete movers *)
Definition Civil {K} (bcs : Z -> option (bcfun (K:=K))) : Prop :=
  forall v b c p mf f n q c', bcs v = Some b -> b c p mf f n = Ok (q, c') ->
    same_identity p q /\ usr c' = usr c.

Lemma ships_civil {K} fl (bcs : Z -> option (bcfun (K:=K))) : Ships fl bcs -> Civil bcs.
Proof.
  intros HS v b c p mf f n q c' Hb E. by destruct (ships_identity fl bcs HS _ _ _ _ _ _ _ _ _ Hb E) as [? ->].
Qed.

Lemma same_trans p q r : same_identity p q -> same_identity q r -> same_identity p r.
Proof. intros (A1 & A2 & A3) (B1 & B2 & B3). repeat split; congruence. Qed.

Lemma track_identity fl {K} (bcs : Z -> option (bcfun (K:=K))) recd k m maxc fi time dt (G : K -> Prop) p c q c' :
  Civil bcs ->
  (forall c p t c', G (usr c) -> recd c fi p t = Ok c' -> G (usr c')) ->
  G (usr c) -> track fl bcs recd k m maxc fi time dt p c = Ok (q, c') -> same_identity p q /\ G (usr c').
Proof.
  intros HC HG Hc Ht.
  apply (track_preserves fl bcs recd k m maxc fi time dt (same_identity p) (fun c => G (usr c)) p c q c'); try done.
  - intros c0 dx. by destruct k.
  - intros c0 p0 t0 c0' _ _. apply HG.
  - intros v b c0 p0 mf f n q0 c0' Hb Hp0 Hg Hr. destruct (HC _ _ _ _ _ _ _ _ _ Hb Hr) as [H1 H2].
    split; [by eapply same_trans|]. by rewrite H2.
Qed.

Lemma charged_identity fl sn step time dt qom maxc m bcs dE negE Eext solved ext ao c i p q c1 (G : option traj -> Prop) :
  Civil bcs ->
  (forall T T' p t E Ex, G T -> record_datum T sn p i step t E Ex true = Ok T' -> G T') ->
  G (usr c) ->
  adv (charged_hooks fl sn step time dt qom maxc m bcs dE negE Eext solved ext ao) c i p = Ok (q, c1) ->
  same_identity p q /\ G (usr c1).
Proof.
  intros HC HG Hc. cbn [adv charged_hooks].
  destruct (select_E _ _ _ _ _ _ _) as [Es|]; [|done]. unfold advance_charged. intros Ht.
  apply (track_identity _ _ _ _ _ _ _ _ _ G) in Ht as [H1 H2]; [|done| |done].
  - split; [|done]. eapply same_trans; [|exact H1]. destruct ao, Es; done.
  - intros c0 p0 t0 c0' Hg. unfold rec_crossing_charged. destruct Es as [e|]; [|done].
    destruct (match Eext with Some _ => _ | None => _ end) as [x|]; [|done].
    destruct (record_datum _ _ _ _ _ _ _ _ _) as [T'|] eqn:Er; [|done]. intros [= <-]. cbn.
    by eapply HG.
Qed.
Lemma neutral_identity fl sn step time dt maxc m bcs c i p q c1 (G : option traj -> Prop) :
  Civil bcs ->
  (forall T T' p t E Ex, G T -> record_datum T sn p i step t E Ex true = Ok T' -> G T') ->
  G (usr c) ->
  adv (neutral_hooks fl sn step time dt maxc m bcs) c i p = Ok (q, c1) ->
  same_identity p q /\ G (usr c1).
Proof.
  intros HC HG Hc. cbn [adv neutral_hooks]. unfold advance_neutral. intros Ht.
  apply (track_identity _ _ _ _ _ _ _ _ _ G) in Ht as [H1 H2]; [|done| |done].
  - split; [|done]. eapply same_trans; [|exact H1]. done.
  - intros c0 p0 t0 c0' Hg. unfold rec_crossing_neutral.
    destruct (record_datum _ _ _ _ _ _ _ _ _) as [T'|] eqn:Er; [|done]. intros [= <-]. cbn.
    by eapply HG.
Qed.

(** Sampling changes no index and no identity. *)
Lemma rec_charged_index np get mk es es' b : rec_charged np get mk es = Ok (es', b) ->
  map e_index es' = map e_index es /\ map e_uid es' = map e_uid es.
Proof.
  revert es' b. induction es as [|e es IH]; intros es' b; cbn [rec_charged]; [by intros [= <- <-]|].
  destruct (_ =? _)%Z.
  - destruct (rec_charged np get mk es) as [[r1 b1]|]; [|done]. intros [= <- <-].
    destruct (IH r1 b1 eq_refl) as [H1 H2]. cbn. by rewrite H1, H2.
  - destruct (get _) as [p|]; [|done]. destruct (_ <? _)%Z; [by intros [= <- <-]|].
    destruct (write_point e _) as [e1|] eqn:Ew; [|done]. apply write_point_fields in Ew as (W1 & W2 & _).
    destruct (rec_charged np get mk es) as [[r1 b1]|]; [|done]. intros [= <- <-].
    destruct (IH r1 b1 eq_refl) as [H1 H2]. cbn. by rewrite H1, H2, W1, W2.
Qed.
Lemma rec_neutral_index get mk es es' : rec_neutral get mk es = Ok es' ->
  map e_index es' = map e_index es /\ map e_uid es' = map e_uid es.
Proof.
  revert es'. induction es as [|e es IH]; intros es'; cbn [rec_neutral]; [by intros [= <-]|].
  destruct (_ =? _)%Z.
  - destruct (rec_neutral get mk es) as [r1|]; [|done]. intros [= <-].
    destruct (IH r1 eq_refl) as [H1 H2]. cbn. by rewrite H1, H2.
  - destruct (get _) as [p|]; [|done].
    destruct (write_point e _) as [e1|] eqn:Ew; [|done]. apply write_point_fields in Ew as (W1 & W2 & _).
    destruct (rec_neutral get mk es) as [r1|]; [|done]. intros [= <-].
    destruct (IH r1 eq_refl) as [H1 H2]. cbn. by rewrite H1, H2, W1, W2.
Qed.
Definition same_keys (T T' : traj) : Prop := forall s,
  map e_index (t_sp T' s) = map e_index (t_sp T s) /\ map e_uid (t_sp T' s) = map e_uid (t_sp T s).
Lemma same_keys_set T sn es : map e_index es = map e_index (t_sp T sn) -> map e_uid es = map e_uid (t_sp T sn) ->
  same_keys T (set_sp T sn es).
Proof.
  intros H1 H2 s. destruct (String.eqb_spec s sn) as [->|Hn].
  - by rewrite set_sp_same.
  - by rewrite set_sp_other.
Qed.
Lemma same_keys_trans T1 T2 T3 : same_keys T1 T2 -> same_keys T2 T3 -> same_keys T1 T3.
Proof. intros A B s. destruct (A s), (B s). split; congruence. Qed.
Lemma rec_charged_all_keys get mk sps T T' b : rec_charged_all get mk sps T = Ok (T', b) -> same_keys T T'.
Proof.
  revert T. induction sps as [|sn sps IH]; intros T; cbn [rec_charged_all]; [by intros [= <- _]|].
  destruct (rec_charged _ _ _ _) as [[es b1]|] eqn:E; [|done]. apply rec_charged_index in E as [E1 E2].
  pose proof (same_keys_set T sn es E1 E2) as Hk.
  destruct b1; [by intros [= <- _]|]. intros H. eapply same_keys_trans; [exact Hk|by apply IH].
Qed.
Lemma rec_neutral_all_keys get mk sps T T' : rec_neutral_all get mk sps T = Ok T' -> same_keys T T'.
Proof.
  revert T. induction sps as [|sn sps IH]; intros T; cbn [rec_neutral_all]; [by intros [= <-]|].
  destruct (rec_neutral _ _ _) as [es|] eqn:E; [|done]. apply rec_neutral_index in E as [E1 E2].
  pose proof (same_keys_set T sn es E1 E2) as Hk.
  intros H. eapply same_keys_trans; [exact Hk|by apply IH].
Qed.
Lemma record_data_keys fl T ch ne get dE negE Eext step time T' :
  record_trajectory_data fl T ch ne get dE negE Eext step time = Ok T' -> same_keys T T'.
Proof.
  unfold record_trajectory_data. destruct (match t_last T with Some _ => _ | None => _ end); [by intros [= <-]|].
  destruct (rec_charged_all _ _ _ _) as [[T1 b]|] eqn:E1; [|done]. apply rec_charged_all_keys in E1.
  destruct b; [by intros [= <-]|].
  destruct (rec_neutral_all _ _ _ _) as [T2|] eqn:E2; [|done]. apply rec_neutral_all_keys in E2.
  intros [= <-]. by eapply (same_keys_trans T T1 T2).
Qed.

(** The fate of the particles for any mover. *)
Lemma seq_pass_fate {A C} (hk : hooks A C) xs : forall i kept ch c ys c',
  seq_pass hk i kept ch c xs = Ok (ys, c') ->
  exists fate, ys = kept ++ survivors fate /\
    Forall2 (fun p r => exists c i q c1, adv hk c i p = Ok (q, c1) /\
      r = if deleted hk q then None else Some q) xs fate.
Proof.
  induction xs as [|p xs IH]; intros i kept ch c ys c' E; cbn [seq_pass] in E.
  - injection E as <- <-. exists []. by rewrite app_nil_r.
  - destruct (adv hk c i p) as [[q c1]|] eqn:Ea; [|done]. destruct (deleted hk q) eqn:Ed.
    + destruct (on_drop _ _ _ _ _) as [c2|]; [|done]. apply IH in E as (fate & -> & HF).
      exists (None :: fate). split; [done|]. constructor; [|done]. exists c, i, q, c1. by rewrite Ed.
    + destruct (on_keep _ _ _ _ _ _) as [c2|]; [|done]. apply IH in E as (fate & -> & HF).
      exists (Some q :: fate). split; [by rewrite <- app_assoc|]. constructor; [|done].
      exists c, i, q, c1. by rewrite Ed.
Qed.
