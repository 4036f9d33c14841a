(** C28 and C48: unique IDs, and the initial particles. *)
From Coq Require Import String.
From Flocq Require Import Core.
From stdpp Require Import strings list_numbers.
From Verif Require Import SapModel MoverModel SapProofs SapSpec SapRefine StorageProps.
From Verif Require Import Vec VecProofs TrackModel TrajModel TrajProofs TrajProps DiagModel DiagProofs DumpProps SumProps AcceptProps SourceModel SourceProps.
Local Open Scope Z_scope.

(** ** Runs: sources, lists of initial particles, mover passes, loops over the particles, records of trajectories *)

(** Everything that changes the stored particles or the ID counter of a process, with [L] the segment length.  A user's list
    of initial particles takes its IDs from the counter and advances it (UserParticles_2D_e.py and the like). *)
Inductive step (L : Z) (st st' : srcst) : Prop :=
| s_source fl names spherical pdim pi4 rnd fuel dE negE Eext n time dom q :
    create_maxwellian fl names spherical pdim pi4 rnd fuel dE negE Eext n time dom q st = Ok st' -> step L st st'
| s_list sn ps st1 :
    (forall (i : nat) p, ps !! i = Some p -> puid p = int32 (ss_uid st + Z.of_nat i)) ->
    create_from_list sn ps st = Ok st1 ->
    st' = SrcSt (ss_saps st1) (ss_uid st1 + Z.of_nat (length ps)) (ss_rng st1) (ss_traj st1) -> step L st st'
| s_move fl sn hk c c' s' :
    MoverOf fl sn hk -> guarded_mover (py_ops particle) hk (ss_saps st sn) c = Ok (s', c') ->
    st' = SrcSt (set_key (ss_saps st) sn s') (ss_uid st) (ss_rng st) (usr c') -> step L st st'
| s_loop sn {B : Type} (body : B -> Z -> list (option particle) -> res B) b s' b' :
    for_out body (ss_saps st sn) b = Ok (s', b') ->
    st' = SrcSt (set_key (ss_saps st) sn s') (ss_uid st) (ss_rng st) (ss_traj st) -> step L st st'
| s_record T :
    st' = SrcSt (ss_saps st) (ss_uid st) (ss_rng st) T -> step L st st'.

(** A run from empty storage with the counter at [u0]. *)
Inductive runs (L u0 : Z) : srcst -> Prop :=
| run_new rng T : runs L u0 (SrcSt (fun _ => sap_init L) u0 rng T)
| run_step st st' : runs L u0 st -> step L st st' -> runs L u0 st'.

Section Uid.
Context (L : Z) (HL : 1 <= L).

Lemma sub_in (a b : list Z) k : sublist a b -> k ∈ a -> k ∈ b.
Proof using.
  intros H. induction H as [|x a b H IH|x a b H IH]; intros Hk; [exact Hk| |].
  - apply elem_of_cons in Hk as [->|Hk]; [left|right; auto].
  - right. auto.
Qed.
Lemma sub_nodup (a b : list Z) : sublist a b -> NoDup b -> NoDup a.
Proof using.
  intros H. induction H as [|x a b H IH|x a b H IH]; intros Hb; [exact Hb| |].
  - inversion_clear Hb. constructor; [|auto]. intros Hx. by apply (sub_in a b x H) in Hx.
  - inversion_clear Hb. auto.
Qed.

(** Counter values of the stored particles of every species. *)
Record Inv (u0 : Z) (st : srcst) (ks : string -> list Z) : Prop := {
  i_reach : forall sn, Reachable L (ss_saps st sn);
  i_stores : forall sn, exists xs, Stores (ss_saps st sn) xs /\ map puid xs = map int32 (ks sn);
  i_range : forall sn k, k ∈ ks sn -> u0 <= k < ss_uid st;
  i_nodup : forall sn, NoDup (ks sn);
  i_disj : forall s1 s2 k, s1 <> s2 -> k ∈ ks s1 -> k ∈ ks s2 -> False
}.

Lemma inv_init u0 rng T : Inv u0 (SrcSt (fun _ => sap_init L) u0 rng T) (fun _ => []).
Proof using HL.
  split.
  - intros sn. constructor.
  - intros sn. exists []. split; [|reflexivity]. 
    assert (Hc := C01_push_keeps_place L (@nil particle) HL). destruct Hc as (s & E & Hs). cbn in E.
    injection E as <-. exact Hs.
  - intros sn k Hk. inversion Hk.
  - intros sn. constructor.
  - intros s1 s2 k _ Hk. inversion Hk.
Qed.

(** New particles of one species with the next counter values. *)
Lemma inv_new u0 st st' ks sn (new : list particle) : Inv u0 st ks ->
  (forall xs, Stores (ss_saps st sn) xs -> Reachable L (ss_saps st' sn) /\ Stores (ss_saps st' sn) (xs ++ new)) ->
  (forall s, s <> sn -> ss_saps st' s = ss_saps st s) -> u0 <= ss_uid st ->
  ss_uid st' = ss_uid st + Z.of_nat (length new) ->
  map puid new = map int32 (seqZ (ss_uid st) (Z.of_nat (length new))) ->
  Inv u0 st' (fun s => if String.eqb s sn then ks sn ++ seqZ (ss_uid st) (Z.of_nat (length new)) else ks s).
Proof using HL.
  intros [H1 H2 H3 H4 H5] Hn Ho Hu0 Hu Hp. split.
  - intros s. destruct (String.eqb_spec s sn) as [->|Hs]; [|rewrite Ho by exact Hs; apply H1].
    destruct (H2 sn) as (xs & Hxs & _). apply (Hn xs Hxs).
  - intros s. destruct (String.eqb_spec s sn) as [->|Hs]; [|rewrite Ho by exact Hs; apply H2].
    destruct (H2 sn) as (xs & Hxs & Hm). exists (xs ++ new). split; [apply (Hn xs Hxs)|].
    rewrite !map_app, Hm, Hp. reflexivity.
  - intros s k Hk. destruct (String.eqb_spec s sn) as [->|Hs]; [|specialize (H3 s k Hk); lia].
    apply elem_of_app in Hk as [Hk|Hk]; [specialize (H3 sn k Hk); lia|]. apply elem_of_seqZ in Hk. lia.
  - intros s. destruct (String.eqb_spec s sn) as [->|Hs]; [|apply H4]. apply NoDup_app. split; [apply H4|].
    split; [|apply NoDup_seqZ]. intros k Hk Hk2. specialize (H3 sn k Hk). apply elem_of_seqZ in Hk2. lia.
  - intros s1 s2 k Hne Hk1 Hk2.
    destruct (String.eqb_spec s1 sn) as [->|Hs1], (String.eqb_spec s2 sn) as [->|Hs2]; [done| | |by eapply (H5 s1 s2)].
    + apply elem_of_app in Hk1 as [Hk1|Hk1]; [by eapply (H5 sn s2)|]. apply elem_of_seqZ in Hk1. specialize (H3 s2 k Hk2). lia.
    + apply elem_of_app in Hk2 as [Hk2|Hk2]; [by eapply (H5 s1 sn)|]. apply elem_of_seqZ in Hk2. specialize (H3 s1 k Hk1). lia.
Qed.

(** Fewer particles of one species. *)
Lemma inv_fewer u0 st st' ks sn ks' : Inv u0 st ks ->
  Reachable L (ss_saps st' sn) -> (exists xs, Stores (ss_saps st' sn) xs /\ map puid xs = map int32 ks') ->
  sublist ks' (ks sn) -> (forall s, s <> sn -> ss_saps st' s = ss_saps st s) -> ss_uid st' = ss_uid st ->
  Inv u0 st' (fun s => if String.eqb s sn then ks' else ks s).
Proof using HL.
  intros [H1 H2 H3 H4 H5] HR HS Hsub Ho Hu.
  assert (Hin : forall k, k ∈ ks' -> k ∈ ks sn) by (intros k; by apply sub_in).
  split.
  - intros s. destruct (String.eqb_spec s sn) as [->|Hs]; [exact HR|rewrite Ho by exact Hs; apply H1].
  - intros s. destruct (String.eqb_spec s sn) as [->|Hs]; [exact HS|rewrite Ho by exact Hs; apply H2].
  - intros s k Hk. rewrite Hu. destruct (String.eqb_spec s sn) as [->|Hs]; [apply (H3 sn k), Hin, Hk|apply (H3 s k Hk)].
  - intros s. destruct (String.eqb_spec s sn) as [->|Hs]; [|apply H4]. by apply (sub_nodup ks' (ks sn)); [|apply H4].
  - intros s1 s2 k Hne Hk1 Hk2.
    destruct (String.eqb_spec s1 sn) as [->|Hs1], (String.eqb_spec s2 sn) as [->|Hs2]; [done| | |by eapply (H5 s1 s2)].
    + apply (H5 sn s2 k); [done|by apply Hin|done].
    + apply (H5 s1 sn k); [done|done|by apply Hin].
Qed.

(** The particles of a source carry the next counter values. *)
Lemma source_ids fl names spherical pdim pi4 rnd fuel dE negE Eext n time dom q st st' xs :
  Reachable L (ss_saps st (s_species q)) -> Stores (ss_saps st (s_species q)) xs ->
  create_maxwellian fl names spherical pdim pi4 rnd fuel dE negE Eext n time dom q st = Ok st' ->
  exists new, Reachable L (ss_saps st' (s_species q)) /\ Stores (ss_saps st' (s_species q)) (xs ++ new) /\
    (forall s, s <> s_species q -> ss_saps st' s = ss_saps st s) /\ ss_uid st' = ss_uid st + Z.of_nat (length new) /\
    map puid new = map int32 (seqZ (ss_uid st) (Z.of_nat (length new))).
Proof using HL.
  intros HR HS E. unfold create_maxwellian in E. destruct (negb _); [discriminate|].
  destruct (weight_mult _ _ _ _) as [mult|]; [|discriminate].
  destruct (new_cells_made _ _ _ _ _ _ _ L HL _ _ _ _ _ _ _ _ _ _ _ HR HS E) as (new & H1 & H2 & H3 & H4 & H5 & H6).
  exists new. split; [exact H1|]. split; [exact H2|]. split; [exact H3|]. split; [exact H4|].
  set (m := Z.to_nat (s_percell q)) in *. apply list_eq. intros j. rewrite !list_lookup_fmap.
  destruct (decide (j < length new)%nat) as [Hj|Hj].
  - assert (Hm0 : (0 < m)%nat) by (destruct m; lia).
    pose proof (Nat.div_mod j m ltac:(lia)) as Hdm. pose proof (Nat.mod_upper_bound j m ltac:(lia)) as Hmb.
    destruct (lookup_lt_is_Some_2 (r_cells dom) (j / m)%nat) as [c Hc].
    { apply Nat.div_lt_upper_bound; lia. }
    destruct (H6 (j / m)%nat c (j mod m)%nat Hc Hmb) as (p & Hp & HM).
    replace (j / m * m + j mod m)%nat with j in Hp, HM by lia. rewrite Hp, lookup_seqZ_lt by lia. cbn.
    rewrite (m_uid _ _ _ _ _ _ _ _ _ _ HM). reflexivity.
  - rewrite lookup_ge_None_2, lookup_seqZ_ge by lia. reflexivity.
Qed.

Lemma list_stored sn ps : forall st st' xs, Reachable L (ss_saps st sn) -> Stores (ss_saps st sn) xs ->
  create_from_list sn ps st = Ok st' ->
  Reachable L (ss_saps st' sn) /\ Stores (ss_saps st' sn) (xs ++ ps) /\
  (forall s, s <> sn -> ss_saps st' s = ss_saps st s) /\ ss_uid st' = ss_uid st.
Proof using HL.
  induction ps as [|p ps IH]; intros st st' xs HR HS E; cbn [create_from_list] in E.
  - injection E as <-. rewrite app_nil_r. repeat split; try assumption; apply HS.
  - destruct (add_particle _ _ _ _ _ _ _ _ _) as [[s1 T1]|] eqn:Ea; [|discriminate].
    apply add_particle_push in Ea as (o & i & Ep). destruct (pushed L _ _ _ _ _ _ HL HR HS Ep) as [HR1 HS1].
    destruct (IH (SrcSt (set_key (ss_saps st) sn s1) (ss_uid st) (ss_rng st) T1) st' (xs ++ [p]) ltac:(cbn [ss_saps]; rewrite set_key_same; exact HR1)
      ltac:(cbn [ss_saps]; rewrite set_key_same; exact HS1) E) as (A & B & C & D).
    rewrite <- app_assoc in B. split; [exact A|]. split; [exact B|]. split; [|exact D].
    intros s Hs. rewrite C by exact Hs. cbn [ss_saps]. by apply set_key_other.
Qed.

Lemma fate_ids (xs : list particle) (fate : list (option particle)) (P : particle -> Prop) : forall ks,
  Forall2 (fun p r => match r with Some q => puid q = puid p | None => P p end) xs fate -> map puid xs = map int32 ks ->
  exists ks', sublist ks' ks /\ map puid (survivors fate) = map int32 ks'.
Proof using.
  intros ks HF. revert ks. induction HF as [|p r xs fate Hpr HF IH]; intros ks Hm.
  - exists []. split; [apply sublist_nil_l|reflexivity].
  - destruct ks as [|k ks]; [discriminate|]. cbn in Hm. injection Hm as Hk Hm. destruct (IH ks Hm) as (ks' & Hs & Hm').
    destruct r as [q|].
    + exists (k :: ks'). split; [by apply sublist_skip|]. change (survivors (Some q :: fate)) with (q :: survivors fate).
      cbn [map]. by rewrite Hpr, Hk, Hm'.
    + exists ks'. change (survivors (None :: fate)) with (survivors fate). split; [by apply sublist_cons|exact Hm'].
Qed.

(** Every step keeps the invariant; a particle stored afterwards is one stored before or carries a counter value that this
    step consumed. *)
Lemma inv_step u0 st st' ks : Inv u0 st ks -> u0 <= ss_uid st -> step L st st' ->
  exists ks', Inv u0 st' ks' /\ u0 <= ss_uid st' /\ ss_uid st <= ss_uid st' /\
    forall sn k, k ∈ ks' sn -> k ∈ ks sn \/ ss_uid st <= k < ss_uid st'.
Proof using HL.
  intros HI Hu0 [fl names sph pdim pi4 rnd fuel dE negE Eext n time dom q E|sn ps st1 Hps E ->|fl sn hk c c' s' Hm E ->|sn B body b s' b' E ->|T ->].
  - destruct (i_stores _ _ _ HI (s_species q)) as (xs & Hxs & _).
    destruct (source_ids _ _ _ _ _ _ _ _ _ _ _ _ _ _ _ _ _ (i_reach _ _ _ HI (s_species q)) Hxs E) as (new & H1 & H2 & H3 & H4 & H5).
    eexists. split; [|split; [lia|split; [lia|]]].
    + apply (inv_new u0 st st' ks (s_species q) new HI); [|exact H3|exact Hu0|exact H4|exact H5].
      intros ys Hys. rewrite (stores_inj _ _ _ Hys Hxs). split; [exact H1|exact H2].
    + intros sn k Hk. cbv beta in Hk. destruct (String.eqb_spec sn (s_species q)) as [->|Hs]; [|by left].
      apply elem_of_app in Hk as [Hk|Hk]; [by left|]. right. apply elem_of_seqZ in Hk. lia.
  - destruct (i_stores _ _ _ HI sn) as (xs & Hxs & _).
    destruct (list_stored sn ps st st1 xs (i_reach _ _ _ HI sn) Hxs E) as (H1 & H2 & H3 & H4).
    eexists. cbn [ss_uid]. split; [|split; [lia|split; [lia|]]].
    + apply (inv_new u0 st _ ks sn ps HI); cbn [ss_saps ss_uid]; [|exact H3|exact Hu0|lia|].
      * intros ys Hys. rewrite (stores_inj _ _ _ Hys Hxs). split; [exact H1|exact H2].
      * apply list_eq. intros j. rewrite !list_lookup_fmap. destruct (ps !! j) as [p|] eqn:Hj.
        -- rewrite lookup_seqZ_lt by (apply lookup_lt_Some in Hj; lia). cbn. by rewrite (Hps j p Hj).
        -- rewrite lookup_seqZ_ge by (apply lookup_ge_None_1 in Hj; lia). reflexivity.
    + intros s k Hk. cbv beta in Hk. destruct (String.eqb_spec s sn) as [->|Hs]; [|by left].
      apply elem_of_app in Hk as [Hk|Hk]; [by left|]. right. apply elem_of_seqZ in Hk. lia.
  - destruct (i_stores _ _ _ HI sn) as (xs & Hxs & Hids).
    destruct (C16_movers_preserve_identity fl sn L _ xs hk c s' c' HL (i_reach _ _ _ HI sn) Hxs Hm E) as (fate & Hs' & HF).
    destruct (fate_ids xs fate (fun _ => True) (ks sn)) as (ks' & Hsub & Hids'); [|exact Hids|].
    { eapply Forall2_impl; [exact HF|]. intros p [r|] Hr; [apply Hr|exact I]. }
    eexists. cbn [ss_uid]. split; [|split; [lia|split; [lia|]]].
    + apply (inv_fewer u0 st _ ks sn ks' HI); cbn [ss_saps ss_uid]; rewrite ?set_key_same; [|by exists (survivors fate)|exact Hsub| |reflexivity].
      * eapply r_pass; [apply (i_reach _ _ _ HI sn)|exact E].
      * intros s Hs. by apply set_key_other.
    + intros s k Hk. cbv beta in Hk. left. destruct (String.eqb_spec s sn) as [->|Hs]; [|exact Hk].
      by apply (sub_in ks' (ks sn)).
  - destruct (i_stores _ _ _ HI sn) as (xs & Hxs & Hids).
    assert (Reachable L s' /\ Stores s' xs) as [HR' HS'].
    { destruct (for_out_blocks L HL _ xs (i_reach _ _ _ HI sn) Hxs) as (s2 & bs2 & Hr2 & Hst2 & Hfo & _).
      rewrite Hfo in E. destruct (fold_blocks body b bs2); [|discriminate]. injection E as <- <-. by split. }
    eexists. cbn [ss_uid]. split; [|split; [lia|split; [lia|]]].
    + apply (inv_fewer u0 st _ ks sn (ks sn) HI); cbn [ss_saps ss_uid]; rewrite ?set_key_same; [exact HR'|by exists xs|reflexivity| |reflexivity].
      intros s Hs. by apply set_key_other.
    + intros s k Hk. cbv beta in Hk. left. destruct (String.eqb_spec s sn) as [->|Hs]; exact Hk.
  - exists ks. cbn [ss_uid]. split; [|split; [lia|split; [lia|by left]]]. destruct HI as [H1 H2 H3 H4 H5]. split; assumption.
Qed.

Lemma runs_inv u0 st : runs L u0 st -> exists ks, Inv u0 st ks /\ u0 <= ss_uid st.
Proof using HL.
  induction 1 as [rng T|st st' H (ks & HI & Hu) Hs].
  - exists (fun _ => []). split; [apply inv_init|cbn; lia].
  - destruct (inv_step u0 st st' ks HI Hu Hs) as (ks' & HI' & Hu' & _). by exists ks'.
Qed.

Lemma item_id u0 st ks sn i p : Inv u0 st ks -> 0 <= i < get_number_of_items (ss_saps st sn) ->
  get_item (ss_saps st sn) i = Ok (Some p) -> exists k, ks sn !! Z.to_nat i = Some k /\ puid p = int32 k.
Proof using.
  intros HI Hi Hg. destruct (i_stores _ _ _ HI sn) as (xs & [Hn Hx] & Hm).
  destruct (lookup_lt_is_Some_2 xs (Z.to_nat i)) as [p' Hp]; [lia|]. pose proof (Hx _ _ Hp) as Hg'.
  rewrite Z2Nat.id in Hg' by lia. rewrite Hg in Hg'. injection Hg' as <-.
  assert (Hl : map puid xs !! Z.to_nat i = Some (puid p)) by (rewrite list_lookup_fmap, Hp; reflexivity).
  rewrite Hm, list_lookup_fmap in Hl. destruct (ks sn !! Z.to_nat i) as [k|]; [|discriminate].
  injection Hl as Hl. exists k. by split.
Qed.
Lemma int32_inj a b : Z.abs (a - b) < 2 ^ 32 -> int32 a = int32 b -> a = b.
Proof using.
  unfold int32. intros H E. assert (Hm : (a + 2 ^ 31) mod 2 ^ 32 = (b + 2 ^ 31) mod 2 ^ 32) by lia.
  pose proof (Z.div_mod (a + 2 ^ 31) (2 ^ 32) ltac:(lia)). pose proof (Z.div_mod (b + 2 ^ 31) (2 ^ 32) ltac:(lia)).
  set (x := (a + 2 ^ 31) / 2 ^ 32) in *. set (y := (b + 2 ^ 31) / 2 ^ 32) in *. rewrite Hm in H0.
  assert (a - b = 2 ^ 32 * (x - y)) by lia. assert (x - y = 0) by (apply Z.abs_0_iff; nia). lia.
Qed.
End Uid.

(** As long as the counter has advanced by at most 2^32, no two stored particles have the same ID, in any species. *)
Theorem C28_unique (L u0 : Z) st s1 s2 i j p q : 1 <= L -> runs L u0 st -> ss_uid st - u0 <= 2 ^ 32 ->
  0 <= i < get_number_of_items (ss_saps st s1) -> get_item (ss_saps st s1) i = Ok (Some p) ->
  0 <= j < get_number_of_items (ss_saps st s2) -> get_item (ss_saps st s2) j = Ok (Some q) ->
  puid p = puid q -> s1 = s2 /\ i = j.
Proof.
  intros HL Hr Hu Hi Hp Hj Hq E. destruct (runs_inv L HL u0 st Hr) as (ks & HI & _).
  destruct (item_id L u0 st ks s1 i p HI Hi Hp) as (k1 & H1 & E1). destruct (item_id L u0 st ks s2 j q HI Hj Hq) as (k2 & H2 & E2).
  pose proof (i_range _ _ _ _ HI s1 k1 (elem_of_list_lookup_2 _ _ _ H1)). pose proof (i_range _ _ _ _ HI s2 k2 (elem_of_list_lookup_2 _ _ _ H2)).
  assert (k1 = k2) as <- by (apply int32_inj; [lia|congruence]).
  destruct (String.eqb_spec s1 s2) as [<-|Hne].
  - split; [reflexivity|]. pose proof (proj1 (NoDup_alt _) (i_nodup _ _ _ _ HI s1) _ _ _ H1 H2). lia.
  - exfalso. eapply (i_disj _ _ _ _ HI s1 s2 k1 Hne); by eapply elem_of_list_lookup_2.
Qed.

Inductive steps (L : Z) : srcst -> srcst -> Prop :=
| steps_refl st : steps L st st
| steps_more st st1 st2 : steps L st st1 -> step L st1 st2 -> steps L st st2.

(** An ID is never used again: a particle whose ID was not present in its species before a step has an ID that no particle of
    any species had in any earlier state, stored or deleted since. *)
Theorem C28_never_reused (L u0 : Z) st0 st st' s1 s2 i j p q : 1 <= L ->
  runs L u0 st0 -> steps L st0 st -> step L st st' -> ss_uid st' - u0 <= 2 ^ 32 ->
  0 <= i < get_number_of_items (ss_saps st' s1) -> get_item (ss_saps st' s1) i = Ok (Some p) ->
  (forall k r, 0 <= k < get_number_of_items (ss_saps st s1) -> get_item (ss_saps st s1) k = Ok (Some r) -> puid r <> puid p) ->
  0 <= j < get_number_of_items (ss_saps st0 s2) -> get_item (ss_saps st0 s2) j = Ok (Some q) ->
  puid p <> puid q.
Proof.
  intros HL Hr Hss Hs Hu Hi Hp Hnew Hj Hq E.
  assert (Hmid : runs L u0 st /\ ss_uid st0 <= ss_uid st).
  { clear - HL Hr Hss. induction Hss as [|st st1 st2 H IH Hs]; [split; [exact Hr|lia]|]. destruct (IH Hr) as [H1 H2].
    split; [by eapply run_step|]. destruct (runs_inv L HL u0 st1 H1) as (ks & HI & Hu).
    destruct (inv_step L HL u0 st1 st2 ks HI Hu Hs) as (_ & _ & _ & H3 & _). lia. }
  destruct Hmid as [Hr1 Hle]. destruct (runs_inv L HL u0 st Hr1) as (ks & HI & Hu1).
  destruct (inv_step L HL u0 st st' ks HI Hu1 Hs) as (ks' & HI' & _ & Hle' & Hk').
  destruct (runs_inv L HL u0 st0 Hr) as (ks0 & HI0 & _).
  destruct (item_id L u0 st' ks' s1 i p HI' Hi Hp) as (k1 & H1 & E1). destruct (item_id L u0 st0 ks0 s2 j q HI0 Hj Hq) as (k2 & H2 & E2).
  pose proof (i_range _ _ _ _ HI' s1 k1 (elem_of_list_lookup_2 _ _ _ H1)). pose proof (i_range _ _ _ _ HI0 s2 k2 (elem_of_list_lookup_2 _ _ _ H2)).
  assert (k1 = k2) as <- by (apply int32_inj; [lia|congruence]).
  destruct (Hk' s1 k1 (elem_of_list_lookup_2 _ _ _ H1)) as [Hold|Hn]; [|lia].
  apply elem_of_list_lookup in Hold as [m Hm]. destruct (i_stores _ _ _ _ HI s1) as (xs & [Hn Hx] & Hids).
  assert (Hl : map puid xs !! m = Some (int32 k1)) by (rewrite Hids, list_lookup_fmap, Hm; reflexivity).
  rewrite list_lookup_fmap in Hl. destruct (xs !! m) as [r|] eqn:Er; [|discriminate]. injection Hl as Hl.
  apply (Hnew (Z.of_nat m) r); [apply lookup_lt_Some in Er; lia|by apply Hx|congruence].
Qed.

(** Beyond that the int32 attribute wraps: the first and the last particle that one firing makes with 2^32 + 1 particles per
    cell have the same ID. *)
Theorem C28_wrap_refuted (L : Z) fl names pdim pi4 rnd c sn density drift st : 1 <= L ->
  In sn names -> Ready L st sn -> (1 <= pdim)%nat -> length drift = pdim ->
  (forall x, c_in c x = true) ->
  exists st' i j p q,
    create_maxwellian fl names false pdim pi4 rnd 1 0 None None 1 0 (Region 1 [c]) (Params sn density drift 1 (2 ^ 32 + 1)) st = Ok st' /\
    i <> j /\ get_item (ss_saps st' sn) i = Ok (Some p) /\ get_item (ss_saps st' sn) j = Ok (Some q) /\ puid p = puid q.
Proof.
  intros HL Hin Hst Hpd Hd Hc. set (N := 2 ^ 32 + 1). assert (HN : N = 2 ^ 32 + 1) by reflexivity. clearbody N.
  set (Q := Params sn density drift 1 N). pose proof Hst as (xs & HR & HS & _).
  destruct (C27_fires fl names false pdim pi4 rnd 1 0 None None 1 0 (Region 1 [c]) Q st L HL) as (st' & E & _);
    [exact Hin|cbn; lia|exact Hst|cbn; lia|exact Hd| |].
  { intros c' Hc' k. apply elem_of_list_singleton in Hc' as ->. exists 0%nat. split; [lia|apply Hc]. }
  assert (HN1 : 1 <= s_percell Q) by (cbn; lia).
  destruct (C27_firing _ _ _ _ _ _ _ _ _ _ _ _ _ _ _ _ L xs HL HN1 HR HS E) as (new & HS' & _ & _ & Hlen & _ & Hm).
  cbn [Q s_species s_percell r_cells length] in *.
  destruct (Hm 0%nat c 0%nat eq_refl ltac:(lia)) as (p & Hp & HMp).
  destruct (Hm 0%nat c (Z.to_nat (2 ^ 32)) eq_refl ltac:(lia)) as (q & Hq & HMq).
  exists st', (Z.of_nat (length xs)), (Z.of_nat (length xs + Z.to_nat (2 ^ 32))), p, q. split; [exact E|]. split; [lia|].
  destruct HS' as [_ HS']. split; [|split].
  - apply HS'. rewrite lookup_app_r, Nat.sub_diag by lia. exact Hp.
  - apply HS'. rewrite lookup_app_r by lia. rewrite <- Hq. f_equal. lia.
  - rewrite (m_uid _ _ _ _ _ _ _ _ _ _ HMp), (m_uid _ _ _ _ _ _ _ _ _ _ HMq). unfold int32. rewrite Z2Nat.id by lia. cbn [Z.of_nat].
    rewrite Z.mul_0_l, !Z.add_0_r. f_equal. replace (ss_uid st + 2 ^ 32 + 2 ^ 31) with (ss_uid st + 2 ^ 31 + 1 * 2 ^ 32) by lia.
    rewrite Z.mod_add by lia. reflexivity.
Qed.

(** Example: the four electrons of C27_example and one listed ion: five different IDs. *)
Definition ex_ion : particle := Particle [0; 0]%R [0; 0]%R [0; 0]%R 1%R 0 7 503 0.
Example C28_example : exists st x1 x2 x3 x4, runs 2 499 st /\ ss_uid st = 504 /\
  Stores (ss_saps st "e") [x1; x2; x3; x4] /\ Stores (ss_saps st "H") [ex_ion] /\
  map puid [x1; x2; x3; x4; ex_ion] = [499; 500; 501; 502; 503].
Proof.
  destruct C27_example as (st & x1 & x2 & x3 & x4 & E & HS & HH & Hu & Hid & _).
  assert (H2 : 1 <= 2) by lia.
  assert (He : exists st1, create_from_list "H" [ex_ion] st = Ok st1) by (cbn [create_from_list]; rewrite HH; eexists; reflexivity).
  destruct He as [st1 E1]. assert (HN : Stores (ss_saps st "H") []) by (rewrite HH; split; [reflexivity|intros k x Hk; discriminate Hk]).
  assert (HR : Reachable 2 (ss_saps st "H")) by (rewrite HH; constructor).
  destruct (list_stored 2 H2 "H" [ex_ion] st st1 [] HR HN E1) as (_ & HS1 & Ho & Hu1).
  exists (SrcSt (ss_saps st1) (ss_uid st1 + 1) (ss_rng st1) (ss_traj st1)), x1, x2, x3, x4. cbn [ss_saps ss_uid].
  split; [|split; [lia|split; [rewrite Ho by discriminate; exact HS|split; [exact HS1|]]]].
  - eapply run_step; [eapply run_step; [apply (run_new 2 499 0 None)|eapply s_source; exact E]|].
    eapply (s_list _ _ _ "H" [ex_ion] st1); [|exact E1|reflexivity].
    intros [|i] p Hp; [|discriminate Hp]. injection Hp as <-. rewrite Hu. reflexivity.
  - cbn [map] in *. injection Hid as -> -> -> ->. reflexivity.
Qed.

(** ** C48: initial particles *)

(** Listed particles are stored in the order of the lists, after what was there, if the storages accept particles. *)
Theorem C48_listed fl names spherical pdim pi4 rnd fuel dE negE (ls : list (string * list particle)) : forall (L : Z) st xs, 1 <= L ->
  (forall sn ps, (sn, ps) ∈ ls -> In sn names) ->
  (forall sn, Reachable L (ss_saps st sn) /\ Stores (ss_saps st sn) (xs sn) /\ Accepts (ss_saps st sn)) ->
  exists st', initialize_particles fl names spherical pdim pi4 rnd fuel dE negE (map (fun l => Listed l.1 l.2) ls) st = Ok st' /\
    (forall sn, Stores (ss_saps st' sn) (xs sn ++ concat (map snd (filter (fun l => l.1 = sn) ls)))) /\
    ss_uid st' = ss_uid st.
Proof.
  induction ls as [|[sn ps] ls IH]; intros L st xs HL Hin Hst.
  - exists st. split; [reflexivity|]. split; [|reflexivity]. intros sn. cbn. rewrite app_nil_r. apply Hst.
  - cbn [map initialize_particles fst snd].
    assert (existsb (String.eqb sn) names = true) as ->.
    { apply existsb_exists. exists sn. split; [eapply Hin; left|apply String.eqb_refl]. }
    cbn [negb].
    assert (Hl : forall ps st xs, (forall s, Reachable L (ss_saps st s) /\ Stores (ss_saps st s) (xs s) /\ Accepts (ss_saps st s)) ->
      exists st', create_from_list sn ps st = Ok st' /\ ss_uid st' = ss_uid st /\
        forall s, Reachable L (ss_saps st' s) /\ Stores (ss_saps st' s) (xs s ++ if String.eqb s sn then ps else []) /\ Accepts (ss_saps st' s)).
    { clear - HL. induction ps as [|p ps IH]; intros st xs Hst.
      - exists st. split; [reflexivity|]. split; [reflexivity|]. intros s.
        replace (if String.eqb s sn then [] else []) with (@nil particle) by (destruct (String.eqb s sn); reflexivity).
        rewrite app_nil_r. apply Hst.
      - cbn [create_from_list]. destruct (Hst sn) as (HR & HS & HA).
        destruct (HA [p]) as (s' & rs & E'). cbn in E'.
        destruct (push_back (ss_saps st sn) p) as [[s1 [o i]]|] eqn:Ep; [|discriminate]. clear E' s' rs.
        destruct (pushed L _ _ _ _ _ _ HL HR HS Ep) as [HR1 HS1]. pose proof (C47_push_accepts L _ p s1 _ HA Ep) as HA1.
        assert (exists T1, add_particle false sn 0 0%R [] [] (ss_saps st sn) (ss_traj st) p = Ok (s1, T1)) as [T1 ->].
        { unfold add_particle. rewrite Ep. destruct (is_traj p), (ss_traj st); eexists; reflexivity. }
        destruct (IH (SrcSt (set_key (ss_saps st) sn s1) (ss_uid st) (ss_rng st) T1)
          (fun s => xs s ++ if String.eqb s sn then [p] else [])) as (st' & E & Hu & H).
        + intros s. cbn [ss_saps]. destruct (String.eqb_spec s sn) as [->|Hne].
          * rewrite set_key_same. split; [exact HR1|]. split; [exact HS1|exact HA1].
          * rewrite set_key_other, app_nil_r by exact Hne. apply Hst.
        + exists st'. split; [exact E|]. split; [exact Hu|]. intros s. destruct (H s) as (A & B & C). split; [exact A|]. split; [|exact C].
          rewrite <- app_assoc in B. destruct (String.eqb s sn); exact B. }
    destruct (Hl ps st xs Hst) as (st1 & -> & Hu1 & H1).
    destruct (IH L st1 _ HL ltac:(intros sn' ps' H'; eapply Hin; right; exact H') H1) as (st' & E & HS & Hu).
    exists st'. split; [exact E|]. split; [|lia]. intros s. specialize (HS s). cbv beta in HS. rewrite <- app_assoc in HS.
    rewrite filter_cons. cbn [fst]. destruct (String.eqb_spec s sn) as [He|Hne].
    + rewrite decide_True by congruence. exact HS.
    + rewrite decide_False by congruence. exact HS.
Qed.

(** An entry of type 'function_over_region' with [create_maxwellian_particles] never works: the call of line 487 leaves out the
    step number, so that the parameter dictionary is taken for the region. *)
Theorem C48_over_region_refuted fl names spherical pdim pi4 rnd fuel dE negE pre q r rest : forall st,
  match initialize_particles fl names spherical pdim pi4 rnd fuel dE negE pre st with
  | Ok st' => initialize_particles fl names spherical pdim pi4 rnd fuel dE negE (pre ++ OverRegion q r :: rest) st = Raise AttributeError
  | Raise e => initialize_particles fl names spherical pdim pi4 rnd fuel dE negE (pre ++ OverRegion q r :: rest) st = Raise e
  end.
Proof.
  induction pre as [|[sn ps|q' r'|] pre IH]; intros st; cbn [initialize_particles app].
  - reflexivity.
  - destruct (negb _); [reflexivity|]. destruct (create_from_list sn ps st) as [st1|]; [|reflexivity]. apply IH.
  - reflexivity.
  - reflexivity.
Qed.

(** The same entry called with the step number in front does create the particles (this is how the unit tests call it). *)
Example C48_example : 
  (exists st', create_from_list "H" [ex_ion] (SrcSt (fun _ => sap_init 2) 504 0 None) = Ok st' /\ Stores (ss_saps st' "H") [ex_ion] /\
    initialize_particles exact ["e"; "H"] false 2 (4 * PI)%R ex_rnd 2 0 ANone
      [Listed "H" [ex_ion]; OverRegion ex_source (Region 1 [ex_cell 7 0 1; ex_cell 8 1 3])] (SrcSt (fun _ => sap_init 2) 499 0 None)
    = Raise AttributeError) /\
  exists st', call_maxwellian exact ["e"; "H"] false 2 (4 * PI)%R ex_rnd 2 0
      [ANum 3; ANum 0; ARegion (Region 1 [ex_cell 7 0 1; ex_cell 8 1 3]); AParams ex_source; ANone] (SrcSt (fun _ => sap_init 2) 499 0 None) = Ok st'
    /\ get_number_of_items (ss_saps st' "e") = 4.
Proof.
  split.
  - eexists. split; [reflexivity|]. split; [|reflexivity]. split; [reflexivity|].
    intros [|k] x Hk; [|discriminate Hk]. injection Hk as <-. reflexivity.
  - destruct C27_example as (st & x1 & x2 & x3 & x4 & E & HS & _). exists st. split; [|apply HS].
    unfold call_maxwellian. cbn [lookup list_lookup]. unfold py_int. rewrite Ztrunc_IZR. exact E.
Qed.

Print Assumptions C28_unique.
Print Assumptions C28_never_reused.
Print Assumptions C28_wrap_refuted.
Print Assumptions C48_listed.
Print Assumptions C48_over_region_refuted.
