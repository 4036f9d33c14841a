(** The mover that computes the fields of a segment before it moves its particles does the same as a mover that treats one
    particle after the other. *)
From Verif Require Import SapModel MoverModel SapProofs MoverProofs.
From Verif Require Import MeshFieldModel.
From stdpp Require Import list_numbers.
From Coq Require Import ZifyBool ZifyNat.
Ltac Zify.zify_post_hook ::= Z.div_mod_to_equations.
Local Open Scope Z_scope.

Section Lock.
Context {A C F : Type} (L N : Z) (HL : 1 <= L).
Context (ops : sap_ops A) (Ain : forall s, Bounded L N s -> op_next_in ops s = op_next_in (py_ops A) s)
  (Aout : forall s, Bounded L N s -> fnf (arr s (out_sa s)) + 1 < N -> op_next_out ops s = op_next_out (py_ops A) s).
Context (prep : F -> list A -> res F) (hk_at : F -> Z -> hooks A C) (hk : hooks A C).
Implicit Types (m : mstate A C) (s : sap A).

(** The particle at position [ip] of a segment is treated as the particle with full index [fi]. *)
Definition same_at (f : F) (ip fi : Z) (p : A) : Prop :=
  (forall c, adv (hk_at f ip) c fi p = adv hk c fi p) /\ (forall q, deleted (hk_at f ip) q = deleted hk q) /\
  (forall c ch i j q, on_keep (hk_at f ip) c ch i j q = on_keep hk c ch i j q) /\
  (forall c i q r, on_drop (hk_at f ip) c i q r = on_drop hk c i q r).

Context (ain : sarr A) (iarr : bool) (nout0 : Z) (xs : list A).
Context (Hain : Holds L ain xs) (Hn0 : nout0 <= N) (Hnin : nseg ain <= N).

Lemma particle_same f iseg m outs ipIn p :
  PInv L ain iarr iseg nout0 m outs -> 0 <= iseg < nseg ain -> 0 <= ipIn < L ->
  xs !! Z.to_nat (iseg * L + ipIn) = Some p -> Z.of_nat (length outs) <= iseg * L + ipIn -> same_at f ipIn (iseg * L + ipIn) p ->
  mover_particle ops (hk_at f ipIn) iarr iseg m ipIn = mover_particle ops hk iarr iseg m ipIn.
Proof using All.
  intros HP Hi Hip Hp Hle (S1 & S2 & S3 & S4).
  destruct (claim_slot ops L N HL Aout ain iarr nout0 xs Hain Hn0 Hnin iseg m outs ipIn HP Hi Hip Hle) as (m1 & Em1 & HP1 & Hip1 & Hch & Hctx & Hos).
  unfold mover_particle. rewrite Em1. rewrite (pi_len _ _ _ _ _ _ _ HP). clear Hch Hctx Em1 HP m. rename HP1 into HP.
  destruct HP as [P1 P2 P3 P4 P5 P6 P7 P8 P9 P10 P11 P12 P13 P14 P15].
  assert (Hf : fetch (arr (ms_sap m1) iarr) iseg ipIn = Ok (Some p)).
  { rewrite P5. destruct (fetch_ok L (SArr (segs ain) (fnf ain) (fao ain) iseg (nseg ain)) iseg ipIn HL) as (x & Hx & Hfx).
    - eapply Wf_ext; [..|exact (h_wf _ _ _ Hain)]; done.
    - done.
    - done.
    - rewrite Hx. f_equal. pose proof (Prefix_lookup ain xs _ _ (h_pre _ _ _ Hain) Hp) as Hpl.
      unfold flat in *. cbn [segs] in Hfx. congruence. }
  rewrite Hf. rewrite P4, P3, P10, Bool.eqb_reflx, Z.eqb_refl. cbn [negb andb].
  unfold get_full_indices. rewrite P2, P3, P10, P5, P1. cbn [cur]. rewrite S1.
  destruct (adv hk (ms_ctx m1) (iseg * L + ipIn) p) as [[q c1]|e]; [|done].
  destruct (store _ _ _ _) as [a1|]; [|done]. rewrite S2, S3, S4. done.
Qed.

Lemma segment_same f k : forall iseg m outs ipIn,
  PInv L ain iarr iseg nout0 m outs -> 0 <= iseg < nseg ain -> 0 <= ipIn ->
  ipIn + Z.of_nat k <= L -> iseg * L + ipIn + Z.of_nat k <= Z.of_nat (length xs) -> Z.of_nat (length outs) <= iseg * L + ipIn ->
  (forall j p, 0 <= j < Z.of_nat k -> xs !! Z.to_nat (iseg * L + ipIn + j) = Some p -> same_at f (ipIn + j) (iseg * L + (ipIn + j)) p) ->
  bsegment ops hk_at f iarr iseg m ipIn k = mover_segment ops hk iarr iseg m ipIn k.
Proof using All.
  induction k as [|k IH]; intros iseg m outs ipIn HP Hi Hip HkL Hkn Hle Hsame; [done|].
  cbn [bsegment mover_segment].
  destruct (lookup_lt_is_Some_2 xs (Z.to_nat (iseg * L + ipIn))) as [p Hp]; [lia|].
  rewrite (particle_same f iseg m outs ipIn p HP Hi ltac:(lia) Hp Hle).
  2: { specialize (Hsame 0 p ltac:(lia)). rewrite !Z.add_0_r in Hsame. by apply Hsame. }
  pose proof (mover_particle_sim ops hk L N HL Ain Aout ain iarr nout0 xs Hain Hn0 Hnin iseg m outs ipIn p HP Hi ltac:(lia) Hp Hle) as Hs.
  destruct (spec_step hk (iseg * L + ipIn) outs (ms_change m) (ms_ctx m) p) as [[[o h] c]|e] eqn:Est.
  - destruct Hs as (m1 & E1 & HP1 & Eo & Eh & Ec). rewrite E1. apply spec_step_length in Est.
    apply (IH iseg m1 o (ipIn + 1) HP1 Hi); [lia..|].
    intros j q Hj Hq. replace (ipIn + 1 + j) with (ipIn + (j + 1)) by lia. apply Hsame; [lia|].
    by replace (iseg * L + ipIn + (j + 1)) with (iseg * L + (ipIn + 1) + j) by lia.
  - simpl in Hs. rewrite Hs. done.
Qed.

(** The particles of segment [iseg]. *)
Definition chunk (iseg : Z) : list A := take (Z.to_nat (in_count L ain iseg)) (drop (Z.to_nat (iseg * L)) xs).

Lemma slice_chunk iseg m outs : xs <> [] -> PInv L ain iarr iseg nout0 m outs -> 0 <= iseg <= fnf ain ->
  exists v, slice (arr (ms_sap m) iarr) iseg (in_count L ain iseg) = Ok v /\ read_all v = Ok (chunk iseg).
Proof using All.
  intros Hx HP Hi. destruct (fnf_bounds L HL ain xs Hain Hx) as (Hf & Ha & Hsum).
  assert (Hcnt : 1 <= in_count L ain iseg <= L /\ iseg * L + in_count L ain iseg <= Z.of_nat (length xs)).
  { unfold in_count. destruct (iseg =? fnf ain) eqn:E; nia. }
  rewrite (pi_ain _ _ _ _ _ _ _ HP).
  assert (HW : Wf L (SArr (segs ain) (fnf ain) (fao ain) iseg (nseg ain))) by (eapply Wf_ext; [..|exact (h_wf _ _ _ Hain)]; done).
  destruct (seg_lookup L _ iseg HW) as (v & Hv & Hlv & Hg); [cbn; lia|]. cbn [segs] in Hv, Hg.
  unfold slice. cbn [segs]. rewrite Hg. eexists. split; [reflexivity|].
  enough (Ht : take (Z.to_nat (in_count L ain iseg)) v = Some <$> chunk iseg).
  { rewrite Ht. clear. induction (chunk iseg) as [|p l IH]; [done|]. cbn [fmap list_fmap read_all]. fold (fmap (M:=list) (@Some A) l). rewrite IH. done. }
  apply list_eq. intros j. rewrite list_lookup_fmap. unfold chunk.
  destruct (Nat.lt_ge_cases j (Z.to_nat (in_count L ain iseg))) as [Hj|Hj].
  2: { rewrite !lookup_ge_None_2; [done|rewrite take_length, drop_length; lia|rewrite take_length; lia]. }
  rewrite !lookup_take, lookup_drop by lia.
  destruct (lookup_lt_is_Some_2 xs (Z.to_nat (iseg * L) + j)) as [p Hp]; [lia|]. rewrite Hp. cbn.
  destruct (fetch_ok L _ iseg (Z.of_nat j) HL HW) as (x & Hxx & Hfx); [cbn; lia|lia|].
  pose proof (Prefix_lookup ain xs _ _ (h_pre _ _ _ Hain) Hp) as Hpl.
  replace (Z.to_nat (iseg * L) + j)%nat with (Z.to_nat (iseg * L + Z.of_nat j)) in Hpl by lia.
  unfold flat in *. cbn [segs] in Hfx. rewrite Hpl in Hfx. injection Hfx as <-.
  unfold fetch in Hxx. cbn [segs] in Hxx. rewrite Hg in Hxx.
  unfold py_get in Hxx. rewrite py_pos_in in Hxx by lia. rewrite Nat2Z.id in Hxx. destruct (v !! j); congruence.
Qed.

(** The fields of the segments, one after the other. *)
Fixpoint preps (f : F) (cs : list (list A)) : res F :=
  match cs with
  | [] => Ok f
  | c :: r => let! f1 := prep f c in preps f1 r
  end.
(** The segments from [iseg] on. *)
Definition chunks (iseg : Z) : list (list A) := map chunk (map Z.of_nat (seq (Z.to_nat iseg) (Z.to_nat (fnf ain + 1 - iseg)))).
Lemma chunks_cons iseg : 0 <= iseg <= fnf ain -> chunks iseg = chunk iseg :: chunks (iseg + 1).
Proof using All.
  intros H. unfold chunks. replace (Z.to_nat (fnf ain + 1 - iseg)) with (S (Z.to_nat (fnf ain + 1 - (iseg + 1)))) by lia. cbn [seq map].
  rewrite Z2Nat.id by lia. do 4 f_equal. lia.
Qed.
Lemma chunks_nil : 0 <= fnf ain -> chunks (fnf ain + 1) = [].
Proof using All. intros H. unfold chunks. by replace (Z.to_nat (fnf ain + 1 - (fnf ain + 1))) with 0%nat by lia. Qed.

(** [J iseg f]: [f] is a possible state before segment [iseg]. *)
Context (J : Z -> F -> Prop).
Context (HJ : forall iseg f f1, 0 <= iseg <= fnf ain -> J iseg f -> prep f (chunk iseg) = Ok f1 -> J (iseg + 1) f1 /\
  forall j p, 0 <= j < in_count L ain iseg -> xs !! Z.to_nat (iseg * L + j) = Some p -> same_at f1 j (iseg * L + j) p).

Lemma segments_same fuel : forall iseg m outs f, xs <> [] -> PInv L ain iarr iseg nout0 m outs -> 0 <= iseg <= fnf ain ->
  Z.of_nat (length outs) <= iseg * L -> fnf ain - iseg < Z.of_nat fuel -> J iseg f ->
  match preps f (chunks iseg) with
  | Ok f' => J (fnf ain + 1) f' /\
     bsegments ops prep hk_at fuel f m iarr iseg (in_count L ain iseg) =
     match mover_segments ops hk fuel m iarr iseg (in_count L ain iseg) with Ok m' => Ok (m', f') | Raise e => Raise e end
  | Raise _ => exists e, bsegments ops prep hk_at fuel f m iarr iseg (in_count L ain iseg) = Raise e
  end.
Proof using All.
  induction fuel as [|fuel IH]; intros iseg m outs f Hx HP Hi Hle Hfuel Hj; [lia|].
  destruct (fnf_bounds L HL ain xs Hain Hx) as (Hf & Ha & Hsum).
  rewrite chunks_cons by exact Hi. cbn [preps bsegments mover_segments].
  destruct (slice_chunk iseg m outs Hx HP Hi) as (v & Ev & Er). rewrite Ev, Er.
  destruct (prep f (chunk iseg)) as [f1|e] eqn:Ep; [|by exists e].
  destruct (HJ iseg f f1 Hi Hj Ep) as (Hj1 & Hsame).
  assert (Hcnt : 1 <= in_count L ain iseg <= L /\ iseg * L + in_count L ain iseg <= Z.of_nat (length xs) /\
     (iseg <> fnf ain -> in_count L ain iseg = L)).
  { unfold in_count. destruct (iseg =? fnf ain) eqn:E.
    - assert (iseg = fnf ain) as -> by lia. lia.
    - repeat split; try lia. nia. }
  destruct Hcnt as (Hc1 & Hc2 & Hc4).
  assert (Hseg : bsegment ops hk_at f1 iarr iseg m 0 (Z.to_nat (in_count L ain iseg)) = mover_segment ops hk iarr iseg m 0 (Z.to_nat (in_count L ain iseg))).
  { apply (segment_same f1 _ iseg m outs 0 HP); [lia..|]. intros j p Hjj Hp. rewrite Z.add_0_l. apply Hsame; [lia|].
    by replace (iseg * L + j) with (iseg * L + 0 + j) by lia. }
  rewrite Hseg.
  pose proof (mover_segment_sim ops hk L N HL Ain Aout ain iarr nout0 xs Hain Hn0 Hnin (Z.to_nat (in_count L ain iseg)) iseg m outs 0 HP
    ltac:(lia) ltac:(lia) ltac:(lia) ltac:(lia) ltac:(lia)) as Hsim.
  rewrite Z.add_0_r in Hsim. unfold simulates in Hsim.
  destruct (spec_pass hk L (iseg * L) outs (ms_oseg m) (ms_change m) (ms_ctx m)
     (take (Z.to_nat (in_count L ain iseg)) (drop (Z.to_nat (iseg * L)) xs))) as [[[[o sg] h] c]|e] eqn:Esp.
  2: { rewrite Hsim. destruct (preps f1 (chunks (iseg + 1))) as [f'|e2] eqn:E2; [|by exists e].
       split; [|done].
       assert (Hgen : forall n i f f', fnf ain + 1 - i = Z.of_nat n -> 0 <= i -> J i f -> preps f (chunks i) = Ok f' -> J (fnf ain + 1) f').
       { induction n as [|n IHn]; intros i g g' Hn Hi' Hg E.
         - assert (i = fnf ain + 1) as -> by lia. rewrite chunks_nil in E by lia. cbn in E. by injection E as <-.
         - rewrite chunks_cons in E by lia. cbn [preps] in E. destruct (prep g (chunk i)) as [g1|] eqn:Eg; [|discriminate].
           destruct (HJ i g g1 ltac:(lia) Hg Eg) as [Hg1 _]. exact (IHn (i + 1) g1 g' ltac:(lia) ltac:(lia) Hg1 E). }
       exact (Hgen (Z.to_nat (fnf ain - iseg)) (iseg + 1) f1 f' ltac:(lia) ltac:(lia) Hj1 E2). }
  destruct Hsim as (m1 & E1 & HP1 & Eo & Eh & Ec). rewrite E1.
  pose proof Esp as Esp0. apply spec_pass_length in Esp.
  assert (Htl : length (take (Z.to_nat (in_count L ain iseg)) (drop (Z.to_nat (iseg * L)) xs)) = Z.to_nat (in_count L ain iseg)).
  { rewrite take_length, drop_length. lia. }
  rewrite Htl in Esp.
  assert (Hos : ms_oseg m1 <= iseg).
  { assert (sg * L <= Z.of_nat (length outs) + in_count L ain iseg - 1).
    { pose proof (spec_pass_seg _ _ _ _ _ _ _ _ _ _ _ _ HL Esp0) as Hsg. rewrite Htl, Z2Nat.id in Hsg by lia.
      apply Hsg. intros E0. rewrite E0 in Htl. simpl in Htl. lia. }
    nia. }
  destruct (next_in_ok ops hk L N HL Ain Aout ain iarr nout0 xs Hain Hn0 Hnin iseg m1 o Hx HP1 Hi Hos) as (s' & En & HP2). rewrite En.
  destruct (iseg + 1 <=? fnf ain) eqn:Emore.
  - assert (Hne : iseg <> fnf ain) by lia. specialize (Hc4 Hne).
    assert (Hc' : 1 <= in_count L ain (iseg + 1)).
    { unfold in_count. destruct (iseg + 1 =? fnf ain); lia. }
    destruct (in_count L ain (iseg + 1) =? 0) eqn:Ez; [lia|].
    assert (Hcur : cur (arr s' iarr) = iseg + 1).
    { pose proof (pi_ain _ _ _ _ _ _ _ HP2) as Ha'. cbn [ms_sap] in Ha'. rewrite Ha'. done. }
    rewrite Hcur. exact (IH (iseg + 1) _ o f1 Hx HP2 ltac:(lia) ltac:(nia) ltac:(lia) Hj1).
  - assert (Hlast : iseg = fnf ain) by lia. subst iseg. rewrite chunks_nil by lia. cbn [preps]. rewrite Z.eqb_refl. done.
Qed.
End Lock.

(** A pass that returns has computed the fields of all segments. *)
Section Done.
Context {A C F : Type} (L N : Z) (HL : 1 <= L).
Context (ops : sap_ops A) (Ain : forall s, Bounded L N s -> op_next_in ops s = op_next_in (py_ops A) s)
  (Aout : forall s, Bounded L N s -> fnf (arr s (out_sa s)) + 1 < N -> op_next_out ops s = op_next_out (py_ops A) s).
Context (prep : F -> list A -> res F) (hk_at : F -> Z -> hooks A C).
Implicit Types (m : mstate A C) (s : sap A).
Context (ain : sarr A) (iarr : bool) (nout0 : Z) (xs : list A).
Context (Hain : Holds L ain xs) (Hn0 : nout0 <= N) (Hnin : nseg ain <= N).

Lemma bsegment_inv f k : forall iseg m outs ipIn m',
  PInv L ain iarr iseg nout0 m outs -> 0 <= iseg < nseg ain -> 0 <= ipIn ->
  ipIn + Z.of_nat k <= L -> iseg * L + ipIn + Z.of_nat k <= Z.of_nat (length xs) -> Z.of_nat (length outs) <= iseg * L + ipIn -> ms_oseg m <= iseg ->
  bsegment ops hk_at f iarr iseg m ipIn k = Ok m' ->
  exists o, PInv L ain iarr iseg nout0 m' o /\ Z.of_nat (length o) <= iseg * L + ipIn + Z.of_nat k /\ ms_oseg m' <= iseg.
Proof using All.
  induction k as [|k IH]; intros iseg m outs ipIn m' HP Hi Hip HkL Hkn Hle Hos E.
  - cbn in E. injection E as <-. exists outs. split; [done|]. lia.
  - cbn [bsegment] in E. destruct (lookup_lt_is_Some_2 xs (Z.to_nat (iseg * L + ipIn))) as [p Hp]; [lia|].
    pose proof (mover_particle_sim ops (hk_at f ipIn) L N HL Ain Aout ain iarr nout0 xs Hain Hn0 Hnin iseg m outs ipIn p HP Hi ltac:(lia) Hp Hle) as Hs.
    destruct (spec_step (hk_at f ipIn) (iseg * L + ipIn) outs (ms_change m) (ms_ctx m) p) as [[[o h] c]|e] eqn:Est.
    2: { simpl in Hs. rewrite Hs in E. discriminate. }
    destruct Hs as (m1 & E1 & HP1 & Eo & _). rewrite E1 in E. apply spec_step_length in Est.
    destruct (IH iseg m1 o (ipIn + 1) m' HP1 Hi ltac:(lia) ltac:(lia) ltac:(lia) ltac:(lia)) as (o' & H1 & H2 & H3); [|exact E|].
    { rewrite Eo. assert (Z.of_nat (length outs) / L < iseg + 1) by (apply Z.div_lt_upper_bound; lia). lia. }
    exists o'. split; [done|]. lia.
Qed.
Lemma segments_preps fuel : forall iseg m outs f m' f', xs <> [] -> PInv L ain iarr iseg nout0 m outs -> 0 <= iseg <= fnf ain ->
  Z.of_nat (length outs) <= iseg * L -> ms_oseg m <= iseg ->
  bsegments ops prep hk_at fuel f m iarr iseg (in_count L ain iseg) = Ok (m', f') -> preps prep f (chunks L ain xs iseg) = Ok f'.
Proof using All.
  induction fuel as [|fuel IH]; intros iseg m outs f m' f' Hx HP Hi Hle Hos E; [discriminate|].
  destruct (fnf_bounds L HL ain xs Hain Hx) as (Hf & Ha & Hsum). cbn [bsegments] in E.
  rewrite (chunks_cons L N HL ops Ain Aout prep hk_at (hk_at f 0) ain iarr nout0 xs Hain Hn0 Hnin) by exact Hi. cbn [preps].
  destruct (slice_chunk L N HL ops Ain Aout prep hk_at (hk_at f 0) ain iarr nout0 xs Hain Hn0 Hnin iseg m outs Hx HP Hi) as (v & Ev & Er). rewrite Ev, Er in E.
  destruct (prep f (chunk L ain xs iseg)) as [f1|e] eqn:Ep; [|discriminate].
  assert (Hcnt : 1 <= in_count L ain iseg <= L /\ iseg * L + in_count L ain iseg <= Z.of_nat (length xs) /\
     (iseg <> fnf ain -> in_count L ain iseg = L)).
  { unfold in_count. destruct (iseg =? fnf ain) eqn:Ef.
    - assert (iseg = fnf ain) as -> by lia. lia.
    - repeat split; try lia. nia. }
  destruct Hcnt as (Hc1 & Hc2 & Hc4).
  destruct (bsegment ops hk_at f1 iarr iseg m 0 (Z.to_nat (in_count L ain iseg))) as [m1|] eqn:E1; [|discriminate].
  destruct (bsegment_inv f1 (Z.to_nat (in_count L ain iseg)) iseg m outs 0 m1 HP ltac:(lia) ltac:(lia) ltac:(lia) ltac:(lia) ltac:(lia) Hos E1) as (o & HP1 & Ho1 & Ho2).
  destruct (next_in_ok ops (hk_at f 0) L N HL Ain Aout ain iarr nout0 xs Hain Hn0 Hnin iseg m1 o Hx HP1 Hi Ho2) as (s' & En & HP2).
  rewrite En in E. destruct (iseg + 1 <=? fnf ain) eqn:Emore.
  - assert (Hne : iseg <> fnf ain) by lia. specialize (Hc4 Hne).
    assert (Hc' : 1 <= in_count L ain (iseg + 1)).
    { unfold in_count. destruct (iseg + 1 =? fnf ain); lia. }
    destruct (in_count L ain (iseg + 1) =? 0) eqn:Ez; [lia|].
    assert (Hcur : cur (arr s' iarr) = iseg + 1).
    { pose proof (pi_ain _ _ _ _ _ _ _ HP2) as Ha'. cbn [ms_sap] in Ha'. rewrite Ha'. done. }
    rewrite Hcur in E. exact (IH (iseg + 1) _ o f1 m' f' Hx HP2 ltac:(lia) ltac:(nia) ltac:(cbn; lia) E).
  - assert (Hlast : iseg = fnf ain) by lia. subst iseg. rewrite (chunks_nil L N HL ops Ain Aout prep hk_at (hk_at f 0) ain iarr nout0 xs Hain Hn0 Hnin) by lia.
    cbn [preps]. rewrite Z.eqb_refl in E. by injection E as _ <-.
Qed.
End Done.

(** ** The whole pass *)

Section Pieces.
Context {A : Type} (L : Z) (HL : 1 <= L).
(** The stored items cut into segments of [L]. *)
Definition pieces (items : list A) : list (list A) :=
  map (fun i => take (Z.to_nat L) (drop (i * Z.to_nat L) items)) (seq 0 (Z.to_nat ((Z.of_nat (length items) - 1) / L + 1))).

Lemma pieces_chunks ain items : Holds L ain items -> items <> [] -> pieces items = chunks L ain items 0.
Proof using HL.
  intros S3 Hne. destruct (fnf_bounds L HL ain items S3 Hne) as (Hf & Ha & Hsum).
  assert (Hfnf : (Z.of_nat (length items) - 1) / L = fnf ain).
  { symmetry. apply Z.div_unique with (fao ain - 1); lia. }
  assert (Hchunk : forall i, 0 <= i <= fnf ain -> chunk L ain items i = take (Z.to_nat L) (drop (Z.to_nat i * Z.to_nat L) items)).
  { intros i Hi. unfold chunk. replace (Z.to_nat (i * L)) with (Z.to_nat i * Z.to_nat L)%nat by nia. unfold in_count.
    destruct (i =? fnf ain) eqn:E; [|done]. assert (i = fnf ain) as -> by lia.
    rewrite !take_ge; [done|rewrite drop_length; nia..]. }
  unfold pieces, chunks. rewrite Hfnf. rewrite Z.sub_0_r. change (Z.to_nat 0) with 0%nat. rewrite map_map. apply map_ext_in.
  intros i Hi. apply in_seq in Hi. rewrite Hchunk by lia. by rewrite Nat2Z.id.
Qed.
End Pieces.

Section WholeB.
Context {A C F : Type} (L N : Z) (HL : 1 <= L).
Context (ops : sap_ops A) (Ain : forall s, Bounded L N s -> op_next_in ops s = op_next_in (py_ops A) s)
  (Aout : forall s, Bounded L N s -> fnf (arr s (out_sa s)) + 1 < N -> op_next_out ops s = op_next_out (py_ops A) s).
Context (prep : F -> list A -> res F) (hk_at : F -> Z -> hooks A C) (hk : hooks A C).

Lemma bmover_same_ops s items cursor nin nout c f (J : Z -> F -> Prop) :
  Live L s items cursor nin nout -> items <> [] -> nin <= N -> nout <= N -> op_init_inout ops s = init_inout_loop s -> J 0 f ->
  (forall i g g1 ps, pieces L items !! Z.to_nat i = Some ps -> 0 <= i -> J i g -> prep g ps = Ok g1 -> J (i + 1) g1 /\
     forall j p, ps !! Z.to_nat j = Some p -> 0 <= j -> same_at hk_at hk g1 j (i * L + j) p) ->
  match preps prep f (pieces L items) with
  | Ok f' => J (Z.of_nat (length (pieces L items))) f' /\
     bmover ops prep hk_at s c f = match mover ops hk s c with Ok (s', c') => Ok (s', c', f') | Raise e => Raise e end
  | Raise _ => exists e, bmover ops prep hk_at s c f = Raise e
  end.
Proof using All.
  intros HLive Hne Hni Hno Hinit HJ0 HJ.
  destruct HLive as [S1 S2 S3 S4 S5 S6 S7].
  set (ain := arr s (out_sa s)) in *.
  destruct (fnf_bounds L HL ain items S3 Hne) as (Hf & Ha & Hsum).
  assert (Hfnf : (Z.of_nat (length items) - 1) / L = fnf ain).
  { symmetry. apply Z.div_unique with (fao ain - 1); lia. }
  assert (Hpieces : pieces L items = chunks L ain items 0) by (by apply pieces_chunks).
  unfold bmover, mover. rewrite Hinit. unfold init_inout_loop. rewrite S2, Bool.negb_involutive, S1.
  set (s3 := set_arr (set_arr (set_arr s false _) true _) (negb (out_sa s)) _).
  assert (Hin3 : arr s3 (out_sa s) = SArr (segs ain) (fnf ain) (fao ain) 0 (nseg ain)).
  { subst s3 ain. destruct (out_sa s); reflexivity. }
  assert (Hout3 : arr s3 (negb (out_sa s)) =
     SArr (segs (arr s (in_sa s))) 0 0 0 (nseg (arr s (in_sa s)))).
  { subst s3 ain. rewrite S2. destruct (out_sa s); reflexivity. }
  assert (Hlen3 : slen s3 = L).
  { subst s3. by rewrite !slen_set. }
  rewrite Hin3. cbn [fnf fao]. rewrite Hlen3.
  destruct ((fnf ain =? 0) && (fao ain =? 0)) eqn:E0; [lia|].
  set (last := if fnf ain =? 0 then fao ain else L).
  assert (Hlast : last = in_count L ain 0).
  { unfold last, in_count. rewrite (Z.eqb_sym 0). done. }
  rewrite (slice_ok L); [|done| |cbn; pose proof (wf_pos _ _ (h_wf _ _ _ S3)); lia|unfold last; destruct (fnf ain =? 0); lia].
  2: { eapply Wf_ext; [..|exact (h_wf _ _ _ S3)]; done. }
  set (s4 := Sap L (arr0 s3) (arr1 s3) (out_sa s) (negb (out_sa s))).
  assert (Harr4 : forall b, arr s4 b = arr s3 b) by (intros []; done).
  rewrite Harr4, Hout3. cbn [segs].
  destruct (seg_lookup L (arr s (in_sa s)) 0 S6) as (v & _ & _ & Hv); [pose proof (wf_pos _ _ S6); lia|].
  rewrite Hv.
  assert (HP0 : PInv L ain (out_sa s) 0 nin (MState s4 (out_sa s4) 0 0 0 false c) []).
  { split; cbn [ms_sap ms_oarr ms_oseg ms_ipOut ms_count]; rewrite ?Harr4, ?Hin3, ?Hout3; cbn [fnf fao cur nseg segs]; try done; try lia.
    - eapply Wf_ext; [..|exact S6]; done.
    - apply Prefix_nil.
    - pose proof (wf_pos _ _ S6). lia. }
  rewrite Hlast. change (in_sa s4) with (out_sa s). rewrite Harr4, Hin3. cbn [nseg].
  pose proof (segments_same L N HL ops Ain Aout prep hk_at hk ain (out_sa s) nin items S3 ltac:(lia) ltac:(lia) J) as Hsame.
  assert (HJ' : forall iseg f f1, 0 <= iseg <= fnf ain -> J iseg f -> prep f (chunk L ain items iseg) = Ok f1 -> J (iseg + 1) f1 /\
    forall j p, 0 <= j < in_count L ain iseg -> items !! Z.to_nat (iseg * L + j) = Some p -> same_at hk_at hk f1 j (iseg * L + j) p).
  { intros i g g1 Hi Hg Eg. assert (Hpi : pieces L items !! Z.to_nat i = Some (chunk L ain items i)).
    { rewrite Hpieces. unfold chunks. change (Z.to_nat 0) with 0%nat. rewrite Z.sub_0_r.
      change (map ?g ?l) with (g <$> l). rewrite !list_lookup_fmap, lookup_seq_lt by lia. cbn. by rewrite Z2Nat.id by lia. }
    destruct (HJ i g g1 _ Hpi ltac:(lia) Hg Eg) as [H1 H2]. split; [exact H1|]. intros j p Hj Hp. apply H2; [|lia].
    unfold chunk. rewrite lookup_take by lia. rewrite lookup_drop. replace (Z.to_nat (i * L) + Z.to_nat j)%nat with (Z.to_nat (i * L + j)) by nia. exact Hp. }
  specialize (Hsame HJ' (Z.to_nat (nseg ain + 1)) 0 _ [] f Hne HP0 ltac:(lia) ltac:(simpl; lia) ltac:(lia) HJ0).
  rewrite <- Hpieces in Hsame.
  destruct (preps prep f (pieces L items)) as [f'|e].
  - destruct Hsame as [Hj' ->]. split.
    + replace (Z.of_nat (length (pieces L items))) with (fnf ain + 1); [exact Hj'|].
      unfold pieces. rewrite map_length, seq_length, Hfnf. lia.
    + destruct (mover_segments _ _ _ _ _ _ _); done.
  - destruct Hsame as (e' & ->). by exists e'.
Qed.

Lemma bmover_preps_ops s items cursor nin nout c f s' c' f' :
  Live L s items cursor nin nout -> items <> [] -> nin <= N -> nout <= N -> op_init_inout ops s = init_inout_loop s ->
  bmover ops prep hk_at s c f = Ok (s', c', f') -> preps prep f (pieces L items) = Ok f'.
Proof using HL Ain Aout.
  intros HLive Hne Hni Hno Hinit.
  destruct HLive as [S1 S2 S3 S4 S5 S6 S7].
  set (ain := arr s (out_sa s)) in *.
  destruct (fnf_bounds L HL ain items S3 Hne) as (Hf & Ha & Hsum).
  assert (Hpieces : pieces L items = chunks L ain items 0) by (by apply pieces_chunks).
  unfold bmover. rewrite Hinit. unfold init_inout_loop. rewrite S2, Bool.negb_involutive, S1.
  set (s3 := set_arr (set_arr (set_arr s false _) true _) (negb (out_sa s)) _).
  assert (Hin3 : arr s3 (out_sa s) = SArr (segs ain) (fnf ain) (fao ain) 0 (nseg ain)).
  { subst s3 ain. destruct (out_sa s); reflexivity. }
  assert (Hout3 : arr s3 (negb (out_sa s)) =
     SArr (segs (arr s (in_sa s))) 0 0 0 (nseg (arr s (in_sa s)))).
  { subst s3 ain. rewrite S2. destruct (out_sa s); reflexivity. }
  assert (Hlen3 : slen s3 = L).
  { subst s3. by rewrite !slen_set. }
  rewrite Hin3. cbn [fnf fao]. rewrite Hlen3.
  destruct ((fnf ain =? 0) && (fao ain =? 0)) eqn:E0; [lia|].
  set (last := if fnf ain =? 0 then fao ain else L).
  assert (Hlast : last = in_count L ain 0).
  { unfold last, in_count. rewrite (Z.eqb_sym 0). done. }
  rewrite (slice_ok L); [|done| |cbn; pose proof (wf_pos _ _ (h_wf _ _ _ S3)); lia|unfold last; destruct (fnf ain =? 0); lia].
  2: { eapply Wf_ext; [..|exact (h_wf _ _ _ S3)]; done. }
  set (s4 := Sap L (arr0 s3) (arr1 s3) (out_sa s) (negb (out_sa s))).
  assert (Harr4 : forall b, arr s4 b = arr s3 b) by (intros []; done).
  rewrite Harr4, Hout3. cbn [segs].
  destruct (seg_lookup L (arr s (in_sa s)) 0 S6) as (v & _ & _ & Hv); [pose proof (wf_pos _ _ S6); lia|].
  rewrite Hv.
  assert (HP0 : PInv L ain (out_sa s) 0 nin (MState s4 (out_sa s4) 0 0 0 false c) []).
  { split; cbn [ms_sap ms_oarr ms_oseg ms_ipOut ms_count]; rewrite ?Harr4, ?Hin3, ?Hout3; cbn [fnf fao cur nseg segs]; try done; try lia.
    - eapply Wf_ext; [..|exact S6]; done.
    - apply Prefix_nil.
    - pose proof (wf_pos _ _ S6). lia. }
  rewrite Hlast. change (in_sa s4) with (out_sa s). rewrite Harr4, Hin3. cbn [nseg].
  destruct (bsegments _ _ _ _ _ _ _ _ _) as [[m1 f1]|] eqn:E; [|discriminate]. intros [= _ _ <-].
  rewrite Hpieces. exact (segments_preps L N HL ops Ain Aout prep hk_at ain (out_sa s) nin items S3 ltac:(lia) ltac:(lia) _ 0 _ [] f m1 f1 Hne HP0 ltac:(lia) ltac:(simpl; lia) ltac:(simpl; lia) E).
Qed.
End WholeB.

(** The same for the Python container. *)
Section Python.
Context {A C F : Type} (L : Z) (HL : 1 <= L).
Context (prep : F -> list A -> res F) (hk_at : F -> Z -> hooks A C).

Lemma bmover_same (hk : hooks A C) s items cursor nin nout c f (J : Z -> F -> Prop) :
  Live L s items cursor nin nout -> items <> [] -> J 0 f ->
  (forall i g g1 ps, pieces L items !! Z.to_nat i = Some ps -> 0 <= i -> J i g -> prep g ps = Ok g1 -> J (i + 1) g1 /\
     forall j p, ps !! Z.to_nat j = Some p -> 0 <= j -> same_at hk_at hk g1 j (i * L + j) p) ->
  match preps prep f (pieces L items) with
  | Ok f' => J (Z.of_nat (length (pieces L items))) f' /\
     bmover (py_ops A) prep hk_at s c f = match mover (py_ops A) hk s c with Ok (s', c') => Ok (s', c', f') | Raise e => Raise e end
  | Raise _ => exists e, bmover (py_ops A) prep hk_at s c f = Raise e
  end.
Proof using HL.
  intros HLive Hne HJ0 HJ.
  exact (bmover_same_ops L (Z.max nin nout) HL (py_ops A) (fun _ _ => eq_refl) (fun _ _ _ => eq_refl) prep hk_at hk s items cursor nin nout c f J
    HLive Hne ltac:(lia) ltac:(lia) eq_refl HJ0 HJ).
Qed.
Lemma bmover_preps s items cursor nin nout c f s' c' f' :
  Live L s items cursor nin nout -> items <> [] ->
  bmover (py_ops A) prep hk_at s c f = Ok (s', c', f') -> preps prep f (pieces L items) = Ok f'.
Proof using HL.
  intros HLive Hne.
  exact (bmover_preps_ops L (Z.max nin nout) HL (py_ops A) (fun _ _ => eq_refl) (fun _ _ _ => eq_refl) prep hk_at s items cursor nin nout c f s' c' f'
    HLive Hne ltac:(lia) ltac:(lia) eq_refl).
Qed.
End Python.
