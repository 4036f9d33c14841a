(** C24 and C43: the particle output file. *)
From Flocq Require Import Core.
From stdpp Require Import strings.
From Verif Require Import SapModel MoverModel SapProofs SapSpec SapRefine StorageProps.
From Verif Require Import Vec VecProofs Rounding DiagModel DiagProofs.

Section Dump.
Context {A : Type} (fl : R -> R) (L : Z) (names : list string) (sindex : string -> Z).
Context (column : string -> option (akind * (A -> val))).

(** ** Specification *)

(** The value of attribute [pA] of a particle [x] of species [sn]. *)
Definition attr_value (pA : string) (sn : string) (x : A) : val :=
  if String.eqb pA "species_index" then VI (sindex sn)
  else match column pA with Some (_, g) => g x | None => VI 0 end.
(** Attribute [pA] of every particle, species after species. *)
Definition dataset (xs : string -> list A) (pA : string) : list (option val) :=
  concat (map (fun sn => map (fun x => Some (attr_value pA sn x)) (xs sn)) names).
Definition population (xs : string -> list A) : nat := list_sum (map (fun sn => length (xs sn)) names).
(** Attributes that can be written: those that [check_particle_output_parameters] accepts, with a number type. *)
Definition writable (pA : string) : Prop :=
  pA = "species_index"%string \/ exists k g, column pA = Some (k, g) /\ k <> AOther.
(** The particles [xs] are in the containers [saps]. *)
Definition Holds (saps : string -> sap A) (xs : string -> list A) : Prop :=
  forall sn, sn ∈ names -> Reachable L (saps sn) /\ Stores (saps sn) (xs sn).
(** States of the output functions: buffer length as recorded, and groups numbered below the counter. *)
Definition OutOk (o : outst A) : Prop :=
  Z.of_nat (length (o_buf o)) = o_blen o /\ forall g, g ∈ o_file o -> (g_number g < o_counter o)%Z.

(** ** Buffer *)
Lemma slice_set_in buf off vs : (0 <= off)%Z -> (Z.to_nat off + length vs <= length buf)%nat ->
  exists b1, slice_set buf off vs = Ok b1 /\ length b1 = length buf /\
    take (Z.to_nat off + length vs) b1 = take (Z.to_nat off) buf ++ vs.
Proof.
  intros H0 H. unfold slice_set. replace (_ =? length vs)%nat with true by lia.
  eexists. split; [done|]. split.
  - rewrite !app_length, take_length, drop_length. lia.
  - rewrite app_assoc. apply take_app_alt. rewrite app_length, take_length. lia.
Qed.
Lemma slice_fill_in buf off n v : (0 <= off)%Z -> (Z.to_nat off + Z.to_nat n <= length buf)%nat ->
  length (slice_fill buf off n v) = length buf /\
  take (Z.to_nat off + Z.to_nat n) (slice_fill buf off n v) = take (Z.to_nat off) buf ++ replicate (Z.to_nat n) v.
Proof.
  intros H0 H. unfold slice_fill. replace (Nat.min _ _ - Z.to_nat off)%nat with (Z.to_nat n) by lia. split.
  - rewrite !app_length, take_length, replicate_length, drop_length. lia.
  - rewrite app_assoc. apply take_app_alt. rewrite app_length, take_length, replicate_length. lia.
Qed.
Lemma map_const {B C} (l : list B) (c : C) : map (fun _ => c) l = replicate (length l) c.
Proof. induction l; cbn; congruence. Qed.

Definition copy_body (g : A -> val) (st : list (option val) * Z) (npSeg : Z) (v : list (option A)) : res (list (option val) * Z) :=
  let! b1 := slice_set (fst st) (snd st) (map (fmap g) (take (Z.to_nat npSeg) v)) in
  Ok (b1, (snd st + npSeg)%Z).
Lemma copy_blocks g bs : forall buf off, (0 <= off)%Z -> (Z.to_nat off + length (concat bs) <= length buf)%nat ->
  exists b1, fold_blocks (copy_body g) (buf, off) bs = Ok (b1, (off + Z.of_nat (length (concat bs)))%Z) /\
    length b1 = length buf /\
    take (Z.to_nat off + length (concat bs)) b1 = take (Z.to_nat off) buf ++ map (fmap g) (concat bs).
Proof.
  induction bs as [|b bs IH]; intros buf off H0 H; cbn [fold_blocks concat] in *.
  - exists buf. rewrite Z.add_0_r, Nat.add_0_r, app_nil_r. done.
  - rewrite app_length in H. unfold copy_body at 1. cbn [fst snd]. rewrite Nat2Z.id, firstn_all.
    destruct (slice_set_in buf off (map (fmap g) b)) as (b1 & -> & Hl & Ht); [done|rewrite map_length; lia|].
    rewrite map_length in Ht.
    destruct (IH b1 (off + Z.of_nat (length b))%Z) as (b2 & -> & Hl2 & Ht2); [lia|lia|].
    exists b2. rewrite app_length. split; [do 2 f_equal; lia|]. split; [lia|].
    replace (Z.to_nat (off + Z.of_nat (length b))) with (Z.to_nat off + length b)%nat in Ht2 by lia.
    replace (Z.to_nat off + (length b + length (concat bs)))%nat with (Z.to_nat off + length b + length (concat bs))%nat by lia.
    rewrite Ht2, Ht, map_app. by rewrite app_assoc.
Qed.

Section Proofs.
Hypothesis HL : (1 <= L)%Z.

Lemma set_key_same {V} (f : string -> V) k v : set_key f k v k = v.
Proof. unfold set_key. by rewrite String.eqb_refl. Qed.
Lemma set_key_other {V} (f : string -> V) k v s : s <> k -> set_key f k v s = f s.
Proof. intros H. unfold set_key. by destruct (String.eqb_spec s k). Qed.
Lemma holds_set saps xs sn s1 : Holds saps xs -> Reachable L s1 -> Stores s1 (xs sn) -> Holds (set_key saps sn s1) xs.
Proof.
  intros H H1 H2 s Hs. destruct (decide (s = sn)) as [->|Hn]; [by rewrite set_key_same|].
  rewrite set_key_other by done. by apply H.
Qed.

(** One attribute. *)
Lemma dump_species_ok pA f xs : (f = None /\ pA = "species_index"%string \/
    exists k g, f = Some g /\ pA <> "species_index"%string /\ column pA = Some (k, g)) ->
  forall sps saps buf off, (forall sn, sn ∈ sps -> sn ∈ names) -> Holds saps xs -> (0 <= off)%Z ->
  (Z.to_nat off + list_sum (map (fun sn => length (xs sn)) sps) <= length buf)%nat ->
  exists saps' buf', dump_species sindex f sps saps buf off =
      Ok (saps', buf', (off + Z.of_nat (list_sum (map (fun sn => length (xs sn)) sps)))%Z) /\
    Holds saps' xs /\ length buf' = length buf /\
    take (Z.to_nat off + list_sum (map (fun sn => length (xs sn)) sps)) buf' =
      take (Z.to_nat off) buf ++ concat (map (fun sn => map (fun x => Some (attr_value pA sn x)) (xs sn)) sps).
Proof using HL.
  intros Hf. induction sps as [|sn sps IH]; intros saps buf off Hin HH H0 Hr; cbn [dump_species map list_sum concat] in *.
  { exists saps, buf. cbn. rewrite Z.add_0_r, Nat.add_0_r, app_nil_r. done. }
  change (list_sum (length (xs sn) :: map (fun sn => length (xs sn)) sps)) with
    (length (xs sn) + list_sum (map (fun sn => length (xs sn)) sps))%nat in *.
  set (rest := list_sum (map (fun sn => length (xs sn)) sps)) in *.
  destruct (HH sn) as [HR HS]; [apply Hin; left|]. pose proof HS as [Hc _]. rewrite Hc.
  destruct (_ =? 0)%Z eqn:E0.
  { assert (Hn : xs sn = []) by (destruct (xs sn); [done|cbn in E0; lia]). rewrite Hn in *. cbn [length map app Nat.add].
    apply IH; try done. intros s Hs. apply Hin. by right. }
  assert (Hnext : forall saps1 buf1, Holds saps1 xs -> length buf1 = length buf ->
    take (Z.to_nat off + length (xs sn)) buf1 = take (Z.to_nat off) buf ++ map (fun x => Some (attr_value pA sn x)) (xs sn) ->
    exists saps' buf', dump_species sindex f sps saps1 buf1 (off + Z.of_nat (length (xs sn))) =
      Ok (saps', buf', (off + Z.of_nat (length (xs sn) + rest))%Z) /\
      Holds saps' xs /\ length buf' = length buf /\
      take (Z.to_nat off + (length (xs sn) + rest)) buf' = take (Z.to_nat off) buf ++
        (map (fun x => Some (attr_value pA sn x)) (xs sn) ++ concat (map (fun sn => map (fun x => Some (attr_value pA sn x)) (xs sn)) sps))).
  { intros saps1 buf1 HH1 Hl1 Ht1.
    destruct (IH saps1 buf1 (off + Z.of_nat (length (xs sn)))%Z) as (saps' & buf' & E' & HH' & Hl' & Ht'); [|done|lia|fold rest; lia|].
    { intros s Hs. apply Hin. by right. }
    fold rest in E', Ht'. exists saps', buf'. rewrite E'. split; [do 2 f_equal; lia|]. split; [done|]. split; [lia|].
    replace (Z.to_nat (off + Z.of_nat (length (xs sn)))) with (Z.to_nat off + length (xs sn))%nat in Ht' by lia.
    rewrite Nat.add_assoc, Ht', Ht1. by rewrite app_assoc. }
  destruct Hf as [[-> HpA]|(k & g & -> & HpA & Hcol)].
  - destruct (slice_fill_in buf off (Z.of_nat (length (xs sn))) (Some (VI (sindex sn)))) as [Hl Ht]; [done|lia|].
    apply Hnext; [done|done|]. rewrite Nat2Z.id in Ht. rewrite Ht. f_equal. rewrite <- map_const. apply map_ext.
    intros x. unfold attr_value. by rewrite HpA.
  - destruct (for_out_blocks L HL (saps sn) (xs sn) HR HS) as (s1 & blocks & HR1 & HS1 & Hfo & Hb).
    replace (bool_decide (xs sn <> [])) with true in Hb by (symmetry; apply bool_decide_eq_true; by destruct (xs sn)).
    destruct Hb as [Hb _].
    fold (copy_body g). rewrite Hfo.
    assert (Hlen : length (concat blocks) = length (xs sn)) by (by rewrite Hb, map_length).
    destruct (copy_blocks g blocks buf off H0) as (b1 & -> & Hl & Ht); [lia|].
    rewrite Hlen, Hb in *. apply Hnext; [by apply holds_set|done|]. rewrite Ht. f_equal. rewrite map_map. apply map_ext.
    intros x. unfold attr_value. destruct (String.eqb_spec pA "species_index"); [done|]. by rewrite Hcol.
Qed.

(** All attributes. *)
Lemma dataset_length xs pA : length (dataset xs pA) = population xs.
Proof using.
  unfold dataset, population. clear. induction names as [|sn l IH]; [done|]. cbn.
  rewrite app_length, map_length. by rewrite IH.
Qed.
Lemma dump_attrs_ok xs atts : NoDup atts -> (forall pA, pA ∈ atts -> writable pA) ->
  forall saps buf data, Holds saps xs -> (population xs <= length buf)%nat ->
  (forall pA, pA ∈ atts -> pA ∉ map fst data) ->
  exists saps' buf', dump_attrs names sindex column atts saps buf data =
      Ok (saps', buf', data ++ map (fun pA => (pA, dataset xs pA)) atts) /\
    Holds saps' xs /\ length buf' = length buf.
Proof using HL.
  intros Hnd Hw. induction Hnd as [|pA atts Hnin Hnd IH]; intros saps buf data HH Hb Hd; cbn [dump_attrs map].
  { exists saps, buf. by rewrite app_nil_r. }
  assert (Hex : existsb (fun d : string * list (option val) => String.eqb (fst d) pA) data = false).
  { apply not_true_iff_false. intros He. apply existsb_exists in He as (d & Hd1 & Hd2). apply String.eqb_eq in Hd2.
    apply (Hd pA); [left|]. apply elem_of_list_fmap. exists d. split; [done|]. by apply elem_of_list_In. }
  assert (HF : exists f, (if String.eqb pA "species_index" then Ok None else
       match column pA with None => Raise KeyError | Some (AOther, _) => Raise RuntimeError | Some (_, g) => Ok (Some g) end) = Ok f /\
     (f = None /\ pA = "species_index"%string \/ exists k g, f = Some g /\ pA <> "species_index"%string /\ column pA = Some (k, g))).
  { destruct (String.eqb_spec pA "species_index") as [He|Hne]; [exists None; auto|].
    destruct (Hw pA) as [?|(k & g & Hc & Hk)]; [left|done|]. exists (Some g). rewrite Hc. split; [by destruct k|].
    right. by exists k, g. }
  destruct HF as (f & -> & Hf).
  destruct (dump_species_ok pA f xs Hf names saps buf 0) as (saps1 & buf1 & -> & HH1 & Hl1 & Ht1); [done|done|done|done|].
  change (Z.to_nat 0) with 0%nat in Ht1. rewrite Nat.add_0_l, take_0, app_nil_l in Ht1. rewrite Hex.
  destruct (IH) with (saps := saps1) (buf := buf1) (data := data ++ [(pA, take (Z.to_nat (0 + Z.of_nat (population xs))) buf1)])
    as (saps' & buf' & E' & HH' & Hl'); [intros p Hp; apply Hw; by right|done|lia| |].
  { intros p Hp. rewrite map_app, not_elem_of_app. split; [apply Hd; by right|]. cbn. rewrite elem_of_list_singleton.
    intros ->. done. }
  fold (population xs) in Ht1 |- *. exists saps', buf'. rewrite E'. split; [|split; [done|lia]].
  rewrite <- app_assoc. cbn [app]. do 4 f_equal. f_equal.
  rewrite Z.add_0_l, Nat2Z.id, Ht1. done.
Qed.

Lemma total_count_pop saps xs : Holds saps xs -> total_count names saps = Z.of_nat (population xs).
Proof using.
  unfold total_count, population, Holds. clear.
  assert (H : forall l n, (forall sn, sn ∈ l -> Reachable L (saps sn) /\ Stores (saps sn) (xs sn)) ->
    fold_left (fun n sn => (n + get_number_of_items (saps sn))%Z) l n = (n + Z.of_nat (list_sum (map (fun sn => length (xs sn)) l)))%Z).
  { induction l as [|sn l IH]; intros n H; cbn [fold_left map]; [cbn; lia|]. rewrite IH by (intros s Hs; apply H; by right).
    destruct (H sn) as [_ [-> _]]; [left|]. cbn [list_sum fold_right]. fold (list_sum (map (fun sn => length (xs sn)) l)). lia. }
  intros HH. rewrite H by done. lia.
Qed.
End Proofs.

(** The new buffer is long enough, also when the quotient is rounded. *)
Lemma new_length (n : Z) : Rounding fl -> (1 <= L)%Z -> (0 <= n < 2 ^ 53)%Z ->
  (n < py_int (fl (1 + fl (IZR n / IZR L))) * L)%Z.
Proof.
  intros Hfl HL Hn. assert (HLr : 1 <= IZR L) by (by apply IZR_le).
  assert (Hq : (0 <= n / L <= n)%Z).
  { split; [apply Z.div_pos; lia|]. apply Z.div_le_upper_bound; nia. }
  assert (H1 : IZR (n / L) <= IZR n / IZR L).
  { apply Rmult_le_reg_r with (IZR L); [lra|]. replace (IZR n / IZR L * IZR L) with (IZR n) by (field; lra).
    rewrite <- mult_IZR. apply IZR_le. rewrite Z.mul_comm. apply Z.mul_div_le. lia. }
  assert (H2 : IZR (n / L) <= fl (IZR n / IZR L)) by (apply (rnd_ge Hfl); [lia|done]).
  assert (H3 : IZR (1 + n / L) <= fl (1 + fl (IZR n / IZR L))).
  { apply (rnd_ge Hfl); [lia|]. rewrite plus_IZR. lra. }
  apply Ztrunc_le in H3. rewrite Ztrunc_IZR in H3. unfold py_int.
  pose proof (Z.mul_succ_div_gt n L ltac:(lia)). nia.
Qed.

(** ** C24 *)
Theorem C24_dump_contents xs atts step time close o : (1 <= L)%Z -> Rounding fl ->
  (Z.of_nat (population xs) < 2 ^ 53)%Z -> NoDup atts -> (forall pA, pA ∈ atts -> writable pA) ->
  Holds (o_saps o) xs -> OutOk o -> o_open o = true -> step <> o_last o ->
  exists o', write_particles fl L names sindex column atts step time close o = Ok o' /\
    o_file o' = o_file o ++ [Group (o_counter o) time (map (fun pA => (pA, dataset xs pA)) atts)] /\
    (forall pA, length (dataset xs pA) = population xs) /\
    o_last o' = step /\ o_counter o' = (o_counter o + 1)%Z /\ o_open o' = negb close /\
    Holds (o_saps o') xs /\ OutOk o'.
Proof.
  intros HL Hfl Hpop Hnd Hw HH [Hbuf Hgr] Hop Hst. unfold write_particles.
  replace (step =? o_last o)%Z with false by lia. rewrite Hop. cbn [negb orb].
  assert (Hex : existsb (fun g => g_number g =? o_counter o)%Z (o_file o) = false).
  { apply not_true_iff_false. intros He. apply existsb_exists in He as (g & Hg & He).
    apply elem_of_list_In in Hg. specialize (Hgr g Hg). lia. }
  rewrite Hex, (total_count_pop _ _ HH).
  set (P := (if _ <? _ then _ else _)%Z).
  assert (HP : Z.of_nat (length (snd P)) = fst P /\ (population xs <= length (snd P))%nat).
  { subst P. destruct (_ <? _)%Z eqn:E; cbn [fst snd]; [|split; [done|lia]].
    pose proof (new_length (Z.of_nat (population xs)) Hfl HL ltac:(lia)). rewrite replicate_length. lia. }
  destruct P as [blen buf]. cbn [fst snd] in HP.
  destruct (dump_attrs_ok HL xs atts Hnd Hw (o_saps o) buf [] HH) as (saps' & buf' & -> & HH' & Hl'); [lia|..].
  { intros pA _. apply not_elem_of_nil. }
  eexists. split; [done|]. cbn [o_file o_last o_counter o_open o_saps app].
  split; [done|]. split; [apply dataset_length|]. do 4 (split; [done|]). split; cbn [o_buf o_blen o_file o_counter].
  - lia.
  - intros g [Hg|Hg%elem_of_list_singleton]%elem_of_app; [specialize (Hgr g Hg); lia|]. subst g. cbn. lia.
Qed.

(** Any number of calls, each with the population of its time: the file holds one group for each call whose step
    differs from that of the last write, in order, with its contents. *)
Fixpoint expected (atts : list string) (last counter : Z) (calls : list (Z * R * (string -> list A))) : list group :=
  match calls with
  | [] => []
  | (step, time, xs) :: r =>
    if (step =? last)%Z then expected atts last counter r
    else Group counter time (map (fun pA => (pA, dataset xs pA)) atts) :: expected atts step (counter + 1) r
  end.
Definition with_saps (o : outst A) (saps : string -> sap A) : outst A :=
  OutSt saps (o_blen o) (o_buf o) (o_counter o) (o_last o) (o_file o) (o_open o).
(** The calls made by the program: before each one the containers are those of that time. *)
Fixpoint dump_calls (atts : list string) (calls : list (Z * R * (string -> sap A))) (o : outst A) : res (outst A) :=
  match calls with
  | [] => Ok o
  | (step, time, saps) :: r =>
    let! o1 := write_particles fl L names sindex column atts step time false (with_saps o saps) in
    dump_calls atts r o1
  end.
Definition call_ok (c : Z * R * (string -> sap A)) (d : Z * R * (string -> list A)) : Prop :=
  fst c = fst d /\ Holds (snd c) (snd d) /\ (Z.of_nat (population (snd d)) < 2 ^ 53)%Z.
Lemma dump_calls_gen atts : (1 <= L)%Z -> Rounding fl -> NoDup atts -> (forall pA, pA ∈ atts -> writable pA) ->
  forall calls pops o, Forall2 call_ok calls pops -> OutOk o -> o_open o = true ->
  exists o', dump_calls atts calls o = Ok o' /\ OutOk o' /\ o_open o' = true /\
    o_file o' = o_file o ++ expected atts (o_last o) (o_counter o) pops.
Proof.
  intros HL Hfl Hnd Hw calls pops o HF. revert o.
  induction HF as [|[[step time] saps] [[step' time'] xs] calls pops (Hc & HH & Hp) HF IH]; intros o HO Hop; cbn [dump_calls expected].
  { exists o. by rewrite app_nil_r. }
  cbn in Hc, HH, Hp. injection Hc as <- <-.
  destruct (decide (step = o_last o)) as [->|Hne].
  - unfold write_particles. cbn [with_saps o_last]. rewrite Z.eqb_refl.
    exact (IH (with_saps o saps) HO Hop).
  - destruct (C24_dump_contents xs atts step time false (with_saps o saps)) as (o1 & -> & Hf1 & _ & Hl1 & Hc1 & Hop1 & _ & HO1); try done.
    replace (step =? o_last o)%Z with false by lia.
    destruct (IH o1 HO1 Hop1) as (o' & -> & HO' & Hop' & Hf'). exists o'. split; [done|]. split; [done|]. split; [done|].
    rewrite Hf', Hf1, Hl1, Hc1. cbn [with_saps o_file o_counter]. by rewrite <- app_assoc.
Qed.
Theorem C24_file_history atts saps0 calls pops : (1 <= L)%Z -> Rounding fl -> NoDup atts ->
  (forall pA, pA ∈ atts -> writable pA) -> Forall2 call_ok calls pops ->
  exists o', dump_calls atts calls (open_file (out_init L names saps0)) = Ok o' /\
    o_file o' = expected atts (-1) 0 pops.
Proof.
  intros HL Hfl Hnd Hw HF.
  destruct (dump_calls_gen atts HL Hfl Hnd Hw calls pops (open_file (out_init L names saps0)) HF) as (o' & E & _ & _ & Hf); [|done|].
  { split; cbn; [rewrite replicate_length; nia|]. by intros g ?%elem_of_nil. }
  by exists o'.
Qed.

(** ** C43 *)

(** The writes of a run (examples/sphere1D/sphere1D.py lines 1200-1201, 1298-1300 and 1387-1390): possibly one before the
    loop, one at every multiple of the interval, and the last one with [close_flag=True].  [pop k] are the containers
    at step [k]. *)
Fixpoint loop_writes (atts : list string) (dt : R) (interval : Z) (pop : Z -> string -> sap A) (fuel : nat) (k : Z) (o : outst A)
    : res (outst A) :=
  match fuel with
  | O => Ok o
  | S f =>
    let k1 := (k + 1)%Z in
    let! o1 := (if (k1 mod interval =? 0)%Z
                then write_particles fl L names sindex column atts k1 (IZR k1 * dt) false (with_saps o (pop k1))
                else Ok o) in
    loop_writes atts dt interval pop f k1 o1
  end.
Definition run_writes (atts : list string) (dt : R) (interval : Z) (pop : Z -> string -> sap A) (initial : bool) (n : nat)
    (o : outst A) : res (outst A) :=
  let! o1 := (if initial then write_particles fl L names sindex column atts 0 0 false (with_saps o (pop 0%Z)) else Ok o) in
  let! o2 := loop_writes atts dt interval pop n 0 o1 in
  write_particles fl L names sindex column atts (Z.of_nat n) (IZR (Z.of_nat n) * dt) true (with_saps o2 (pop (Z.of_nat n))).

Lemma loop_writes_ok atts dt interval pop xs : (1 <= L)%Z -> Rounding fl -> NoDup atts -> (forall pA, pA ∈ atts -> writable pA) ->
  (1 <= interval)%Z ->
  (forall k, Holds (pop k) (xs k) /\ (Z.of_nat (population (xs k)) < 2 ^ 53)%Z) ->
  forall fuel k o, (0 <= k)%Z -> OutOk o -> o_open o = true -> (o_last o <= k)%Z ->
  exists o', loop_writes atts dt interval pop fuel k o = Ok o' /\ OutOk o' /\ o_open o' = true /\
    (o_last o' = if (k / interval =? (k + Z.of_nat fuel) / interval)%Z then o_last o
                 else ((k + Z.of_nat fuel) / interval * interval)%Z).
Proof.
  intros HL Hfl Hnd Hw Hi HP. induction fuel as [|f IH]; intros k o Hk HO Hop Hlast; cbn [loop_writes].
  { exists o. rewrite Z.add_0_r, Z.eqb_refl. done. }
  assert (Hdm : (k + 1 = interval * ((k + 1) / interval) + (k + 1) mod interval)%Z) by (apply Z_div_mod_eq_full).
  assert (Hdk : (k = interval * (k / interval) + k mod interval)%Z) by (apply Z_div_mod_eq_full).
  pose proof (Z.mod_pos_bound k interval ltac:(lia)). pose proof (Z.mod_pos_bound (k + 1) interval ltac:(lia)).
  replace (k + Z.of_nat (S f))%Z with (k + 1 + Z.of_nat f)%Z by lia.
  assert (Hmono : ((k + 1) / interval <= (k + 1 + Z.of_nat f) / interval)%Z) by (apply Z.div_le_mono; lia).
  destruct ((k + 1) mod interval =? 0)%Z eqn:Em.
  - destruct (HP (k + 1)%Z) as [HH Hp].
    destruct (C24_dump_contents (xs (k + 1)%Z) atts (k + 1) (IZR (k + 1) * dt) false (with_saps o (pop (k + 1)%Z)))
      as (o1 & -> & _ & _ & Hl1 & _ & Hop1 & _ & HO1); try done; [cbn; lia|].
    destruct (IH (k + 1)%Z o1) as (o' & -> & HO' & Hop' & Hl'); [lia|done|done|lia|].
    exists o'. split; [done|]. split; [done|]. split; [done|]. rewrite Hl', Hl1.
    assert (Hk1 : ((k + 1) / interval = k / interval + 1)%Z) by nia.
    replace (k / interval =? (k + 1 + Z.of_nat f) / interval)%Z with false by lia.
    destruct ((k + 1) / interval =? (k + 1 + Z.of_nat f) / interval)%Z eqn:Ee; [|reflexivity].
    apply Z.eqb_eq in Ee. rewrite <- Ee. lia.
  - destruct (IH (k + 1)%Z o) as (o' & -> & HO' & Hop' & Hl'); [lia|done|done|lia|].
    exists o'. split; [done|]. split; [done|]. split; [done|]. rewrite Hl'.
    assert (Hk1 : ((k + 1) / interval = k / interval)%Z) by nia. by rewrite Hk1.
Qed.

(** C43.  At the end of a run the output file is still open exactly when the last step was already written in the loop,
    or when there was no step and the initial particles were written; only otherwise is it closed. *)
Theorem C43_file_closed_only_if atts dt interval pop xs initial n saps0 : (1 <= L)%Z -> Rounding fl -> NoDup atts ->
  (forall pA, pA ∈ atts -> writable pA) -> (1 <= interval)%Z ->
  (forall k, Holds (pop k) (xs k) /\ (Z.of_nat (population (xs k)) < 2 ^ 53)%Z) ->
  exists o', run_writes atts dt interval pop initial n (open_file (out_init L names saps0)) = Ok o' /\
    (o_open o' = true <-> (Z.of_nat n mod interval = 0 /\ (0 < Z.of_nat n \/ initial = true))%Z).
Proof.
  intros HL Hfl Hnd Hw Hi HP. unfold run_writes.
  set (o0 := open_file _).
  assert (HO0 : OutOk o0) by (split; cbn; [rewrite replicate_length; nia|]; by intros g ?%elem_of_nil).
  assert (H1 : exists o1, (if initial then write_particles fl L names sindex column atts 0 0 false (with_saps o0 (pop 0%Z)) else Ok o0) = Ok o1 /\
    OutOk o1 /\ o_open o1 = true /\ o_last o1 = (if initial then 0 else -1)%Z).
  { destruct initial; [|by exists o0]. destruct (HP 0%Z) as [HH Hp].
    destruct (C24_dump_contents (xs 0%Z) atts 0 0 false (with_saps o0 (pop 0%Z))) as (o1 & -> & _ & _ & Hl1 & _ & Hop1 & _ & HO1); try done.
    by exists o1. }
  destruct H1 as (o1 & -> & HO1 & Hop1 & Hl1).
  destruct (loop_writes_ok atts dt interval pop xs HL Hfl Hnd Hw Hi HP n 0 o1) as (o2 & -> & HO2 & Hop2 & Hl2); [lia|done|done| |].
  { rewrite Hl1. by destruct initial. }
  rewrite Z.div_0_l, Z.add_0_l in Hl2 by lia.
  assert (Hdm : (Z.of_nat n = interval * (Z.of_nat n / interval) + Z.of_nat n mod interval)%Z) by (apply Z_div_mod_eq_full).
  pose proof (Z.mod_pos_bound (Z.of_nat n) interval ltac:(lia)).
  destruct (decide (Z.of_nat n = o_last o2)) as [He|Hne].
  - exists (with_saps o2 (pop (Z.of_nat n))). split.
    { unfold write_particles. cbn [with_saps o_last]. by replace (Z.of_nat n =? o_last o2)%Z with true by lia. }
    split; [intros _|done]. destruct (0 =? Z.of_nat n / interval)%Z eqn:Eq; [|split; [nia|left; nia]].
    rewrite Hl1 in Hl2. destruct initial; [|lia]. split; [|by right]. nia.
  - destruct (HP (Z.of_nat n)) as [HH Hp].
    destruct (C24_dump_contents (xs (Z.of_nat n)) atts (Z.of_nat n) (IZR (Z.of_nat n) * dt) true (with_saps o2 (pop (Z.of_nat n))))
      as (o3 & -> & _ & _ & _ & _ & Hop3 & _); try done.
    exists o3. split; [done|]. rewrite Hop3. split; [done|]. intros [Hm Hor]. exfalso. apply Hne. rewrite Hl2.
    destruct (0 =? Z.of_nat n / interval)%Z eqn:Eq; [|nia]. destruct Hor as [Hn|Hn]; [nia|]. rewrite Hl1, Hn. nia.
Qed.
End Dump.

(** ** Examples: species "e" went through two passes (the state of C05), "He" has two particles, "n" none; segments of
    two.  The first buffer has six slots, one more than there are particles; with only "e" and "He" it has four, and
    has to grow. *)
Definition ex_saps (sn : string) : sap Z :=
  if String.eqb sn "e" then demo_state
  else if String.eqb sn "He" then snd (run py_step (sap_init 2) [Push 1%Z; Push 2%Z]) else sap_init 2.
Definition ex_xs (sn : string) : list Z :=
  if String.eqb sn "e" then [5; 8; 101]%Z else if String.eqb sn "He" then [1; 2]%Z else [].
Definition ex_column (pA : string) : option (akind * (Z -> val)) :=
  if String.eqb pA "x" then Some (AInt, VI) else if String.eqb pA "y" then Some (AFloat, fun z => VF (IZR z / 2)) else None.
Definition ex_index (sn : string) : Z := if String.eqb sn "e" then 1%Z else if String.eqb sn "He" then 2%Z else 3%Z.
Lemma ex_holds names : Holds 2 names ex_saps ex_xs.
Proof.
  intros sn _. unfold ex_saps, ex_xs. destruct (String.eqb sn "e"); [exact demo_reachable|].
  destruct (String.eqb sn "He").
  - split.
    + apply (run_reach 2 [Push 1%Z; Push 2%Z] (sap_init 2) [OPos 0 0; OPos 1 1]); [constructor|]. vm_compute. reflexivity.
    + split; [vm_compute; reflexivity|]. intros k x Hk.
      destruct k as [|[|k]]; cbn in Hk; simplify_eq; vm_compute; reflexivity.
  - split; [constructor|]. split; [reflexivity|]. intros k x Hk. by rewrite lookup_nil in Hk.
Qed.
Lemma ex_writable pA : pA ∈ ["x"; "species_index"; "y"]%string -> writable ex_column pA.
Proof.
  intros H. repeat (apply elem_of_cons in H as [->|H]); [| | |by apply elem_of_nil in H].
  - right. by exists AInt, VI.
  - by left.
  - right. by exists AFloat, (fun z => VF (IZR z / 2)).
Qed.

Example C24_example : exists o', write_particles b64 2 ["e"; "He"]%string ex_index ex_column ["x"; "species_index"; "y"]%string 7 (7/2) false
    (open_file (out_init 2 ["e"; "He"]%string ex_saps)) = Ok o' /\
  o_file o' = [Group 0 (7/2) [("x", map (fun z => Some (VI z)) [5; 8; 101; 1; 2]%Z);
                              ("species_index", map (fun z => Some (VI z)) [1; 1; 1; 2; 2]%Z);
                              ("y", map (fun z => Some (VF (IZR z / 2))) [5; 8; 101; 1; 2]%Z)]%string] /\
  o_open o' = true.
Proof.
  destruct (C24_dump_contents b64 2 ["e"; "He"]%string ex_index ex_column ex_xs ["x"; "species_index"; "y"]%string 7 (7/2) false
    (open_file (out_init 2 ["e"; "He"]%string ex_saps))) as (o' & E & F & _ & _ & _ & O & _).
  - lia.
  - exact b64_rounding.
  - vm_compute. reflexivity.
  - apply (bool_decide_unpack _). vm_compute. exact I.
  - exact ex_writable.
  - exact (ex_holds _).
  - split; [reflexivity|]. cbn. by intros g ?%elem_of_nil.
  - reflexivity.
  - cbn. lia.
  - exists o'. split; [exact E|]. split; [|exact O]. exact F.
Qed.

Example C24_example_history : exists o',
  dump_calls b64 2 ["e"; "He"; "n"]%string ex_index ex_column ["x"]%string
    [(0%Z, 0, ex_saps); (0%Z, 0, ex_saps); (3%Z, 1, fun _ => sap_init 2); (6%Z, 2, ex_saps)]
    (open_file (out_init 2 ["e"; "He"; "n"]%string ex_saps)) = Ok o' /\
  o_file o' = [Group 0 0 [("x"%string, map (fun z => Some (VI z)) [5; 8; 101; 1; 2]%Z)];
               Group 1 1 [("x"%string, [])];
               Group 2 2 [("x"%string, map (fun z => Some (VI z)) [5; 8; 101; 1; 2]%Z)]].
Proof.
  assert (H0 : call_ok 2 ["e"; "He"; "n"]%string (3%Z, 1, fun _ => sap_init 2) (3%Z, 1, fun _ => [] : list Z)).
  { split; [reflexivity|]. split; [|reflexivity]. intros sn _. split; [constructor|]. split; [reflexivity|].
    intros k x Hk. cbn in Hk. by rewrite lookup_nil in Hk. }
  assert (H1 : forall t, call_ok 2 ["e"; "He"; "n"]%string (t, ex_saps) (t, ex_xs)).
  { intros t. split; [reflexivity|]. split; [exact (ex_holds _)|]. vm_compute. reflexivity. }
  destruct (C24_file_history b64 2 ["e"; "He"; "n"]%string ex_index ex_column ["x"]%string ex_saps
    [(0%Z, 0, ex_saps); (0%Z, 0, ex_saps); (3%Z, 1, fun _ => sap_init 2); (6%Z, 2, ex_saps)]
    [(0%Z, 0, ex_xs); (0%Z, 0, ex_xs); (3%Z, 1, fun _ => []); (6%Z, 2, ex_xs)]) as (o' & E & F).
  - lia.
  - exact b64_rounding.
  - apply (bool_decide_unpack _). vm_compute. exact I.
  - intros pA ->%elem_of_list_singleton. apply ex_writable. left.
  - constructor; [apply H1|]. constructor; [apply H1|]. constructor; [exact H0|]. constructor; [apply H1|]. constructor.
  - exists o'. split; [exact E|exact F].
Qed.

(** Four steps with a write every second step leave the file open; five steps close it. *)
Example C43_example n : (n = 4)%nat \/ (n = 5)%nat -> exists o',
  run_writes b64 2 ["e"; "He"]%string ex_index ex_column ["x"]%string 0.1 2 (fun _ => ex_saps) true n
    (open_file (out_init 2 ["e"; "He"]%string ex_saps)) = Ok o' /\ (o_open o' = true <-> n = 4%nat).
Proof.
  intros Hn.
  destruct (C43_file_closed_only_if b64 2 ["e"; "He"]%string ex_index ex_column ["x"]%string 0.1 2 (fun _ => ex_saps) (fun _ => ex_xs) true n ex_saps)
    as (o' & E & F).
  - lia.
  - exact b64_rounding.
  - apply (bool_decide_unpack _). vm_compute. exact I.
  - intros pA ->%elem_of_list_singleton. apply ex_writable. left.
  - lia.
  - intros k. split; [exact (ex_holds _)|]. vm_compute. reflexivity.
  - exists o'. split; [exact E|]. rewrite F. destruct Hn as [-> | ->]; cbn; split; intros H; try reflexivity; try (split; [reflexivity|lia]).
    destruct H as [H _]. discriminate H. discriminate H.
Qed.

Print Assumptions C24_dump_contents.
Print Assumptions C24_file_history.
Print Assumptions C43_file_closed_only_if.
