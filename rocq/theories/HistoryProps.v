(** C25, C26 and C45: room for the samples of a run, and the contents of the history array. *)
From Flocq Require Import Core.
From stdpp Require Import strings list_numbers.
From Verif Require Import SapModel MoverModel SapProofs SapSpec SapRefine StorageProps.
From Verif Require Import Vec VecProofs Rounding TrackModel DiagModel DiagProofs DumpProps SumProps.
From Verif Require Import TrajModel TrajProofs TrajProps TrajRecProps.
Local Open Scope R_scope.

(** ** The sampled steps *)

(** Steps 0, skip, 2 skip, ... up to [n]. *)
Definition periodic (skip : Z) (n : nat) : list Z :=
  map (fun j => Z.of_nat j * skip)%Z (seq 0 (S (Z.to_nat (Z.of_nat n / skip)))).

Fixpoint calls {St} (f : Z -> St -> res St) (ks : list Z) (st : St) : res St :=
  match ks with [] => Ok st | k :: r => let! st1 := f k st in calls f r st1 end.
Lemma calls_app {St} (f : Z -> St -> res St) a : forall b st, calls f (a ++ b) st = let! st1 := calls f a st in calls f b st1.
Proof. induction a as [|k a IH]; intros b st; cbn; [done|]. destruct (f k st); [|done]. apply IH. Qed.

Lemma sample_loop_gen {St} (f : Z -> St -> res St) skip : (1 <= skip)%Z -> forall n k st, (0 <= k)%Z ->
  sample_loop skip f n k st = calls f (map (fun j => Z.of_nat j * skip)%Z
    (seq (Z.to_nat (k / skip + 1)) (Z.to_nat ((k + Z.of_nat n) / skip - k / skip)))) st.
Proof.
  intros Hs. induction n as [|n IH]; intros k st Hk; cbn [sample_loop].
  { rewrite Z.add_0_r, Z.sub_diag. done. }
  assert (Hdm : (k + 1 = skip * ((k + 1) / skip) + (k + 1) mod skip)%Z) by (apply Z_div_mod_eq_full).
  assert (Hdk : (k = skip * (k / skip) + k mod skip)%Z) by (apply Z_div_mod_eq_full).
  pose proof (Z.mod_pos_bound k skip ltac:(lia)). pose proof (Z.mod_pos_bound (k + 1) skip ltac:(lia)).
  assert (Hq0 : (0 <= k / skip)%Z) by (apply Z.div_pos; lia).
  replace (k + Z.of_nat (S n))%Z with (k + 1 + Z.of_nat n)%Z by lia.
  assert (Hmono : ((k + 1) / skip <= (k + 1 + Z.of_nat n) / skip)%Z) by (apply Z.div_le_mono; lia).
  set (q := ((k + 1 + Z.of_nat n) / skip)%Z) in *.
  destruct ((k + 1) mod skip =? 0)%Z eqn:Em.
  - assert (Hk1 : ((k + 1) / skip = k / skip + 1)%Z) by nia.
    replace (Z.to_nat (q - k / skip)) with (S (Z.to_nat (q - (k + 1) / skip))) by lia.
    cbn [seq map calls]. replace (Z.of_nat (Z.to_nat (k / skip + 1)) * skip)%Z with (k + 1)%Z by nia.
    destruct (f (k + 1)%Z st) as [st1|]; [|done]. rewrite IH by lia. fold q.
    replace (Z.to_nat ((k + 1) / skip + 1)) with (S (Z.to_nat (k / skip + 1))) by lia. done.
  - assert (Hk1 : ((k + 1) / skip = k / skip)%Z) by nia. rewrite IH by lia. fold q. by rewrite Hk1.
Qed.
(** A first call and the loop are calls at the periodic steps. *)
Lemma sample_loop_periodic {St} (f : Z -> St -> res St) skip n st : (1 <= skip)%Z ->
  (let! st0 := f 0%Z st in sample_loop skip f n 0 st0) = calls f (periodic skip n) st.
Proof.
  intros Hs. unfold periodic. cbn [seq map calls]. change (Z.of_nat 0 * skip)%Z with 0%Z. destruct (f 0%Z st) as [st0|]; [|done].
  rewrite sample_loop_gen by lia. rewrite Z.div_0_l, !Z.add_0_l, Z.sub_0_r by lia. reflexivity.
Qed.
Lemma periodic_length skip n : (1 <= skip)%Z -> Z.of_nat (length (periodic skip n)) = (Z.of_nat n / skip + 1)%Z.
Proof. intros Hs. unfold periodic. rewrite map_length, seq_length. pose proof (Z.div_pos (Z.of_nat n) skip). lia. Qed.
Lemma periodic_lookup skip n j : (j <= Z.to_nat (Z.of_nat n / skip))%nat -> periodic skip n !! j = Some (Z.of_nat j * skip)%Z.
Proof. intros H. unfold periodic. rewrite list_lookup_fmap, lookup_seq_lt by lia. reflexivity. Qed.

(** ** C25: histories *)

(** The allocated length covers the periodic samples, also when the quotient is rounded. *)
Lemma points_enough (fl : R -> R) (n skip : Z) : Rounding fl -> (1 <= skip)%Z -> (0 <= n < 2 ^ 53)%Z ->
  (n / skip + 1 <= py_int (fl (fl (IZR n / IZR skip)%R + 1)%R))%Z.
Proof.
  intros Hfl Hs Hn. assert (Hr : 1 <= IZR skip) by (by apply IZR_le).
  assert (Hq : (0 <= n / skip <= n)%Z) by (split; [apply Z.div_pos; lia|apply Z.div_le_upper_bound; nia]).
  assert (H1 : IZR (n / skip) <= IZR n / IZR skip).
  { apply Rmult_le_reg_r with (IZR skip); [lra|]. replace (IZR n / IZR skip * IZR skip) with (IZR n) by (field; lra).
    rewrite <- mult_IZR. apply IZR_le. rewrite Z.mul_comm. apply Z.mul_div_le. lia. }
  assert (H2 : IZR (n / skip) <= fl (IZR n / IZR skip)) by (apply (rnd_ge Hfl); [lia|done]).
  assert (H3 : IZR (n / skip + 1) <= fl (fl (IZR n / IZR skip) + 1)).
  { apply (rnd_ge Hfl); [lia|]. rewrite plus_IZR. lra. }
  apply Ztrunc_le in H3. rewrite Ztrunc_IZR in H3. exact H3.
Qed.

Section Room.
Context {W : Type} (fl st : R -> R) (names : list string).
Context (number : W -> string -> res (W * R)) (values : list (W -> string -> res (W * R))).
Context (pop : Z -> W) (time : Z -> R) (vs : Z -> list (R * list (R * R))).
Context (Hvs : forall k, exists w', record_values fl st names number values (pop k) = Ok (w', vs k)).

Lemma record_history_ok k h : (0 <= h_counter h < Z.of_nat (length (h_rows h)))%Z ->
  exists w', record_history fl st names number values k (time k) (pop k) h =
    Ok (w', Hist (h_npoints h) (h_counter h + 1) (<[Z.to_nat (h_counter h) := Some (HRow k (st (time k)) (vs k))]> (h_rows h))).
Proof using Hvs.
  intros Hc. destruct (Hvs k) as [w' Ev]. exists w'. unfold record_history.
  assert (Hset : forall x, py_set (h_rows h) (h_counter h) x = Ok (<[Z.to_nat (h_counter h) := x]> (h_rows h))).
  { intros x. unfold py_set, py_pos. by replace ((0 <=? h_counter h) && (h_counter h <? Z.of_nat (length (h_rows h))))%Z with true by lia. }
  rewrite Hset, Ev, Hset. done.
Qed.
Lemma calls_history ks : forall c rows np, (length rows = c + length ks)%nat \/ (c + length ks <= length rows)%nat ->
  calls (fun k h => let! (_, h1) := record_history fl st names number values k (time k) (pop k) h in Ok h1) ks
    (Hist np (Z.of_nat c) rows) =
  Ok (Hist np (Z.of_nat (c + length ks))
       (take c rows ++ map (fun k => Some (HRow k (st (time k)) (vs k))) ks ++ drop (c + length ks) rows)).
Proof using Hvs.
  induction ks as [|k ks IH]; intros c rows np Hr; cbn [calls length map] in *.
  { rewrite Nat.add_0_r. cbn [app]. by rewrite take_drop. }
  destruct (record_history_ok k (Hist np (Z.of_nat c) rows)) as [w' ->]; [cbn; lia|].
  cbn [h_npoints h_counter h_rows]. rewrite Nat2Z.id. replace (Z.of_nat c + 1)%Z with (Z.of_nat (S c)) by lia.
  rewrite IH by (rewrite insert_length; lia). f_equal. f_equal; [lia|].
  rewrite (drop_insert_gt rows) by lia. replace (S c + length ks)%nat with (c + S (length ks))%nat by lia.
  assert (Ht : take (S c) (<[c:=Some (HRow k (st (time k)) (vs k))]> rows) = take c rows ++ [Some (HRow k (st (time k)) (vs k))]).
  { erewrite take_S_r by (apply list_lookup_insert; lia). by rewrite take_insert by lia. }
  rewrite Ht, <- app_assoc. done.
Qed.
End Room.

(** Sampling at step 0 and at every multiple of [skip] in [n] steps with the allocated number of points: the run does not fail,
    there are n/skip + 1 samples, and row [j] holds step [j * skip] with the time and the values of that step; the rows after
    them are untouched.  (For every arithmetic [fl] of the program, every rounding [st] of the stored values and all history
    functions that return.) *)
Theorem C25_room {W} fl st names (number : W -> string -> res (W * R)) values pop time vs skip n :
  Rounding fl -> (1 <= skip)%Z -> (Z.of_nat n < 2 ^ 53)%Z ->
  (forall k, exists w', record_values fl st names number values (pop k) = Ok (w', vs k)) ->
  let npoints := py_int (fl (fl (IZR (Z.of_nat n) / IZR skip) + 1)) in
  exists h, run_history fl st names number values pop time skip n (hist_new npoints) = Ok h /\
    h_counter h = (Z.of_nat n / skip + 1)%Z /\ (h_counter h <= npoints)%Z /\
    (forall j, (0 <= j <= Z.of_nat n / skip)%Z ->
       h_rows h !! Z.to_nat j = Some (Some (HRow (j * skip) (st (time (j * skip)%Z)) (vs (j * skip)%Z)))) /\
    (forall j, (Z.of_nat n / skip < j < npoints)%Z -> h_rows h !! Z.to_nat j = Some None).
Proof.
  intros Hfl Hs Hn Hvs npoints.
  pose proof (points_enough fl (Z.of_nat n) skip Hfl Hs ltac:(lia)) as Hp. fold npoints in Hp.
  pose proof (periodic_length skip n Hs) as Hl. assert (Hq : (0 <= Z.of_nat n / skip)%Z) by (apply Z.div_pos; lia).
  unfold run_history. rewrite (sample_loop_periodic (fun k h => let! (_, h1) := record_history fl st names number values k (time k) (pop k) h in Ok h1)) by done.
  unfold hist_new. change 0%Z with (Z.of_nat 0) at 1. rewrite (calls_history fl st names number values pop time vs Hvs) by (rewrite replicate_length; lia).
  eexists. split; [reflexivity|]. cbn [h_counter h_rows]. rewrite take_0. cbn [app].
  split; [lia|]. split; [lia|]. split.
  - intros j Hj. rewrite lookup_app_l by (rewrite map_length; lia). rewrite list_lookup_fmap.
    rewrite periodic_lookup by lia. cbn. rewrite Z2Nat.id by lia. reflexivity.
  - intros j Hj. rewrite lookup_app_r by (rewrite map_length; lia). rewrite map_length, lookup_drop, lookup_replicate_2 by lia. reflexivity.
Qed.

(** A history that is set up without [max_points] samples every step, and its array has room for all the samples of the run that it was set up
    for; with [max_points] it cannot be set up. *)
Theorem C25_configured {W} fl st names (number : W -> string -> res (W * R)) values pop time vs n :
  Rounding fl -> (Z.of_nat n < 2 ^ 53)%Z ->
  (forall k, exists w', record_values fl st names number values (pop k) = Ok (w', vs k)) ->
  (exists skip npoints, history_init fl (Z.of_nat n) None = Ok (skip, npoints) /\
     exists h, run_history fl st names number values pop time skip n (hist_new npoints) = Ok h /\ h_counter h = (Z.of_nat n + 1)%Z /\
       forall j, (0 <= j <= Z.of_nat n)%Z -> h_rows h !! Z.to_nat j = Some (Some (HRow j (st (time j)) (vs j)))) /\
  forall mp, history_init fl (Z.of_nat n) (Some mp) = Raise NameError.
Proof.
  intros Hfl Hn Hvs. split; [|reflexivity]. do 2 eexists. split; [reflexivity|].
  destruct (C25_room fl st names number values pop time vs 1 n Hfl ltac:(lia) Hn Hvs) as (h & E & Hc & _ & Hr & _).
  exists h. split; [exact E|]. rewrite Z.div_1_r in Hc, Hr. split; [exact Hc|]. intros j Hj. specialize (Hr j Hj). rewrite Z.mul_1_r in Hr. exact Hr.
Qed.

(** *** The values *)
Section Values.
Context (junk : particle) (nv : nat) (mass : string -> R) (L : Z) (names : list string).

(** Specification: the value of one history for the particles [ps] of a species. *)
Definition hvalue (name sn : string) (ps : list particle) : R :=
  if String.eqb name "count" then IZR (Z.of_nat (length ps)) else kinetic_energy (mass sn) ps.
(** The columns of one history: the sum over species; and for each species its value, and its value divided by the
    number of physical particles if that is more than 1. *)
Definition hcolumns (xs : string -> list particle) (name : string) : R * list (R * R) :=
  (Rsum (map (fun sn => hvalue name sn (xs sn)) names),
   map (fun sn => (hvalue name sn (xs sn), hvalue name sn (xs sn) / Rmax (total_weight (xs sn)) 1)) names).
(** The populations. *)
Definition Populated (saps : string -> sap particle) (xs : string -> list particle) : Prop :=
  forall sn, sn ∈ names -> Counted L (saps sn) (xs sn) /\ forall p, p ∈ xs sn -> length (pu p) = nv.

Context (HL : (1 <= L)%Z).

Lemma populated_set saps xs sn s1 : Populated saps xs -> Counted L s1 (xs sn) -> Populated (set_key saps sn s1) xs.
Proof using.
  intros H H1 s Hs. split; [|by apply H]. destruct (decide (s = sn)) as [->|Hn]; [by rewrite set_key_same|].
  rewrite set_key_other by done. by apply H.
Qed.
Lemma history_function_ok name saps xs sn : Populated saps xs -> sn ∈ names -> (name = "count" \/ name = "KE")%string ->
  exists saps', history_function junk nv mass name saps sn = Ok (saps', hvalue name sn (xs sn)) /\ Populated saps' xs.
Proof using HL.
  intros HP Hsn Hname. destruct (HP sn Hsn) as [HC Hnv]. unfold history_function, hvalue. destruct Hname as [-> | ->].
  - exists saps. split; [|done]. destruct HC as (_ & [-> _] & _). reflexivity.
  - destruct (C44_species_KE junk L HL nv (mass sn) (saps sn) (xs sn) HC Hnv) as (s1 & E & HC1).
    exists (set_key saps sn s1). split; [|by apply populated_set]. cbn [String.eqb]. cbn. by rewrite E.
Qed.
Lemma number_function_ok saps xs sn : Populated saps xs -> sn ∈ names ->
  exists saps', number_function junk saps sn = Ok (saps', total_weight (xs sn)) /\ Populated saps' xs.
Proof using HL.
  intros HP Hsn. destruct (HP sn Hsn) as [HC Hnv]. unfold number_function.
  destruct (C44_species_number junk L HL (saps sn) (xs sn) HC) as (s1 & -> & HC1).
  exists (set_key saps sn s1). split; [reflexivity|]. by apply populated_set.
Qed.
Lemma record_species_ok name xs : (name = "count" \/ name = "KE")%string ->
  forall sps saps acc cols, (forall sn, sn ∈ sps -> sn ∈ names) -> Populated saps xs ->
  exists saps', record_species exact exact (number_function junk) (history_function junk nv mass name) sps saps acc cols =
    Ok (saps', acc + Rsum (map (fun sn => hvalue name sn (xs sn)) sps),
        cols ++ map (fun sn => (hvalue name sn (xs sn), hvalue name sn (xs sn) / Rmax (total_weight (xs sn)) 1)) sps) /\
    Populated saps' xs.
Proof using HL.
  intros Hname. induction sps as [|sn sps IH]; intros saps acc cols Hin HP; cbn [record_species map].
  { exists saps. rewrite Rsum_nil, Rplus_0_r, app_nil_r. by split. }
  destruct (history_function_ok name saps xs sn HP (Hin sn ltac:(left)) Hname) as (s1 & -> & HP1).
  destruct (number_function_ok s1 xs sn HP1 (Hin sn ltac:(left))) as (s2 & -> & HP2).
  destruct (IH s2 (exact (acc + hvalue name sn (xs sn)))
    (cols ++ [(exact (hvalue name sn (xs sn)), exact (exact (hvalue name sn (xs sn) / Rmax (total_weight (xs sn)) 1)))]))
    as (s3 & -> & HP3); [intros s Hs; apply Hin; by right|exact HP2|].
  exists s3. split; [|exact HP3]. rewrite Rsum_cons, <- app_assoc. unfold exact. rewrite Rplus_assoc. reflexivity.
Qed.
Lemma record_values_ok xs hs : (forall name, name ∈ hs -> name = "count" \/ name = "KE")%string ->
  forall saps, Populated saps xs ->
  exists saps', record_values exact exact names (number_function junk) (map (history_function junk nv mass) hs) saps =
    Ok (saps', map (hcolumns xs) hs) /\ Populated saps' xs.
Proof using HL.
  intros Hhs. induction hs as [|name hs IH]; intros saps HP; cbn [record_values map].
  { exists saps. by split. }
  destruct (record_species_ok name xs (Hhs name ltac:(left)) names saps 0 []) as (s1 & -> & HP1); [done|done|].
  destruct (IH) with (saps := s1) as (s2 & -> & HP2); [intros m Hm; apply Hhs; by right|exact HP1|].
  exists s2. split; [|exact HP2]. unfold hcolumns at 2, exact. by rewrite Rplus_0_l.
Qed.
End Values.

(** C25.  In exact arithmetic: the history array after a run of [n] steps.  Row [j] holds step [j * skip], its time, and for every
    requested history the total over all species, the value of every species, and that value divided by the number of
    physical particles (by 1 if there is less than one).  [pop k] are the containers at step [k] and [xs k] the particles in them. *)
Theorem C25_history junk nv mass (L : Z) names hs (pop : Z -> string -> sap particle) (xs : Z -> string -> list particle) time skip n :
  (1 <= L)%Z -> (1 <= skip)%Z -> (Z.of_nat n < 2 ^ 53)%Z ->
  (forall name, name ∈ hs -> name = "count" \/ name = "KE")%string ->
  (forall k, Populated nv L names (pop k) (xs k)) ->
  exists h, run_history exact exact names (number_function junk) (map (history_function junk nv mass) hs) pop time skip n
      (hist_new (py_int (exact (exact (IZR (Z.of_nat n) / IZR skip) + 1)))) = Ok h /\
    h_counter h = (Z.of_nat n / skip + 1)%Z /\
    forall j, (0 <= j <= Z.of_nat n / skip)%Z ->
      h_rows h !! Z.to_nat j = Some (Some (HRow (j * skip) (time (j * skip)%Z) (map (hcolumns mass names (xs (j * skip)%Z)) hs))).
Proof.
  intros HL Hs Hn Hhs HP.
  destruct (C25_room exact exact names (number_function junk) (map (history_function junk nv mass) hs) pop time
    (fun k => map (hcolumns mass names (xs k)) hs) skip n exact_rounding Hs Hn) as (h & E & Hc & _ & Hr & _).
  { intros k. destruct (record_values_ok junk nv mass L names HL (xs k) hs Hhs (pop k) (HP k)) as (w & Ew & _). by exists w. }
  exists h. split; [exact E|]. split; [exact Hc|]. exact Hr.
Qed.

(** Example: seven steps with a sample every third; the electrons of C44 with a heavier ion species of one particle of weight 1/2. *)
Definition hx_saps (k : Z) (sn : string) : sap particle :=
  if String.eqb sn "e" then snd (run py_step (sap_init 2) eg_hist)
  else snd (run py_step (sap_init 2) [Push (sp 0.5 (IZR k) 0)]).
Definition hx_xs (k : Z) (sn : string) : list particle :=
  if String.eqb sn "e" then [sp 2 1 0; sp 4 1 2; sp 1 0 3] else [sp 0.5 (IZR k) 0].
Lemma hx_populated k : Populated 2 2 ["e"; "H"]%string (hx_saps k) (hx_xs k).
Proof.
  intros sn _. unfold hx_saps, hx_xs. destruct (String.eqb sn "e"); split.
  - split; [|split; [split|intros H; discriminate H]].
    + apply (run_reach 2 eg_hist (sap_init 2) [OPos 0 0; OPos 1 1; OPos 0 2; ODone; OPos 0 2]); [constructor|]. cbv -[IZR]. reflexivity.
    + cbv -[IZR]. reflexivity.
    + intros i x Hk. destruct i as [|[|[|i]]]; cbn in Hk; try discriminate Hk; injection Hk as <-; cbv -[IZR]; reflexivity.
  - intros p Hp. repeat (apply elem_of_cons in Hp as [->|Hp]; [reflexivity|]). apply elem_of_nil in Hp. destruct Hp.
  - split; [|split; [split|intros H; discriminate H]].
    + apply (run_reach 2 [Push (sp 0.5 (IZR k) 0)] (sap_init 2) [OPos 0 0]); [constructor|]. cbv -[IZR Q2R]. reflexivity.
    + cbv -[IZR Q2R]. reflexivity.
    + intros i x Hk. destruct i as [|i]; cbn in Hk; try discriminate Hk; injection Hk as <-; cbv -[IZR Q2R]; reflexivity.
  - intros p Hp. repeat (apply elem_of_cons in Hp as [->|Hp]; [reflexivity|]). apply elem_of_nil in Hp. destruct Hp.
Qed.
Example C25_example junk : exists h,
  run_history exact exact ["e"; "H"]%string (number_function junk)
    (map (history_function junk 2 (fun sn => if String.eqb sn "e" then 2 else 8)) ["KE"; "count"]%string) hx_saps (fun k => IZR k / 10) 3 7
    (hist_new (py_int (exact (exact (IZR 7 / IZR 3) + 1)))) = Ok h /\
  h_counter h = 3%Z /\ (exists pad, h_rows h = (map Some
    [HRow 0 (0 / 10) [(31 + 0, [(31, 31 / 7); (0, 0 / 1)]); (4, [(3, 3 / 7); (1, 1 / 1)])];
     HRow 3 (3 / 10) [(31 + 18, [(31, 31 / 7); (18, 18 / 1)]); (4, [(3, 3 / 7); (1, 1 / 1)])];
     HRow 6 (6 / 10) [(31 + 72, [(31, 31 / 7); (72, 72 / 1)]); (4, [(3, 3 / 7); (1, 1 / 1)])]]) ++ pad).
Proof.
  destruct (C25_history junk 2 (fun sn => if String.eqb sn "e" then 2 else 8) 2 ["e"; "H"]%string ["KE"; "count"]%string hx_saps hx_xs
    (fun k => IZR k / 10) 3 7) as (h & E & Hc & Hr).
  - lia.
  - lia.
  - reflexivity.
  - intros m Hm. apply elem_of_cons in Hm as [->|Hm]; [by right|]. apply elem_of_list_singleton in Hm as ->. by left.
  - exact hx_populated.
  - exists h. split; [exact E|]. split; [exact Hc|]. exists (drop 3 (h_rows h)).
    assert (Ht : total_weight [sp 2 1 0; sp 4 1 2; sp 1 0 3] = 7) by (unfold total_weight, Rsum; cbn; lra).
    assert (Hk : kinetic_energy 2 [sp 2 1 0; sp 4 1 2; sp 1 0 3] = 31) by (unfold kinetic_energy, speed2, Rsum; cbn; lra).
    assert (Hti : forall u, total_weight [sp 0.5 u 0] = 0.5) by (intros u; unfold total_weight, Rsum; cbn; lra).
    assert (Hki : forall u, kinetic_energy 8 [sp 0.5 u 0] = 2 * (u * u)) by (intros u; unfold kinetic_energy, speed2, Rsum; cbn; lra).
    assert (Hm7 : Rmax 7 1 = 7) by (apply Rmax_left; lra). assert (Hm1 : Rmax 0.5 1 = 1) by (apply Rmax_right; lra).
    assert (Hrow : forall k, map (hcolumns (fun sn => if String.eqb sn "e" then 2 else 8) ["e"; "H"]%string (hx_xs k)) ["KE"; "count"]%string =
      [(31 + 2 * (IZR k * IZR k), [(31, 31 / 7); (2 * (IZR k * IZR k), 2 * (IZR k * IZR k) / 1)]); (4, [(3, 3 / 7); (1, 1 / 1)])]).
    { intros k. unfold hcolumns, hvalue, hx_xs. cbn [map String.eqb Ascii.eqb Bool.eqb length Z.of_nat Pos.of_succ_nat Pos.succ].
      rewrite Hk, Ht, Hki, Hti, Hm7, Hm1, !Rsum_cons, Rsum_nil, !Rplus_0_r. change (Z.of_nat 3) with 3%Z. change (Z.of_nat 1) with 1%Z. replace (3 + 1) with 4 by lra. reflexivity. }
    pose proof (Hr 0%Z ltac:(cbn; lia)) as H0. pose proof (Hr 1%Z ltac:(cbn; lia)) as H1. pose proof (Hr 2%Z ltac:(cbn; lia)) as H2.
    rewrite Hrow in H0, H1, H2. cbn [Z.mul Pos.mul Z.to_nat Pos.to_nat Pos.iter_op Nat.add] in H0, H1, H2.
    destruct (h_rows h) as [|r0 [|r1 [|r2 rs]]]; try discriminate. cbn in H0, H1, H2.
    injection H0 as ->. injection H1 as ->. injection H2 as ->. cbn [map app drop].
    change (0 * 3)%Z with 0%Z. change (1 * 3)%Z with 3%Z. change (2 * 3)%Z with 6%Z.
    replace (2 * (0 * 0)) with 0 by lra. replace (2 * (3 * 3)) with 18 by lra. replace (2 * (6 * 6)) with 72 by lra. reflexivity.
Qed.

(** ** C26 and C45: trajectories *)

(** The interval and the number of points chosen for [max_points]: at most [max_points] periodic samples (step 0
    included), and room for them and the extra points.  In floating-point arithmetic too. *)
Theorem C26_interval fl (n mp extra : Z) : Rounding fl -> (0 <= n)%Z -> (1 <= mp)%Z -> (0 <= extra)%Z -> (n + 1 + extra < 2 ^ 53)%Z ->
  exists skip npoints, traj_init fl n (Some mp) (Some extra) = Ok (skip, npoints) /\
    (1 <= skip)%Z /\ (n / skip + 1 <= mp)%Z /\ (n / skip + 1 + extra <= npoints)%Z.
Proof.
  intros Hfl Hn Hmp Hx Hb. unfold traj_init. replace (mp =? 0)%Z with false by lia.
  pose proof (points_enough fl n mp Hfl Hmp ltac:(lia)) as Hs. set (skip := py_int _) in *.
  assert (Hq : (0 <= n / mp)%Z) by (apply Z.div_pos; lia).
  assert (Hs1 : (1 <= skip)%Z) by lia. replace (skip =? 0)%Z with false by lia.
  eexists skip, _. split; [reflexivity|]. split; [done|]. split.
  - assert (Hlt : (n < mp * skip)%Z).
    { pose proof (Z.mul_succ_div_gt n mp ltac:(lia)). nia. }
    assert (n / skip < mp)%Z by (apply Z.div_lt_upper_bound; lia). lia.
  - set (q := (n / skip)%Z). assert (Hq2 : (0 <= q <= n)%Z) by (subst q; split; [apply Z.div_pos; lia|apply Z.div_le_upper_bound; nia]).
    assert (Hr : 1 <= IZR skip) by (by apply IZR_le).
    assert (H1 : IZR q <= IZR n / IZR skip).
    { apply Rmult_le_reg_r with (IZR skip); [lra|]. replace (IZR n / IZR skip * IZR skip) with (IZR n) by (field; lra).
      rewrite <- mult_IZR. apply IZR_le. rewrite Z.mul_comm. apply Z.mul_div_le. lia. }
    assert (H2 : IZR q <= fl (IZR n / IZR skip)) by (apply (rnd_ge Hfl); [lia|done]).
    assert (H3 : IZR (q + 1) <= fl (fl (IZR n / IZR skip) + 1)).
    { apply (rnd_ge Hfl); [lia|]. rewrite plus_IZR. lra. }
    assert (H4 : IZR (q + 1 + extra) <= fl (fl (fl (IZR n / IZR skip) + 1) + IZR extra)).
    { apply (rnd_ge Hfl); [lia|]. rewrite plus_IZR. lra. }
    apply Ztrunc_le in H4. rewrite Ztrunc_IZR in H4. exact H4.
Qed.
(** Without [max_points] every step is sampled. *)
Theorem C26_every_step fl (n extra : Z) : Rounding fl -> (0 <= n)%Z -> (0 <= extra)%Z -> (n + 1 + extra < 2 ^ 53)%Z ->
  traj_init fl n None (Some extra) = Ok (1%Z, (n + 1 + extra)%Z).
Proof.
  intros Hfl Hn Hx Hb. unfold traj_init. cbn [Z.eqb]. do 2 f_equal. unfold py_int.
  replace (IZR n / IZR 1) with (IZR n) by (field; lra).
  rewrite (rnd_int fl Hfl n) by lia. rewrite <- plus_IZR, (rnd_int fl Hfl (n + 1)) by lia.
  rewrite <- plus_IZR, (rnd_int fl Hfl) by lia. apply Ztrunc_IZR.
Qed.
(** In exact arithmetic the number of points is not larger than needed. *)
Lemma points_exact (n skip extra : Z) : (0 <= n)%Z -> (1 <= skip)%Z -> (0 <= extra)%Z ->
  py_int (exact (exact (exact (IZR n / IZR skip) + 1) + IZR extra)) = (n / skip + 1 + extra)%Z.
Proof.
  intros Hn Hs Hx. unfold exact, py_int. assert (Hr : 1 <= IZR skip) by (by apply IZR_le).
  assert (Hq0 : (0 <= n / skip)%Z) by (apply Z.div_pos; lia).
  rewrite Ztrunc_floor.
  - apply Zfloor_imp. rewrite !plus_IZR.
    assert (H1 : IZR (n / skip) <= IZR n / IZR skip).
    { apply Rmult_le_reg_r with (IZR skip); [lra|]. replace (IZR n / IZR skip * IZR skip) with (IZR n) by (field; lra).
      rewrite <- mult_IZR. apply IZR_le. rewrite Z.mul_comm. apply Z.mul_div_le. lia. }
    assert (H2 : IZR n / IZR skip < IZR (n / skip) + 1).
    { apply Rmult_lt_reg_r with (IZR skip); [lra|]. replace (IZR n / IZR skip * IZR skip) with (IZR n) by (field; lra).
      rewrite <- plus_IZR, <- mult_IZR. apply IZR_lt. pose proof (Z.mul_succ_div_gt n skip ltac:(lia)). lia. }
    lra.
  - assert (0 <= IZR n) by (by apply IZR_le). assert (0 <= IZR extra) by (by apply IZR_le).
    assert (0 <= IZR n / IZR skip) by (apply Rmult_le_pos; [done|]; left; apply Rinv_0_lt_compat; lra). lra.
Qed.

Example C26_example : exists skip npoints, traj_init b64 1000 (Some 300%Z) (Some 2%Z) = Ok (skip, npoints) /\
  (1000 / skip + 1 <= 300)%Z /\ (1000 / skip + 3 <= npoints)%Z.
Proof.
  destruct (C26_interval b64 1000 300 2 b64_rounding) as (skip & np & E & _ & H1 & H2); [lia..|].
  exists skip, np. split; [exact E|]. lia.
Qed.
Example C26_example_every : traj_init b64 1000 None (Some 2%Z) = Ok (1, 1003)%Z.
Proof. apply (C26_every_step b64 1000 2 b64_rounding); lia. Qed.

Print Assumptions C25_room.
Print Assumptions C25_history.
Print Assumptions C25_configured.
Print Assumptions C26_interval.
Print Assumptions C26_every_step.
