(** C27, C28 and C46: particle sources, unique IDs, and the first point of a new trajectory. *)
From Coq Require Import String Sorted.
From Flocq Require Import Core Relative.
From stdpp Require Import strings list_numbers.
From Verif Require Import SapModel MoverModel SapProofs SapSpec SapRefine StorageProps.
From Verif Require Import Vec VecProofs TrackModel TrajModel TrajProofs TrajProps DiagModel DiagProofs DumpProps SumProps AcceptProps Rounding SourceModel.
Local Open Scope R_scope.

(** ** One firing *)

(** What a source promises about particle number [ip] of cell [c] when the ID counter stands at [uid]; [w] is its weight,
    and [rnd k] are normally distributed numbers. *)
Record Made (fl : R -> R) (rnd : nat -> vec) (drift : vec) (pdim g : nat) (c : srccell) (w : R) (ip : nat) (uid : Z) (p : particle) : Prop := {
  m_cell : pcell p = int32 (c_index c);
  m_weight : pw p = w;
  m_start : px0 p = px p;
  m_cross : pcross p = 0%Z;
  m_uid : puid p = int32 uid;
  m_flag : is_traj p = (uid =? 500)%Z;
  m_alive : is_deleted p = false;
  m_centre : ip = O -> px p = take g (c_mid c) ++ replicate (pdim - g) 0;
  m_inside : ip <> O -> c_in c (px p) = true;
  m_velocity : exists k, pu p = vadd fl (rnd k) drift
}.

Lemma add_particle_push first sn step time E Ex s T p s' T' :
  add_particle first sn step time E Ex s T p = Ok (s', T') -> exists o i, push_back s p = Ok (s', (o, i)).
Proof.
  unfold add_particle. intros H. destruct (push_back s p) as [[s1 [o i]]|] eqn:Ep; [|discriminate]. exists o, i.
  destruct (is_traj p); [|injection H as <- <-; reflexivity].
  destruct T as [T|]; [|injection H as <- <-; reflexivity].
  destruct first; [|injection H as <- <-; reflexivity].
  destruct (current_out_item s1 o) as [[q|]|]; [|discriminate..].
  destruct (record_datum _ _ _ _ _ _ _ _ _); [|discriminate]. injection H as <- <-. reflexivity.
Qed.
Lemma pushed L s (xs : list particle) p s' o i : (1 <= L)%Z -> Reachable L s -> Stores s xs ->
  push_back s p = Ok (s', (o, i)) -> Reachable L s' /\ Stores s' (xs ++ [p]).
Proof.
  intros HL HR HS E. split.
  - eapply (r_op L s (SapSpec.Push p)); [exact HR|]. unfold py_step. rewrite E. reflexivity.
  - destruct (C06_push_or_assert L s xs p HL HR HS) as [(s2 & E2 & HS2)|[E2 _]]; [|congruence].
    rewrite E in E2. injection E2 as <- _ _. exact HS2.
Qed.

Section Firing.
Context (fl : R -> R) (pdim : nat) (rnd : nat -> vec) (fuel : nat) (dE : nat) (negE Eext : option (particle -> vec)).
Context (L : Z) (HL : (1 <= L)%Z).

Lemma coords_ok g x y : coords pdim g x = Ok y -> y = take g x ++ replicate (pdim - g) 0.
Proof using. unfold coords. destruct (_ <? _)%nat; [discriminate|]. intros [= <-]. reflexivity. Qed.
Lemma random_point_in n g c : forall k x k', random_point fl pdim rnd n g c k = Ok (x, k') -> c_in c x = true.
Proof using.
  induction n as [|n IH]; intros k x k' E; cbn in E; [discriminate|].
  destruct (coords pdim g _) as [y|]; [|discriminate]. destruct (c_in c y) eqn:Ec; [|by eapply IH].
  injection E as <- <-. exact Ec.
Qed.

Lemma new_particle_made sn step time g drift c w ip st st' xs :
  Reachable L (ss_saps st sn) -> Stores (ss_saps st sn) xs ->
  new_particle fl pdim rnd fuel dE negE Eext sn step time g drift c w ip st = Ok st' ->
  exists p, Made fl rnd drift pdim g c w ip (ss_uid st) p /\ Reachable L (ss_saps st' sn) /\ Stores (ss_saps st' sn) (xs ++ [p]) /\
    (forall s, s <> sn -> ss_saps st' s = ss_saps st s) /\ ss_uid st' = (ss_uid st + 1)%Z.
Proof using HL.
  intros HR HS E. unfold new_particle in E.
  destruct (match ip with O => _ | S _ => _ end) as [[x k]|] eqn:Ex; [|discriminate].
  destruct (negb _); [discriminate|].
  set (p := Particle x x _ w _ _ _ 0) in E.
  destruct (add_particle _ _ _ _ _ _ _ _ _) as [[s1 T1]|] eqn:Ea; [|discriminate]. injection E as <-.
  apply add_particle_push in Ea as (o & i & Ep). destruct (pushed L _ _ _ _ _ _ HL HR HS Ep) as [HR1 HS1].
  exists p. cbn [ss_saps ss_uid]. rewrite set_key_same. split; [|split; [exact HR1|split; [exact HS1|split; [|reflexivity]]]].
  - split; try reflexivity; subst p.
    + unfold is_traj. cbn [pbits]. destruct (_ =? 500)%Z; reflexivity.
    + unfold is_deleted. cbn [pbits]. destruct (_ =? 500)%Z; reflexivity.
    + intros ->. cbn [px]. destruct (coords _ _ _) as [y|] eqn:Ey; [|discriminate]. injection Ex as <- _. by apply coords_ok.
    + intros Hip. destruct ip; [done|]. by apply random_point_in in Ex.
    + by exists k.
  - intros s Hs. by apply set_key_other.
Qed.

(** Particle number [j] of the list [new] is the one for [ip = nth j ips]. *)
Lemma new_particles_made sn step time g drift c w ips : forall st st' xs,
  Reachable L (ss_saps st sn) -> Stores (ss_saps st sn) xs ->
  new_particles fl pdim rnd fuel dE negE Eext sn step time g drift c w ips st = Ok st' ->
  exists new, Reachable L (ss_saps st' sn) /\ Stores (ss_saps st' sn) (xs ++ new) /\
    (forall s, s <> sn -> ss_saps st' s = ss_saps st s) /\ ss_uid st' = (ss_uid st + Z.of_nat (length new))%Z /\
    length new = length ips /\
    forall j ip p, ips !! j = Some ip -> new !! j = Some p -> Made fl rnd drift pdim g c w ip (ss_uid st + Z.of_nat j) p.
Proof using HL.
  induction ips as [|ip ips IH]; intros st st' xs HR HS E; cbn [new_particles] in E.
  - injection E as <-. exists []. rewrite app_nil_r. cbn. split; [exact HR|]. split; [exact HS|]. split; [reflexivity|].
    split; [lia|]. split; [reflexivity|]. intros j ip p Hj. discriminate.
  - destruct (new_particle _ _ _ _ _ _ _ _ _ _ _ _ _ _ _ _) as [st1|] eqn:E1; [|discriminate].
    destruct (new_particle_made _ _ _ _ _ _ _ _ _ _ _ HR HS E1) as (p & HM & HR1 & HS1 & Ho & Hu).
    destruct (IH st1 st' (xs ++ [p]) HR1 HS1 E) as (new & HR2 & HS2 & Ho2 & Hu2 & Hl & Hm).
    exists (p :: new). rewrite <- app_assoc in HS2. split; [exact HR2|]. split; [exact HS2|].
    split; [intros s Hs; by rewrite Ho2, Ho|]. split; [cbn [length]; lia|]. split; [cbn [length]; lia|].
    intros [|j] ip' p' Hi Hp; cbn in Hi, Hp.
    + injection Hi as <-. injection Hp as <-. by rewrite Z.add_0_r.
    + specialize (Hm j ip' p' Hi Hp). rewrite Hu in Hm. by replace (ss_uid st + Z.of_nat (S j))%Z with (ss_uid st + 1 + Z.of_nat j)%Z by lia.
Qed.

Lemma new_cells_made sn step time g drift mult n cs : forall st st' xs,
  Reachable L (ss_saps st sn) -> Stores (ss_saps st sn) xs ->
  new_cells fl pdim rnd fuel dE negE Eext sn step time g drift mult n cs st = Ok st' ->
  exists new, Reachable L (ss_saps st' sn) /\ Stores (ss_saps st' sn) (xs ++ new) /\
    (forall s, s <> sn -> ss_saps st' s = ss_saps st s) /\ ss_uid st' = (ss_uid st + Z.of_nat (length new))%Z /\
    length new = (length cs * n)%nat /\
    forall i c ip, cs !! i = Some c -> (ip < n)%nat -> exists p, new !! (i * n + ip)%nat = Some p /\
      Made fl rnd drift pdim g c (fl (c_vol c * mult)) ip (ss_uid st + Z.of_nat (i * n + ip)) p.
Proof using HL.
  induction cs as [|c cs IH]; intros st st' xs HR HS E; cbn [new_cells] in E.
  - injection E as <-. exists []. rewrite app_nil_r. cbn. split; [exact HR|]. split; [exact HS|]. split; [reflexivity|].
    split; [lia|]. split; [reflexivity|]. intros i c ip Hi. discriminate.
  - destruct (new_particles _ _ _ _ _ _ _ _ _ _ _ _ _ _ _ _) as [st1|] eqn:E1; [|discriminate].
    destruct (new_particles_made _ _ _ _ _ _ _ _ _ _ _ HR HS E1) as (n1 & HR1 & HS1 & Ho1 & Hu1 & Hl1 & Hm1).
    rewrite seq_length in Hl1.
    destruct (IH st1 st' (xs ++ n1) HR1 HS1 E) as (n2 & HR2 & HS2 & Ho2 & Hu2 & Hl2 & Hm2).
    exists (n1 ++ n2). rewrite <- app_assoc in HS2. split; [exact HR2|]. split; [exact HS2|].
    split; [intros s Hs; by rewrite Ho2, Ho1|]. split; [rewrite app_length; lia|].
    split; [rewrite app_length; cbn [length]; lia|].
    intros [|i] c' ip Hi Hip; cbn in Hi.
    + injection Hi as <-. destruct (lookup_lt_is_Some_2 n1 ip) as [p Hp]; [lia|]. exists p.
      rewrite lookup_app_l by lia. split; [exact Hp|]. apply Hm1; [|exact Hp]. by rewrite lookup_seq_lt.
    + destruct (Hm2 i c' ip Hi Hip) as (p & Hp & HM). exists p. split.
      * rewrite lookup_app_r by lia. rewrite <- Hp. f_equal. lia.
      * rewrite Hu1 in HM. by replace (ss_uid st + Z.of_nat (S i * n + ip))%Z with (ss_uid st + Z.of_nat (length n1) + Z.of_nat (i * n + ip))%Z by lia.
Qed.
End Firing.

(** The weight of a particle of a cell: density times cell volume, divided among the particles of the cell; in spherical
    coordinates per steradian. *)
Definition source_weight (fl : R -> R) (spherical : bool) (pi4 : R) (q : params) (c : srccell) : R :=
  let w := fl (s_density q / IZR (s_percell q)) in
  fl (c_vol c * (if spherical then fl (w / pi4) else w)).

Theorem C27_firing fl names spherical pdim pi4 rnd fuel dE negE Eext step time dom q st st' (L : Z) xs : (1 <= L)%Z ->
  let sn := s_species q in let n := s_percell q in
  (1 <= n)%Z -> Reachable L (ss_saps st sn) -> Stores (ss_saps st sn) xs ->
  create_maxwellian fl names spherical pdim pi4 rnd fuel dE negE Eext step time dom q st = Ok st' ->
  exists new,
    Stores (ss_saps st' sn) (xs ++ new) /\ Reachable L (ss_saps st' sn) /\
    (forall s, s <> sn -> ss_saps st' s = ss_saps st s) /\
    Z.of_nat (length new) = (Z.of_nat (length (r_cells dom)) * n)%Z /\
    ss_uid st' = (ss_uid st + Z.of_nat (length new))%Z /\
    forall i c ip, r_cells dom !! i = Some c -> (Z.of_nat ip < n)%Z -> exists p, new !! (i * Z.to_nat n + ip)%nat = Some p /\
      Made fl rnd (s_drift q) pdim (r_gdim dom) c (source_weight fl spherical pi4 q c) ip (ss_uid st + Z.of_nat i * n + Z.of_nat ip) p.
Proof.
  intros HL sn n Hn HR HS E. unfold create_maxwellian in E. destruct (negb _); [discriminate|].
  unfold weight_mult in E. fold n in E. replace (n =? 0)%Z with false in E by lia.
  destruct (new_cells_made _ _ _ _ _ _ _ L HL _ _ _ _ _ _ _ _ _ _ _ HR HS E) as (new & H1 & H2 & H3 & H4 & H5 & H6).
  exists new. split; [exact H2|]. split; [exact H1|]. split; [exact H3|]. split; [lia|]. split; [exact H4|].
  intros i c ip Hi Hip. destruct (H6 i c ip Hi ltac:(lia)) as (p & Hp & HM). exists p. split; [exact Hp|].
  replace (ss_uid st + Z.of_nat i * n + Z.of_nat ip)%Z with (ss_uid st + Z.of_nat (i * Z.to_nat n + ip))%Z by lia. exact HM.
Qed.

(** The points that a source tries in cell [c], see [random_point]. *)
Definition tried (fl : R -> R) (pdim : nat) (rnd : nat -> vec) (g : nat) (c : srccell) (k : nat) : vec :=
  take g (zip_with (fun m r => fl (m + fl (r * c_rad c))) (c_mid c) (rnd k)) ++ replicate (pdim - g) 0.

(** The trajectories have room for a point and refer to stored particles or to none. *)
Definition TrajReady (T : option traj) (sn : string) (n : nat) : Prop :=
  match T with
  | None => True
  | Some T => (1 <= t_npoints T)%Z /\ forall e, e ∈ t_sp T sn -> (e_index e < Z.of_nat n)%Z
  end.

Section Total.
Context (fl : R -> R) (pdim : nat) (rnd : nat -> vec) (fuel : nat) (dE : nat) (negE Eext : option (particle -> vec)).
Context (L : Z) (HL : (1 <= L)%Z).

Definition Ready (st : srcst) (sn : string) : Prop :=
  exists xs, Reachable L (ss_saps st sn) /\ Stores (ss_saps st sn) xs /\ Accepts (ss_saps st sn) /\
    TrajReady (ss_traj st) sn (length xs).

Lemma add_particle_total sn step time E Ex s T p xs : Reachable L s -> Stores s xs -> Accepts s ->
  TrajReady T sn (length xs) ->
  exists s' T', add_particle true sn step time E Ex s T p = Ok (s', T') /\ Reachable L s' /\ Stores s' (xs ++ [p]) /\
    Accepts s' /\ TrajReady T' sn (length (xs ++ [p])).
Proof using HL.
  clear rnd fl dE negE Eext fuel pdim. intros HR HS HA HT. destruct (HA [p]) as (s' & rs & E'). cbn in E'.
  destruct (push_back s p) as [[s1 [o i]]|] eqn:Ep; [|discriminate]. clear E' s' rs.
  destruct (pushed L _ _ _ _ _ _ HL HR HS Ep) as [HR1 HS1].
  pose proof (C47_push_accepts L s p s1 _ HA Ep) as HA1.
  assert (Hmono : TrajReady T sn (length (xs ++ [p]))).
  { destruct T as [T|]; [|exact I]. destruct HT as [H1 H2]. split; [exact H1|]. intros e He. specialize (H2 e He).
    rewrite app_length. cbn [length]. lia. }
  destruct (is_traj p) eqn:Et, T as [T|].
  - destruct HT as [H1 H2]. destruct (C46_first_point L sn step time E Ex s xs T p HL HR HS HA Et H1 H2)
      as (s2 & T2 & e & Ea & HS2 & HA2 & Hes & _ & Hix & _).
    exists s2, (Some T2). split; [exact Ea|]. pose proof (add_particle_push _ _ _ _ _ _ _ _ _ _ _ Ea) as (o2 & i2 & Ep2).
    rewrite Ep in Ep2. injection Ep2 as <- <- <-. split; [exact HR1|]. split; [exact HS2|]. split; [exact HA2|].
    split.
    + assert (t_npoints T2 = t_npoints T) as ->; [|exact H1].
      unfold add_particle in Ea. rewrite Ep, Et in Ea. destruct (current_out_item s1 o) as [[q|]|]; [|discriminate..].
      unfold record_datum in Ea. destruct (list_index _ _); [|discriminate]. destruct (_ !! _); [|discriminate].
      destruct (_ <? _)%Z; [injection Ea as <-; reflexivity|].
      destruct (write_point _ _); [|discriminate]. injection Ea as <-. reflexivity.
    + intros e' He'. rewrite Hes in He'. rewrite app_length. cbn [length]. apply elem_of_app in He' as [He'|He'].
      * specialize (H2 e' He'). lia.
      * apply elem_of_list_singleton in He' as ->. lia.
  - exists s1, None. unfold add_particle. rewrite Ep, Et. split; [reflexivity|]. split; [exact HR1|]. split; [exact HS1|]. split; [exact HA1|exact I].
  - exists s1, (Some T). unfold add_particle. rewrite Ep, Et. split; [reflexivity|]. split; [exact HR1|]. split; [exact HS1|]. split; [exact HA1|exact Hmono].
  - exists s1, None. unfold add_particle. rewrite Ep, Et. split; [reflexivity|]. split; [exact HR1|]. split; [exact HS1|]. split; [exact HA1|exact I].
Qed.

Lemma random_point_total g c : (g <= pdim)%nat -> forall n k j, (j < n)%nat -> c_in c (tried fl pdim rnd g c (k + j)) = true ->
  exists x k', random_point fl pdim rnd n g c k = Ok (x, k').
Proof using.
  intros Hg. induction n as [|n IH]; intros k j Hj Hc; [lia|]. cbn [random_point]. unfold coords.
  replace (pdim <? g)%nat with false by lia. fold (tried fl pdim rnd g c k).
  destruct (c_in c (tried fl pdim rnd g c k)) eqn:E; [eauto|].
  destruct j as [|j]; [rewrite Nat.add_0_r in Hc; congruence|].
  apply (IH (S k) j); [lia|]. by replace (S k + j)%nat with (k + S j)%nat by lia.
Qed.

Lemma new_particle_total sn step time g drift c w ip st : Ready st sn -> (g <= pdim)%nat -> length drift = pdim ->
  (forall k, exists j, (j < fuel)%nat /\ c_in c (tried fl pdim rnd g c (k + j)) = true) ->
  exists st', new_particle fl pdim rnd fuel dE negE Eext sn step time g drift c w ip st = Ok st' /\ Ready st' sn.
Proof using HL.
  intros (xs & HR & HS & HA & HT) Hg Hd Hf. unfold new_particle.
  assert (exists x k, match ip with O => let! x := coords pdim g (c_mid c) in Ok (x, ss_rng st)
                      | S _ => random_point fl pdim rnd fuel g c (ss_rng st) end = Ok (x, k)) as (x & k & ->).
  { destruct ip; [unfold coords; replace (pdim <? g)%nat with false by lia; eauto|].
    destruct (Hf (ss_rng st)) as (j & Hj & Hc). by eapply random_point_total. }
  rewrite Hd, Nat.eqb_refl. cbn [negb].
  match goal with |- context[add_particle true sn step time ?E ?Ex ?s ?T ?p] =>
    destruct (add_particle_total sn step time E Ex s T p xs HR HS HA HT) as (s' & T' & -> & HR' & HS' & HA' & HT') end.
  eexists. split; [reflexivity|]. eexists. cbn [ss_saps ss_traj]. rewrite set_key_same.
  split; [exact HR'|]. split; [exact HS'|]. split; [exact HA'|exact HT'].
Qed.
Lemma new_particles_total sn step time g drift c w ips : (g <= pdim)%nat -> length drift = pdim ->
  (forall k, exists j, (j < fuel)%nat /\ c_in c (tried fl pdim rnd g c (k + j)) = true) ->
  forall st, Ready st sn ->
  exists st', new_particles fl pdim rnd fuel dE negE Eext sn step time g drift c w ips st = Ok st' /\ Ready st' sn.
Proof using HL.
  intros Hg Hd Hf. induction ips as [|ip ips IH]; intros st Hst; cbn [new_particles]; [eauto|].
  destruct (new_particle_total sn step time g drift c w ip st Hst Hg Hd Hf) as (st1 & -> & H1). apply (IH st1 H1).
Qed.
Lemma new_cells_total sn step time g drift mult n cs : (g <= pdim)%nat -> length drift = pdim ->
  (forall c, c ∈ cs -> forall k, exists j, (j < fuel)%nat /\ c_in c (tried fl pdim rnd g c (k + j)) = true) ->
  forall st, Ready st sn ->
  exists st', new_cells fl pdim rnd fuel dE negE Eext sn step time g drift mult n cs st = Ok st' /\ Ready st' sn.
Proof using HL.
  intros Hg Hd. induction cs as [|c cs IH]; intros Hf st Hst; cbn [new_cells]; [eauto|].
  destruct (new_particles_total sn step time g drift c (fl (c_vol c * mult)) (seq 0 n) Hg Hd (Hf c ltac:(left)) st Hst) as (st1 & -> & H1).
  apply IH; [|exact H1]. intros c' Hc'. apply Hf. by right.
Qed.
End Total.

(** A source does fire, and leaves the storage able to take more, if: the species exists, its storage accepts particles
    (see C47), the drift velocity and the mesh fit the particle dimension, and the generator hits every cell of the region
    within [fuel] tries wherever it stands. *)
Theorem C27_fires fl names spherical pdim pi4 rnd fuel dE negE Eext step time dom q st (L : Z) : (1 <= L)%Z ->
  In (s_species q) names -> (1 <= s_percell q)%Z -> Ready L st (s_species q) ->
  (r_gdim dom <= pdim)%nat -> length (s_drift q) = pdim ->
  (forall c, c ∈ r_cells dom -> forall k, exists j, (j < fuel)%nat /\ c_in c (tried fl pdim rnd (r_gdim dom) c (k + j)) = true) ->
  exists st', create_maxwellian fl names spherical pdim pi4 rnd fuel dE negE Eext step time dom q st = Ok st' /\
    Ready L st' (s_species q).
Proof.
  intros HL Hin Hn Hst Hg Hd Hf. unfold create_maxwellian.
  assert (existsb (String.eqb (s_species q)) names = true) as ->.
  { apply existsb_exists. exists (s_species q). split; [exact Hin|apply String.eqb_refl]. }
  cbn [negb]. unfold weight_mult. replace (s_percell q =? 0)%Z with false by lia.
  by apply (new_cells_total fl pdim rnd fuel dE negE Eext L HL).
Qed.

(** ** The total weight of a firing *)

Lemma blocks_weight (W : srccell -> R) n : forall cs (new : list particle), length new = (length cs * n)%nat ->
  (forall i c ip, cs !! i = Some c -> (ip < n)%nat -> exists p, new !! (i * n + ip)%nat = Some p /\ pw p = W c) ->
  total_weight new = INR n * Rsum (map W cs).
Proof.
  induction cs as [|c cs IH]; intros new Hl H.
  - destruct new; [|discriminate]. unfold total_weight. cbn. lra.
  - cbn [length] in Hl. rewrite <- (take_drop n new). unfold total_weight. rewrite map_app, Rsum_app.
    fold (total_weight (take n new)). fold (total_weight (drop n new)). rewrite (IH (drop n new)).
    + cbn [map]. rewrite Rsum_cons. enough (total_weight (take n new) = INR n * W c) as -> by lra.
      assert (Hc : forall p, p ∈ take n new -> pw p = W c).
      { intros p Hp. apply elem_of_list_lookup in Hp as [j Hj]. apply lookup_take_Some in Hj as [Hj Hlt].
        destruct (H 0%nat c j eq_refl Hlt) as (p' & Hp' & <-). cbn in Hp'. rewrite Hj in Hp'. by injection Hp' as ->. }
      assert (Hlen : length (take n new) = n) by (rewrite take_length; lia).
      rewrite <- Hlen at 2. clear - Hc. induction (take n new) as [|p l IHl]; [unfold total_weight; cbn; lra|].
      unfold total_weight in *. cbn [map length]. rewrite Rsum_cons, S_INR, IHl, (Hc p ltac:(left)); [lra|].
      intros p' Hp'. apply Hc. by right.
    + rewrite drop_length. lia.
    + intros i c' ip Hi Hip. destruct (H (S i) c' ip Hi Hip) as (p & Hp & Hw). exists p. split; [|exact Hw].
      rewrite lookup_drop. rewrite <- Hp. f_equal. lia.
Qed.

(** In exact arithmetic a firing adds the weight density times volume of the region, per steradian in spherical
    coordinates. *)
Theorem C27_total_weight names spherical pdim rnd fuel dE negE Eext step time dom q st st' (L : Z) xs : (1 <= L)%Z ->
  (1 <= s_percell q)%Z -> Reachable L (ss_saps st (s_species q)) -> Stores (ss_saps st (s_species q)) xs ->
  create_maxwellian exact names spherical pdim (4 * PI) rnd fuel dE negE Eext step time dom q st = Ok st' ->
  exists new, Stores (ss_saps st' (s_species q)) (xs ++ new) /\
    total_weight new = s_density q * Rsum (map c_vol (r_cells dom)) / (if spherical then 4 * PI else 1).
Proof.
  intros HL Hn HR HS E. destruct (C27_firing _ _ _ _ _ _ _ _ _ _ _ _ _ _ _ _ L xs HL Hn HR HS E)
    as (new & HS' & _ & _ & Hlen & _ & Hm).
  exists new. split; [exact HS'|].
  rewrite (blocks_weight (source_weight exact spherical (4 * PI) q) (Z.to_nat (s_percell q)) (r_cells dom) new).
  - rewrite INR_IZR_INZ, Z2Nat.id by lia. set (n := IZR (s_percell q)).
    assert (Hn0 : n <> 0) by (apply not_0_IZR; lia). pose proof PI_RGT_0.
    unfold source_weight, exact. fold n.
    rewrite (map_ext _ (fun c => (s_density q / n / (if spherical then 4 * PI else 1)) * c_vol c)).
    + rewrite Rsum_map_scale. destruct spherical; field; lra.
    + intros c. destruct spherical; field; lra.
  - lia.
  - intros i c ip Hi Hip. destruct (Hm i c ip Hi ltac:(lia)) as (p & Hp & HM). exists p. split; [exact Hp|]. apply HM.
Qed.

(** ** The schedule *)

(** What happens in a run: the part of a step before the sources, a source firing (by its position), the part after. *)
Inductive event := Before (c : Z) | Fire (c : Z) (j : nat) | After (c : Z).
Definition when (e : event) : Z := match e with Before c | Fire c _ | After c => c end.
(** [e1] comes before [e2]: an earlier step, or the same step and an earlier part of it. *)
Definition earlier (e1 e2 : event) : Prop :=
  (when e1 < when e2)%Z \/ when e1 = when e2 /\
  match e1, e2 with
  | Before _, Before _ => False
  | Before _, _ => True
  | Fire _ i, Fire _ j => (i < j)%nat
  | Fire _ _, After _ => True
  | _, _ => False
  end.
Definition fires_of (j : nat) (e : event) : bool := match e with Fire _ i => (i =? j)%nat | _ => false end.

Section Schedule.
Context {St : Type} (srcs : list (Z * (Z -> R -> St -> res St))) (before after : Z -> St -> res St) (time : Z -> R).

Definition happen (e : event) (st : St) : res St :=
  match e with
  | Before c => before c st
  | After c => after c st
  | Fire c j => match srcs !! j with Some (_, f) => f c (time c) st | None => Ok st end
  end.
Fixpoint play (es : list event) (st : St) : res St :=
  match es with [] => Ok st | e :: r => let! st1 := happen e st in play r st1 end.

Lemma play_app a b st : play (a ++ b) st = (let! st1 := play a st in play b st1).
Proof using. revert st. induction a as [|e a IH]; intros st; [reflexivity|]. cbn. destruct (happen e st); [apply IH|reflexivity]. Qed.

(** The sources from position [i] on that fire at [c]. *)
Fixpoint firing (c : Z) (i : nat) (l : list (Z * (Z -> R -> St -> res St))) : list event :=
  match l with
  | [] => []
  | (k, _) :: r => (if (c mod k =? 0)%Z then [Fire c i] else []) ++ firing c (S i) r
  end.
Fixpoint step_events (n : nat) (c : Z) : list event :=
  match n with
  | O => []
  | S m => (Before (c + 1) :: firing (c + 1) 0 srcs ++ [After (c + 1)]) ++ step_events m (c + 1)
  end.

Lemma add_more_events c : forall (l pre : list (Z * (Z -> R -> St -> res St))) st, srcs = pre ++ l ->
  Forall (fun kf => (1 <= fst kf)%Z) l ->
  add_more_particles l c (time c) st = play (firing c (length pre) l) st.
Proof using.
  induction l as [|[k f] l IH]; intros pre st Hs Hk; [reflexivity|]. inversion_clear Hk as [|? ? Hk1 Hk2]. cbn [fst] in Hk1.
  cbn [add_more_particles firing]. replace (k =? 0)%Z with false by lia.
  assert (IH' : forall st, add_more_particles l c (time c) st = play (firing c (S (length pre)) l) st).
  { intros st'. rewrite (IH (pre ++ [(k, f)]) st'); [|by rewrite <- app_assoc|exact Hk2].
    f_equal. f_equal. rewrite app_length. cbn. lia. }
  destruct (c mod k =? 0)%Z; cbn [app].
  - cbn [play happen]. rewrite Hs, lookup_app_r, Nat.sub_diag by lia. cbn [lookup list_lookup].
    destruct (f c (time c) st); [apply IH'|reflexivity].
  - apply IH'.
Qed.
Lemma loop_events n : Forall (fun kf => (1 <= fst kf)%Z) srcs -> forall c st,
  source_loop srcs before after time n c st = play (step_events n c) st.
Proof using.
  intros Hk. induction n as [|n IH]; intros c st; [reflexivity|]. cbn [source_loop step_events app play happen].
  destruct (before (c + 1)%Z st) as [st1|]; [|reflexivity].
  rewrite <- app_assoc, play_app. rewrite (add_more_events (c + 1) srcs [] st1 eq_refl Hk). cbn [length].
  destruct (play _ st1) as [st2|]; [|reflexivity]. cbn [app play happen].
  destruct (after (c + 1)%Z st2) as [st3|]; [apply IH|reflexivity].
Qed.

End Schedule.
Section Count.
Context {St : Type} (srcs : list (Z * (Z -> R -> St -> res St))).
Lemma firing_in c (l : list (Z * (Z -> R -> St -> res St))) : forall i e, e ∈ firing c i l <->
  exists j k f, l !! j = Some (k, f) /\ e = Fire c (i + j) /\ (c mod k = 0)%Z.
Proof.
  induction l as [|[k f] l IH]; intros i e; cbn [firing].
  - split; [intros H; inversion H|]. intros (j & k & f & H & _). discriminate.
  - rewrite elem_of_app, IH. split.
    + intros [H|(j & k' & f' & H1 & H2 & H3)].
      * destruct (Z.eqb_spec (c mod k) 0); [|inversion H]. apply elem_of_list_singleton in H as ->.
        exists 0%nat, k, f. rewrite Nat.add_0_r. split; [reflexivity|]. split; [reflexivity|assumption].
      * exists (S j), k', f'. split; [exact H1|]. split; [|exact H3]. rewrite H2. f_equal. lia.
    + intros ([|j] & k' & f' & H1 & -> & H3).
      * injection H1 as -> ->. left. rewrite H3, Z.eqb_refl. rewrite Nat.add_0_r. apply elem_of_list_singleton. reflexivity.
      * right. exists j, k', f'. split; [exact H1|]. split; [f_equal; lia|exact H3].
Qed.
Lemma step_in n : forall c e, e ∈ step_events srcs n c <->
  (c < when e <= c + Z.of_nat n)%Z /\
  match e with Fire c' j => exists k f, srcs !! j = Some (k, f) /\ (c' mod k = 0)%Z | _ => True end.
Proof.
  induction n as [|n IH]; intros c e; cbn [step_events].
  - split; [intros H; inversion H|]. intros [H _]. lia.
  - rewrite elem_of_app, IH, elem_of_cons, elem_of_app, elem_of_list_singleton, firing_in. split.
    + intros [[->|[(j & k & f & H1 & -> & H3)| ->]]|[H1 H2]]; [split; [cbn; lia|exact I]|split; [cbn; lia|]|split; [cbn; lia|exact I]|split; [lia|exact H2]].
      exists k, f. by split.
    + intros [Hc He]. destruct (Z.eq_dec (when e) (c + 1)) as [Hw|Hw]; [left|right; split; [lia|exact He]].
      destruct e as [c'|c' j|c']; cbn in Hw; subst c'; [by left| |by right; right].
      right. left. destruct He as (k & f & H1 & H2). exists j, k, f. split; [exact H1|]. split; [reflexivity|exact H2].
Qed.

Lemma sorted_app (a b : list event) : StronglySorted earlier a -> StronglySorted earlier b ->
  (forall x y, x ∈ a -> y ∈ b -> earlier x y) -> StronglySorted earlier (a ++ b).
Proof.
  intros Ha Hb H. induction Ha as [|x a Ha IH HF]; [exact Hb|]. cbn. constructor.
  - apply IH. intros x' y Hx' Hy. apply H; [by right|exact Hy].
  - apply Forall_app. split; [exact HF|]. apply list.Forall_forall. intros y Hy. apply H; [left|exact Hy].
Qed.
Lemma firing_sorted c (l : list (Z * (Z -> R -> St -> res St))) : forall i, StronglySorted earlier (firing c i l).
Proof.
  induction l as [|[k f] l IH]; intros i; cbn [firing]; [constructor|]. apply sorted_app; [|apply IH|].
  - destruct (c mod k =? 0)%Z; repeat constructor.
  - intros x y Hx Hy. apply firing_in in Hy as (j & _ & _ & _ & -> & _). destruct (c mod k =? 0)%Z; [|inversion Hx].
    apply elem_of_list_singleton in Hx as ->. right. cbn. split; [reflexivity|]. lia.
Qed.
Lemma step_sorted n : forall c, StronglySorted earlier (step_events srcs n c).
Proof.
  induction n as [|n IH]; intros c; cbn [step_events]; [constructor|]. apply sorted_app; [|apply IH|].
  - constructor.
    + apply sorted_app; [apply firing_sorted|repeat constructor|]. intros x y Hx Hy.
      apply elem_of_list_singleton in Hy as ->. apply firing_in in Hx as (j & _ & _ & _ & -> & _). right. by split.
    + apply Forall_app. split; [|by repeat constructor]. apply list.Forall_forall. intros y Hy.
      apply firing_in in Hy as (j & _ & _ & _ & -> & _). right. by split.
  - intros x y Hx Hy. apply step_in in Hy as [Hy _]. left. apply elem_of_cons in Hx as [->|Hx]; [cbn; lia|].
    apply elem_of_app in Hx as [Hx|Hx]; [apply firing_in in Hx as (j & _ & _ & _ & -> & _); cbn; lia|].
    apply elem_of_list_singleton in Hx as ->. cbn. lia.
Qed.

Lemma firing_count c (l : list (Z * (Z -> R -> St -> res St))) j : forall i, length (filter (fires_of (i + j)) (firing c i l)) =
  match l !! j with Some (k, _) => if (c mod k =? 0)%Z then 1%nat else 0%nat | None => 0%nat end.
Proof.
  revert j. induction l as [|[k f] l IH]; intros j i; [reflexivity|]. cbn [firing]. rewrite list.filter_app, app_length.
  destruct j as [|j].
  - cbn [lookup list_lookup]. assert (Hz : length (filter (fires_of (i + 0)) (firing c (S i) l)) = 0%nat).
    { replace (filter _ _) with (@nil event); [reflexivity|]. symmetry.
      assert (Hin : forall e, e ∈ firing c (S i) l -> fires_of (i + 0) e = false).
      { intros e He. apply firing_in in He as (j & _ & _ & _ & -> & _). unfold fires_of. apply Nat.eqb_neq. lia. }
      clear - Hin. induction (firing c (S i) l) as [|e es IHe]; [reflexivity|]. rewrite filter_cons_False; [apply IHe; intros e' He'; apply Hin; by right|].
      rewrite (Hin e ltac:(left)). intros []. }
    rewrite Hz. destruct (c mod k =? 0)%Z; [|reflexivity].
    rewrite filter_cons_True; [reflexivity|]. cbn. replace (i =? i + 0)%nat with true by lia. exact I.
  - cbn [lookup list_lookup]. specialize (IH j (S i)). replace (S i + j)%nat with (i + S j)%nat in IH by lia. rewrite IH.
    destruct (c mod k =? 0)%Z; [|reflexivity]. rewrite filter_cons_False; [reflexivity|]. cbn.
    replace (i =? i + S j)%nat with false by lia. intros [].
Qed.
Lemma count_step k c : (1 <= k)%Z -> ((c + 1) / k = c / k + (if ((c + 1) mod k =? 0)%Z then 1 else 0))%Z.
Proof.
  intros Hk. pose proof (Z.div_mod c k ltac:(lia)). pose proof (Z.mod_pos_bound c k ltac:(lia)).
  destruct (Z.eqb_spec ((c + 1) mod k) 0) as [E|E].
  - pose proof (Z.div_mod (c + 1) k ltac:(lia)). rewrite E in H1. nia.
  - destruct (Z.eq_dec (c mod k) (k - 1)) as [E2|E2].
    + exfalso. apply E. replace (c + 1)%Z with ((c / k + 1) * k)%Z by nia. apply Z.mod_mul. lia.
    + rewrite Z.add_0_r. symmetry. apply Z.div_unique with (r := (c mod k + 1)%Z); [lia|]. lia.
Qed.
Lemma step_count j k f n : srcs !! j = Some (k, f) -> (1 <= k)%Z -> forall c,
  Z.of_nat (length (filter (fires_of j) (step_events srcs n c))) = ((c + Z.of_nat n) / k - c / k)%Z.
Proof.
  intros Hj Hk. induction n as [|n IH]; intros c; cbn [step_events].
  - cbn. rewrite Z.add_0_r. lia.
  - rewrite list.filter_app, app_length. rewrite filter_cons_False by (cbn; intros []). rewrite list.filter_app, app_length.
    pose proof (firing_count (c + 1) srcs j 0) as Hfc. cbn [Nat.add] in Hfc. rewrite Hfc, Hj. specialize (IH (c + 1)%Z).
    replace (c + 1 + Z.of_nat n)%Z with (c + Z.of_nat (S n))%Z in IH by lia. rewrite Nat2Z.inj_add, IH.
    rewrite filter_cons_False by (cbn; intros []). rewrite filter_nil. cbn [length]. pose proof (count_step k c Hk).
    destruct ((c + 1) mod k =? 0)%Z; lia.
Qed.
End Count.

(** In a run of [n] steps the source at position [j], of interval [k], fires exactly at the multiples of [k], once each, after
    what the step does before the sources and before what it does after them, the sources in their order: [n / k] times in
    all.  What a firing, or the rest of a step, does may depend on the whole state. *)
Theorem C27_schedule {St} (srcs : list (Z * (Z -> R -> St -> res St))) before after time n :
  Forall (fun kf => (1 <= fst kf)%Z) srcs ->
  exists es,
    (forall st, source_loop srcs before after time n 0 st = play srcs before after time es st) /\
    StronglySorted earlier es /\
    (forall c, (Before c ∈ es <-> (1 <= c <= Z.of_nat n)%Z) /\ (After c ∈ es <-> (1 <= c <= Z.of_nat n)%Z)) /\
    (forall c j, Fire c j ∈ es <-> (1 <= c <= Z.of_nat n)%Z /\ exists k f, srcs !! j = Some (k, f) /\ (k | c)%Z) /\
    (forall j k f, srcs !! j = Some (k, f) -> Z.of_nat (length (filter (fires_of j) es)) = (Z.of_nat n / k)%Z).
Proof.
  intros Hk. exists (step_events srcs n 0). split; [intros st; by apply loop_events|]. split; [apply step_sorted|].
  split; [|split].
  - intros c. split; rewrite step_in; cbn [when]; (split; [intros [? _]|intros ?; split; [|exact I]]; lia).
  - intros c j. rewrite step_in. cbn [when]. split.
    + intros [Hc (k & f & Hj & Hm)]. split; [lia|]. exists k, f. split; [exact Hj|].
      assert (1 <= k)%Z by (exact (Forall_lookup_1 _ _ _ _ Hk Hj)). apply Z.mod_divide; [lia|exact Hm].
    + intros [Hc (k & f & Hj & Hm)]. split; [lia|]. exists k, f. split; [exact Hj|].
      assert (1 <= k)%Z by (exact (Forall_lookup_1 _ _ _ _ Hk Hj)). apply Z.mod_divide; [lia|exact Hm].
  - intros j k f Hj. assert (1 <= k)%Z by (exact (Forall_lookup_1 _ _ _ _ Hk Hj)).
    rewrite (step_count srcs j k f n Hj) by assumption. rewrite Z.div_0_l, Z.add_0_l by lia. lia.
Qed.

(** ** The weight in double precision *)

Lemma b64_rel x : bpow radix2 (-1022) <= Rabs x -> exists e, Rabs e <= bpow radix2 (-53) /\ b64 x = x * (1 + e).
Proof.
  intros H.
  destruct (relative_error_N_FLT_ex radix2 (-1074) 53 ltac:(reflexivity) (fun z => negb (Z.even z)) x H) as (e & He & Hr).
  exists e. split; [|exact Hr]. refine (Rle_trans _ _ _ He _). change (-53 + 1)%Z with (-52)%Z.
  change (/ 2) with (bpow radix2 (-1)). rewrite <- bpow_plus. change (-1 + -52)%Z with (-53)%Z. apply Rle_refl.
Qed.

(** The largest relative error of three operations. *)
Definition three_ulp : R := (1 + bpow radix2 (-53)) ^ 3 - 1.

Lemma three_ops u a b c : 0 <= u -> u <= 1 -> Rabs a <= u -> Rabs b <= u -> Rabs c <= u ->
  Rabs ((1 + a) * (1 + b) * (1 + c) - 1) <= (1 + u) ^ 3 - 1.
Proof.
  intros Hu Hu1 Ha%Rabs_le_inv Hb%Rabs_le_inv Hc%Rabs_le_inv. apply Rabs_le.
  assert (H1 : (1 - u) * (1 - u) <= (1 + a) * (1 + b) <= (1 + u) * (1 + u)) by (split; apply Rmult_le_compat; lra).
  assert (H2 : (1 - u) * (1 - u) * (1 - u) <= (1 + a) * (1 + b) * (1 + c) <= (1 + u) * (1 + u) * (1 + u)).
  { split; apply Rmult_le_compat; nra. }
  split; [|nra]. nra.
Qed.

(** In double precision the weight that a firing adds (the exact sum of the stored weights) differs from density times
    volume by a relative error of at most three roundings, if no weight underflows.  [pi4] is the double that the code
    divides by. *)
Theorem C27_weight_rounded names (spherical : bool) pdim pi4 rnd fuel dE negE Eext step time dom q st st' (L : Z) xs : (1 <= L)%Z ->
  (1 <= s_percell q)%Z -> Reachable L (ss_saps st (s_species q)) -> Stores (ss_saps st (s_species q)) xs ->
  0 < s_density q -> 0 < pi4 -> (forall c : srccell, c ∈ r_cells dom -> 0 < c_vol c) ->
  let w := b64 (s_density q / IZR (s_percell q)) in
  let m := if spherical then b64 (w / pi4) else w in
  bpow radix2 (-1022) <= s_density q / IZR (s_percell q) ->
  (spherical = true -> bpow radix2 (-1022) <= w / pi4) ->
  (forall c : srccell, c ∈ r_cells dom -> bpow radix2 (-1022) <= c_vol c * m) ->
  create_maxwellian b64 names spherical pdim pi4 rnd fuel dE negE Eext step time dom q st = Ok st' ->
  exists new, Stores (ss_saps st' (s_species q)) (xs ++ new) /\
    let target := s_density q * Rsum (map c_vol (r_cells dom)) / (if spherical then pi4 else 1) in
    Rabs (total_weight new - target) <= three_ulp * target.
Proof.
  intros HL Hn HR HS Hd Hpi Hvol w m Hw Hs Hc E. destruct (C27_firing _ _ _ _ _ _ _ _ _ _ _ _ _ _ _ _ L xs HL Hn HR HS E)
    as (new & HS' & _ & _ & Hlen & _ & Hm).
  exists new. split; [exact HS'|].
  rewrite (blocks_weight (source_weight b64 spherical pi4 q) (Z.to_nat (s_percell q)) (r_cells dom) new); [|lia|].
  2: { intros i c ip Hi Hip. destruct (Hm i c ip Hi ltac:(lia)) as (p & Hp & HM). exists p. split; [exact Hp|]. apply HM. }
  rewrite INR_IZR_INZ, Z2Nat.id by lia. set (n := IZR (s_percell q)) in *.
  assert (Hn0 : 0 < n) by (apply IZR_lt; lia). cbv zeta. set (d := if spherical then pi4 else 1).
  assert (Hd0 : 0 < d) by (unfold d; destruct spherical; lra).
  assert (Hpos : 0 < bpow radix2 (-1022)) by apply bpow_gt_0.
  assert (Hu : 0 <= bpow radix2 (-53) <= 1).
  { split; [apply bpow_ge_0|]. change 1 with (bpow radix2 0). apply bpow_le. lia. }
  assert (Hone : forall c : srccell, c ∈ r_cells dom ->
    Rabs (n * source_weight b64 spherical pi4 q c - s_density q * c_vol c / d) <= three_ulp * (s_density q * c_vol c / d)).
  { intros c Hin. specialize (Hc c Hin). specialize (Hvol c Hin). unfold source_weight. fold n. fold w. fold m.
    destruct (b64_rel (s_density q / n)) as (e1 & He1 & H1); [rewrite Rabs_pos_eq; lra|]. fold w in H1.
    destruct (b64_rel (c_vol c * m)) as (e3 & He3 & H3); [rewrite Rabs_pos_eq; lra|]. rewrite H3.
    assert (exists e2, Rabs e2 <= bpow radix2 (-53) /\ m = w / d * (1 + e2)) as (e2 & He2 & H2).
    { unfold m, d. destruct spherical.
      - apply b64_rel. specialize (Hs eq_refl). rewrite Rabs_pos_eq; lra.
      - exists 0. rewrite Rabs_R0. split; [lra|]. field. }
    rewrite H2, H1.
    replace (n * (c_vol c * (s_density q / n * (1 + e1) / d * (1 + e2)) * (1 + e3)) - s_density q * c_vol c / d)
      with (((1 + e1) * (1 + e2) * (1 + e3) - 1) * (s_density q * c_vol c / d)) by (field; lra).
    assert (0 <= s_density q * c_vol c / d) by (apply Rmult_le_pos; [nra|left; by apply Rinv_0_lt_compat]).
    rewrite Rabs_mult, (Rabs_pos_eq (s_density q * c_vol c / d)) by assumption.
    apply Rmult_le_compat_r; [assumption|]. apply three_ops; lra. }
  clear - Hone. induction (r_cells dom) as [|c cs IH].
  - cbn. rewrite Rmult_0_r. unfold Rdiv. rewrite Rmult_0_r, Rmult_0_l, Rminus_0_r, Rabs_R0. lra.
  - cbn [map]. rewrite !Rsum_cons. pose proof (Hone c ltac:(left)) as H1.
    specialize (IH ltac:(intros c' Hc'; apply Hone; by right)).
    replace (n * (source_weight b64 spherical pi4 q c + Rsum (map (source_weight b64 spherical pi4 q) cs)) - s_density q * (c_vol c + Rsum (map c_vol cs)) / d)
      with ((n * source_weight b64 spherical pi4 q c - s_density q * c_vol c / d) +
            (n * Rsum (map (source_weight b64 spherical pi4 q) cs) - s_density q * Rsum (map c_vol cs) / d)) by (unfold Rdiv; ring).
    refine (Rle_trans _ _ _ (Rabs_triang _ _) _).
    replace (three_ulp * (s_density q * (c_vol c + Rsum (map c_vol cs)) / d)) with
      (three_ulp * (s_density q * c_vol c / d) + three_ulp * (s_density q * Rsum (map c_vol cs) / d)) by (unfold Rdiv; ring).
    lra.
Qed.

(** Example: two cells of lengths 1 and 2 with density 10 and two particles per cell.  The first random point for the first cell
    is outside of it and another one is drawn. *)
Definition ex_cell (k : Z) (a b : R) : srccell :=
  SrcCell k (b - a) [(a + b) / 2] ((b - a) / 2) (fun v => match v with x :: _ => Rltb a x && Rltb x b | [] => false end).
Definition ex_rnd (k : nat) : vec := nth k [[1; 0]; [3; 0]; [1 / 2; 0]; [0; 2]; [0; 3]; [- 1 / 2; 0]; [0; 4]] [0; 0].
Definition ex_source : params := Params "e" 10 [1; 0] 3 2.
Example C27_example : exists st' x1 x2 x3 x4,
  create_maxwellian exact ["e"; "H"] false 2 (4 * PI) ex_rnd 2 0 None None 3 0 (Region 1 [ex_cell 7 0 1; ex_cell 8 1 3]) ex_source
    (SrcSt (fun _ => sap_init 2) 499 0 None) = Ok st' /\
  Stores (ss_saps st' "e") [x1; x2; x3; x4] /\ ss_saps st' "H" = sap_init 2 /\ ss_uid st' = 503%Z /\
  map puid [x1; x2; x3; x4] = [499; 500; 501; 502]%Z /\ map pcell [x1; x2; x3; x4] = [7; 7; 8; 8]%Z /\
  map is_traj [x1; x2; x3; x4] = [false; true; false; false] /\
  map px [x1; x2; x3; x4] = [[1 / 2; 0]; [3 / 4; 0]; [2; 0]; [3 / 2; 0]] /\
  map pu [x1; x2; x3; x4] = [[2; 0]; [1; 2]; [1; 3]; [1; 4]] /\
  map pw [x1; x2; x3; x4] = [5; 5; 10; 10].
Proof.
  assert (P1 : random_point exact 2 ex_rnd 2 1 (ex_cell 7 0 1) 1 = Ok ([(0 + 1) / 2 + 1 / 2 * ((1 - 0) / 2); 0], 3%nat)).
  { cbv -[IZR Rplus Rmult Rdiv Rminus Rinv Ropp Rltb].
    rewrite (proj2 (Rltb_true 0 ((0 + 1) / 2 + 3 * ((1 - 0) / 2)))) by lra.
    rewrite (proj2 (Rltb_false ((0 + 1) / 2 + 3 * ((1 - 0) / 2)) 1)) by lra.
    rewrite (proj2 (Rltb_true 0 ((0 + 1) / 2 + 1 / 2 * ((1 - 0) / 2)))) by lra.
    rewrite (proj2 (Rltb_true ((0 + 1) / 2 + 1 / 2 * ((1 - 0) / 2)) 1)) by lra. reflexivity. }
  assert (P2 : random_point exact 2 ex_rnd 2 1 (ex_cell 8 1 3) 5 = Ok ([(1 + 3) / 2 + - 1 / 2 * ((3 - 1) / 2); 0], 6%nat)).
  { cbv -[IZR Rplus Rmult Rdiv Rminus Rinv Ropp Rltb].
    rewrite (proj2 (Rltb_true 1 ((1 + 3) / 2 + - 1 / 2 * ((3 - 1) / 2)))) by lra.
    rewrite (proj2 (Rltb_true ((1 + 3) / 2 + - 1 / 2 * ((3 - 1) / 2)) 3)) by lra. reflexivity. }
  eexists _, _, _, _, _. split.
  - unfold create_maxwellian. cbn [ex_source s_species existsb String.eqb Ascii.eqb Bool.eqb negb orb].
    unfold weight_mult. change (s_percell ex_source =? 0)%Z with false. cbn iota.
    change (Z.to_nat (s_percell ex_source)) with 2%nat. cbn [r_cells r_gdim new_cells seq new_particles].
    repeat (match goal with |- context [new_particle exact 2 ex_rnd 2 0 None None ?sn ?step ?t ?g ?d ?c ?w ?ip ?st] =>
      let H := fresh in
      eassert (H : new_particle exact 2 ex_rnd 2 0 None None sn step t g d c w ip st = Ok _);
        [unfold new_particle; cbn [ss_rng]; cbn iota; rewrite ?P1, ?P2; cbv -[IZR Rplus Rmult Rdiv Rminus Rinv Ropp Rltb]; reflexivity|];
      rewrite H; clear H end; cbn iota).
    reflexivity.
  - cbn [ss_saps ss_uid]. split; [split|].
    + reflexivity.
    + intros [|[|[|[|k]]]] x Hx; cbn in Hx; try discriminate Hx; injection Hx as <-; reflexivity.
    + split; [reflexivity|]. split; [reflexivity|]. split; [reflexivity|]. split; [reflexivity|]. split; [reflexivity|].
      split; [|split]; cbn [map px pu pw]; repeat (f_equal; try lra).
Qed.

(** Example: two sources of intervals 2 and 3 in a run of 7 steps; every event is noted in the state. *)
Example C27_schedule_example :
  source_loop [(2%Z, fun c (_ : R) l => Ok (l ++ [Fire c 0])); (3%Z, fun c (_ : R) l => Ok (l ++ [Fire c 1]))]
    (fun c l => Ok l) (fun c l => Ok (l ++ [After c])) IZR 7 0 [] =
  Ok [After 1; Fire 2 0; After 2; Fire 3 1; After 3; Fire 4 0; After 4; After 5; Fire 6 0; Fire 6 1; After 6; After 7]%Z.
Proof. reflexivity. Qed.

Print Assumptions C27_firing.
Print Assumptions C27_fires.
Print Assumptions C27_total_weight.
Print Assumptions C27_weight_rounded.
Print Assumptions C27_schedule.
