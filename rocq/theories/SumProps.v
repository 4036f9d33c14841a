(** C44: the diagnostic sums over a species. *)
From Verif Require Import SapModel MoverModel SapProofs SapSpec SapRefine StorageProps.
From Verif Require Import Vec VecProofs TrackModel DiagModel DiagProofs.

(** ** Specification: sums over a list of particles *)
Definition total_weight (ps : list particle) : R := Rsum (map pw ps).
Definition speed2 (p : particle) : R := Rsum (map (fun u => u * u) (pu p)).
Definition kinetic_energy (mass : R) (ps : list particle) : R := Rsum (map (fun p => 0.5 * mass * (pw p * speed2 p)) ps).

(** ** Lemmas *)
Lemma map_some_pw junk ps : map (fun o => pw (seen junk o)) (map Some ps) = map pw ps.
Proof. by rewrite map_map. Qed.
Lemma Rsum_nil : Rsum [] = 0.
Proof. reflexivity. Qed.
Lemma Rsum_cons x l : Rsum (x :: l) = x + Rsum l.
Proof. reflexivity. Qed.
Lemma Rsum_map_scale {B} c (f : B -> R) l : Rsum (map (fun x => c * f x) l) = c * Rsum (map f l).
Proof. induction l as [|x l IH]; cbn [map]; rewrite ?Rsum_nil, ?Rsum_cons, ?IH; ring. Qed.
Lemma Rsum_map_plus {B} (f g : B -> R) l : Rsum (map (fun x => f x + g x) l) = Rsum (map f l) + Rsum (map g l).
Proof. induction l as [|x l IH]; cbn [map]; rewrite ?Rsum_nil, ?Rsum_cons, ?IH; ring. Qed.
Lemma Rsum_map_0 {B} (l : list B) : Rsum (map (fun _ => 0) l) = 0.
Proof. induction l as [|x l IH]; cbn [map]; rewrite ?Rsum_nil, ?Rsum_cons, ?IH; ring. Qed.
(** Interchange of two sums. *)
Lemma Rsum_swap {B C} (f : B -> C -> R) (xs : list B) (ys : list C) :
  Rsum (map (fun x => Rsum (map (f x) ys)) xs) = Rsum (map (fun y => Rsum (map (fun x => f x y) xs)) ys).
Proof.
  induction xs as [|x xs IH]; cbn [map].
  - rewrite Rsum_nil. by rewrite Rsum_map_0.
  - rewrite Rsum_cons, IH. rewrite <- Rsum_map_plus. reflexivity.
Qed.

Lemma ke_segment_sum junk nv ke v : ke_segment junk nv ke v =
  ke + Rsum (map (fun i => Rsum (map (fun o => pw (seen junk o) * (List.nth i (pu (seen junk o)) 0) ^ 2) v)) (seq 0 nv)).
Proof.
  unfold ke_segment. generalize (seq 0 nv) as l. intros l. revert ke.
  induction l as [|i l IH]; intros ke; cbn [fold_left map]; [rewrite Rsum_nil; ring|]. rewrite IH, Rsum_cons. ring.
Qed.
Lemma map_nth_seq (u : vec) : map (fun i => List.nth i u 0) (seq 0 (length u)) = u.
Proof.
  induction u as [|x u IH]; [done|]. cbn [length seq map List.nth]. f_equal. rewrite <- seq_shift, map_map. exact IH.
Qed.
Lemma speed2_nth p nv : length (pu p) = nv -> Rsum (map (fun i => (List.nth i (pu p) 0) ^ 2) (seq 0 nv)) = speed2 p.
Proof.
  intros <-. unfold speed2. transitivity (Rsum (map (fun u => u * u) (map (fun i => List.nth i (pu p) 0) (seq 0 (length (pu p)))))).
  - rewrite map_map. f_equal. apply map_ext. intros i. ring.
  - by rewrite map_nth_seq.
Qed.

Section Sums.
Context (junk : particle) (L : Z) (HL : (1 <= L)%Z).

(** ** C44.  The number of physical particles and the kinetic energy of a species are the sums over the stored particles,
    for every population with at least one particle and for a species that never had one; the particles stay as they are.
    ([junk] is what the code may find in slots that were never written: it does not matter.) *)
Theorem C44_species_number s ps : Counted L s ps ->
  exists s', get_species_number junk s = Ok (s', total_weight ps) /\ Counted L s' ps.
Proof.
  intros HC. destruct (counted_loop L HL s ps HC) as (s' & bs & HC' & Hf & Hb & _).
  exists s'. split; [|done]. unfold get_species_number. rewrite Hf.
  rewrite (fold_blocks_sum (fun v => Rsum (map (fun o => pw (seen junk o)) v))); [|done|].
  - rewrite Hb, map_some_pw, Rplus_0_l. reflexivity.
  - intros a b. by rewrite map_app, Rsum_app.
Qed.

Theorem C44_species_KE nv mass s ps : Counted L s ps -> (forall p, p ∈ ps -> length (pu p) = nv) ->
  exists s', get_species_KE junk nv mass s = Ok (s', kinetic_energy mass ps) /\ Counted L s' ps.
Proof.
  intros HC Hnv. destruct (counted_loop L HL s ps HC) as (s' & bs & HC' & Hf & Hb & _).
  exists s'. split; [|done]. unfold get_species_KE. rewrite Hf.
  set (F v := Rsum (map (fun i => Rsum (map (fun o => pw (seen junk o) * (List.nth i (pu (seen junk o)) 0) ^ 2) v)) (seq 0 nv))).
  assert (E : forall st, fold_blocks (fun ke (_ : Z) v => Ok (ke_segment junk nv ke v)) st bs = fold_blocks (fun st _ v => Ok (st + F v)) st bs).
  { clear. induction bs as [|b bs IH]; intros st; cbn [fold_blocks]; [done|]. rewrite IH. by rewrite ke_segment_sum. }
  rewrite E, (fold_blocks_sum F).
  - rewrite Hb, Rplus_0_l. do 2 f_equal. unfold F, kinetic_energy.
    rewrite <- (Rsum_swap (fun o i => pw (seen junk o) * (List.nth i (pu (seen junk o)) 0) ^ 2)).
    rewrite Rsum_map_scale, Rmult_comm. f_equal. rewrite map_map. f_equal. apply map_ext_in. intros p Hp.
    cbn [seen default]. rewrite Rsum_map_scale. f_equal. apply speed2_nth, Hnv. by apply elem_of_list_In.
  - unfold F. apply Rsum_map_0.
  - intros a b. unfold F. rewrite <- Rsum_map_plus. f_equal. apply map_ext. intros i. by rewrite map_app, Rsum_app.
Qed.

(** In the remaining case -- the last pass deleted every particle -- the sum runs over the [L] slots of one segment. *)
Theorem C44_died_out s ps g del : Reachable L s -> Stores s ps -> ps <> [] -> (forall p, p ∈ ps -> del (g p) = true) ->
  exists s1 s2 (v : list (option particle)), py_step s (Pass g del) = Ok (s1, ODone) /\ get_number_of_items s1 = 0%Z /\
    Z.of_nat (length v) = L /\ get_species_number junk s1 = Ok (s2, Rsum (map (fun o => pw (seen junk o)) v)).
Proof.
  intros HR HS Hne Hd. destruct (C07_died_out_species L s ps g del HL HR HS Hne Hd) as (s1 & E & Hc & (s2 & v & Ei & Hv) & _).
  assert (HR1 : Reachable L s1) by (by eapply r_op).
  assert (HS1 : Stores s1 []).
  { split; [done|]. intros k x Hk. by rewrite lookup_nil in Hk. }
  destruct (for_out_blocks L HL s1 [] HR1 HS1) as (s3 & bs & _ & _ & Hf & Hb).
  rewrite bool_decide_eq_false_2 in Hb by (intros H; by apply H).
  destruct Hb as [->|(w & -> & Hw)].
  - specialize (Hf unit (fun _ _ _ => Raise OutOfFuel) tt). unfold for_out in Hf. rewrite Ei in Hf. done.
  - exists s1, s3, w. split; [done|]. split; [done|]. split; [done|]. unfold get_species_number. rewrite Hf.
    cbn [fold_blocks]. by rewrite Rplus_0_l.
Qed.
End Sums.

(** The particles of the examples: weight [w], velocity ([u], [v]). *)
Definition sp (w u v : R) : particle := Particle [0; 0] [0; 0] [u; v] w 0 0 0 0.

(** A species of which every particle was deleted still has a number of physical particles, whatever the unused
    slots contain: here two particles of weight 2 and 3 went through a pass and were then deleted, and
    the number is 6 (the second is counted twice). *)
Theorem C44_died_out_number_refuted :
  exists (s : sap particle), Reachable 2 s /\ Stores s [] /\
    forall junk, exists s', get_species_number junk s = Ok (s', 6).
Proof.
  set (h := [Push (sp 2 1 0); Push (sp 3 0 1); Pass (fun p => p) (fun _ => false); Pass (fun p => p) (fun _ => true)]).
  exists (snd (run py_step (sap_init 2) h)). split; [|split].
  - apply (run_reach 2 h (sap_init 2) [OPos 0 0; OPos 1 1; ODone; ODone]); [constructor|]. cbv -[sp]. reflexivity.
  - split; [cbv -[sp]; reflexivity|]. intros k x Hk. by rewrite lookup_nil in Hk.
  - intros junk.
    assert (E : forall b, exists s', for_out b (snd (run py_step (sap_init 2) h)) 0 =
      let! st1 := b 0 2%Z [Some (sp 3 0 1); Some (sp 3 0 1)] in Ok (s', st1)).
    { intros b. eexists. cbv -[sp Rplus IZR]. destruct (b _ _ _); reflexivity. }
    unfold get_species_number. destruct (E (fun num _ v => Ok (num + Rsum (map (fun o => pw (seen junk o)) v)))) as [s' ->].
    exists s'. do 2 f_equal. unfold Rsum, sp. cbn. lra.
Qed.

(** Example: after a pass that deleted the second of three particles, and one more particle stored. *)
Definition eg_hist : list (op particle) :=
  [Push (sp 2 1 0); Push (set_pcell (sp 3 0 1) 7); Push (sp 4 1 2); Pass (fun p => p) (fun p => (pcell p =? 7)%Z); Push (sp 1 0 3)].
Example C44_example junk : exists s s1 s2, Counted 2 s [sp 2 1 0; sp 4 1 2; sp 1 0 3] /\
  get_species_number junk s = Ok (s1, 7) /\ get_species_KE junk 2 2 s = Ok (s2, 31).
Proof.
  set (s := snd (run py_step (sap_init 2) eg_hist)).
  assert (HC : Counted 2 s [sp 2 1 0; sp 4 1 2; sp 1 0 3]).
  { split; [|split; [split|intros H; discriminate H]].
    - apply (run_reach 2 eg_hist (sap_init 2) [OPos 0 0; OPos 1 1; OPos 0 2; ODone; OPos 0 2]); [constructor|]. cbv -[IZR]. reflexivity.
    - cbv -[IZR]. reflexivity.
    - intros k x Hk. destruct k as [|[|[|k]]]; cbn in Hk; try discriminate Hk; injection Hk as <-; cbv -[IZR]; reflexivity. }
  exists s.
  destruct (C44_species_number junk 2 ltac:(lia) s _ HC) as (s1 & E1 & _).
  destruct (C44_species_KE junk 2 ltac:(lia) 2 2 s _ HC) as (s2 & E2 & _).
  { intros p Hp. repeat (apply elem_of_cons in Hp as [->|Hp]; [reflexivity|]). apply elem_of_nil in Hp. destruct Hp. }
  exists s1, s2. split; [exact HC|]. rewrite E1, E2. split; do 2 f_equal.
  - unfold total_weight, Rsum. cbn. lra.
  - unfold kinetic_energy, speed2, Rsum. cbn. lra.
Qed.

Print Assumptions C44_species_number.
Print Assumptions C44_species_KE.
Print Assumptions C44_died_out.
Print Assumptions C44_died_out_number_refuted.
