(** C65: what the solution of Poisson's equation is computed from, and the field that the particles feel after it. *)
From stdpp Require Import strings list_numbers.
From Verif Require Import SapModel MoverModel SapProofs SapSpec SapRefine StorageProps.
From Verif Require Import Vec VecProofs TrackModel DiagModel DiagProofs SumProps DumpProps DensityModel DensityProps MeshFieldModel MeshFieldProps CppFieldProps.
From Verif Require Import DeltaModel DeltaProps.
From Verif Require Import SolveModel.
From Verif Require Import FieldProps.
Local Open Scope R_scope.

(** ** Any solver *)

Section Any.
Context (fl : R -> R) (form : matrix) (load : R + string -> option (list R)) (bcs : list dirichlet).
Context (lu : matrix -> list R -> list R) (project : list R -> list R) (constant : bool).
Notation solve := (solve_for_phi fl form bcs lu project constant).
Notation calls := (do_calls fl form load bcs lu project constant).
Notation one := (do_call fl form load bcs lu project constant).

Lemma bcs_length l : forall b, length (bcs_vector l b) = length b.
Proof using. unfold bcs_vector. induction l as [|bc l IH]; intros b; [reflexivity|]. cbn [fold_left]. rewrite IH. apply scatter_len. Qed.
Lemma fill_inv b v x : fill b v = Ok x -> x = v /\ length v = length b.
Proof using. unfold fill. destruct (Nat.eqb_spec (length v) (length b)) as [E|E]; [|discriminate]. intros [= <-]. split; [reflexivity|exact E]. Qed.
Lemma fill_ok b v : length v = length b -> fill b v = Ok v.
Proof using. intros H. unfold fill. rewrite H, Nat.eqb_refl. reflexivity. Qed.

(** The matrix that a call of [solve_for_phi] uses. *)
Definition mat (s : solver) : matrix := if constant then sA s else bcs_matrix bcs form.
(** The charge after the factor. *)
Definition scaled (q : field) (f : option R) : field :=
  match f with Some x => FieldObj (map (fun y => fl (y * x)) (fvals q)) (frep q) | None => q end.
Definition with_negE (s : solver) (u : list R) : option field :=
  match snegE s with Some F => Some (FieldObj (fvals F) (Some (project u))) | None => None end.

Lemma solve_charge s q f : length (fvals q) = length (sb s) ->
  let b := bcs_vector bcs (fvals (scaled q f)) in let u := lu (mat s) b in
  solve s (Some q) f = Ok (Solver (mat s) b u (with_negE s u), Some (scaled q f)).
Proof using.
  intros H. cbn zeta. unfold solve_for_phi, scaled, mat, with_negE. destruct f as [f|]; cbn [fvals frep].
  - rewrite fill_ok by (rewrite map_length; exact H). destruct (snegE s); reflexivity.
  - rewrite fill_ok by exact H. destruct (snegE s); reflexivity.
Qed.
Lemma solve_charge_bad s q f : length (fvals q) <> length (sb s) -> solve s (Some q) f = Raise RuntimeError.
Proof using.
  intros H. unfold solve_for_phi, fill. destruct f as [f|]; cbn [fvals]; [rewrite map_length|]; apply Nat.eqb_neq in H; rewrite H; reflexivity.
Qed.
Lemma solve_old s f : let u := lu (mat s) (sb s) in solve s None f = Ok (Solver (mat s) (sb s) u (with_negE s u), None).
Proof using. cbn zeta. unfold solve_for_phi, mat, with_negE. destruct (snegE s); reflexivity. Qed.

(** What the calls keep: the matrix, the length of [b], and whether there is an electric field. *)
Definition kept (s s' : solver) : Prop :=
  length (sb s') = length (sb s) /\ (sA s = bcs_matrix bcs form -> sA s' = bcs_matrix bcs form) /\ (snegE s = None <-> snegE s' = None).
Lemma source_inv d s s' : assemble_source load bcs d s = Ok s' -> length (sb s') = length (sb s) /\ sA s' = sA s /\ su s' = su s /\ snegE s' = snegE s.
Proof using.
  unfold assemble_source. destruct d as [|e|x|]; try (intros H; discriminate H).
  all: match goal with |- context [load ?e] => destruct (load e) as [v|] end; try (intros H; discriminate H).
  all: destruct (fill (sb s) v) as [b|] eqn:E; try (intros H; discriminate H).
  all: apply fill_inv in E as [-> E]; intros [= <-]; cbn [sb sA su snegE]; rewrite bcs_length; repeat split; exact E || reflexivity.
Qed.
Lemma solve_inv s c f s' c' : solve s c f = Ok (s', c') -> length (sb s') = length (sb s) /\ sA s' = mat s /\ su s' = lu (mat s) (sb s') /\ snegE s' = with_negE s (su s').
Proof using.
  destruct c as [q|].
  - destruct (Nat.eq_dec (length (fvals q)) (length (sb s))) as [E|E]; [|rewrite solve_charge_bad by exact E; intros H; discriminate H].
    rewrite (solve_charge s q f E). intros H. injection H as <- <-. cbn [sb sA su snegE]. rewrite bcs_length. unfold scaled.
    destruct f; cbn [fvals]; rewrite ?map_length; repeat split; exact E.
  - rewrite (solve_old s f). intros H. injection H as <- <-. cbn [sb sA su snegE]. repeat split; reflexivity.
Qed.
Lemma mat_kept s : sA s = bcs_matrix bcs form -> mat s = bcs_matrix bcs form.
Proof using. unfold mat. destruct constant; [trivial|reflexivity]. Qed.
Lemma with_negE_none s u : snegE s = None <-> with_negE s u = None.
Proof using. unfold with_negE. destruct (snegE s); split; intros H; [discriminate H|discriminate H|reflexivity|reflexivity]. Qed.
Lemma call_kept k s q s' q' : one k (s, q) = Ok (s', q') -> kept s s'.
Proof using.
  unfold do_call. destruct k as [d|g|g| |f].
  - destruct (assemble_source load bcs d s) as [s1|] eqn:E; [|intros H; discriminate H]. intros [= <- <-]. apply source_inv in E as (H1 & H2 & H3 & H4).
    split; [exact H1|]. rewrite H2, H4. split; [trivial|reflexivity].
  - destruct (on_values g q) as [q1|]; [|intros H; discriminate H]. intros [= <- <-]. split; [reflexivity|]. split; [trivial|reflexivity].
  - destruct (snegE s) as [F|] eqn:EF; [|intros H; discriminate H]. destruct (on_values g F) as [F1|]; [|intros H; discriminate H].
    intros [= <- <-]. unfold kept. cbn [sb sA snegE]. rewrite EF. split; [reflexivity|]. split; [trivial|]. split; intros H; discriminate H.
  - destruct (solve s None None) as [[s1 c1]|] eqn:E; [|intros H; discriminate H]. intros [= <- <-]. apply solve_inv in E as (H1 & H2 & H3 & H4).
    split; [exact H1|]. cbn [fst]. rewrite H2, H4. split; [apply mat_kept|apply with_negE_none].
  - destruct (solve s (Some q) f) as [[s1 c1]|] eqn:E; [|intros H; discriminate H]. intros [= <- <-]. apply solve_inv in E as (H1 & H2 & H3 & H4).
    split; [exact H1|]. cbn [fst]. rewrite H2, H4. split; [apply mat_kept|apply with_negE_none].
Qed.
Lemma calls_kept ks : forall s q s' q', calls ks (s, q) = Ok (s', q') -> kept s s'.
Proof using.
  induction ks as [|k ks IH]; intros s q s' q'; cbn [do_calls].
  - intros [= <- <-]. split; [reflexivity|]. split; [trivial|reflexivity].
  - destruct (one k (s, q)) as [[s1 q1]|] eqn:E; [|intros H; discriminate H]. intros H. apply IH in H as (K1 & K2 & K3).
    apply call_kept in E as (L1 & L2 & L3). split; [congruence|]. split; [auto|]. rewrite L3. exact K3.
Qed.
Lemma new_inv phi E s : new_solver form load bcs phi E = Ok s -> length (sb s) = length phi /\ sA s = bcs_matrix bcs form /\ su s = phi /\ snegE s = E.
Proof using.
  unfold new_solver. intros H. apply source_inv in H as (H1 & H2 & H3 & H4). cbn [assemble_matrix sb sA su snegE] in *.
  rewrite replicate_length in H1. repeat split; assumption.
Qed.

(** The coefficients of the electric field that the particles get. *)
Definition felt (s : solver) : option (list R) := fcoeffs <$> snegE s.

(** C65: a solution with a charge depends on that charge only: whatever sources were set and whatever was solved before, the potential and the
    electric field are those that a new solver computes for the same charge, and so is what the call leaves in the charge.  The only
    failure is a charge with a wrong number of values. *)
Theorem C65_history phi E s ks q0 s1 q1 q f : new_solver form load bcs phi E = Ok s -> calls ks (s, q0) = Ok (s1, q1) ->
  (length (fvals q) = length phi -> exists s2 s3 c, solve s1 (Some q) f = Ok (s2, Some c) /\ solve s (Some q) f = Ok (s3, Some c) /\
     su s2 = su s3 /\ felt s2 = felt s3) /\
  (length (fvals q) <> length phi -> solve s1 (Some q) f = Raise RuntimeError).
Proof using.
  intros Hn Hk. apply new_inv in Hn as (N1 & N2 & _ & N4). apply calls_kept in Hk as (K1 & K2 & K3). rewrite <- N1, <- K1. split.
  - intros Hl. rewrite (solve_charge s1 q f Hl), (solve_charge s q f) by congruence. eexists _, _, _. split; [reflexivity|]. split; [reflexivity|].
    cbn [su]. rewrite (mat_kept s N2), (mat_kept s1 (K2 N2)). split; [reflexivity|]. unfold felt, with_negE. cbn [snegE].
    destruct (snegE s) as [F|] eqn:EF, (snegE s1) as [F1|] eqn:EF1; [reflexivity| | |reflexivity].
    + destruct K3 as [_ K3]. specialize (K3 eq_refl). discriminate K3.
    + destruct K3 as [K3 _]. specialize (K3 eq_refl). discriminate K3.
  - intros Hl. by apply solve_charge_bad.
Qed.

(** C65: in particular a source that was set before is lost, although [solve_for_phi] says that the charge is added to it: the result is the same
    to the last detail. *)
Theorem C65_background_lost d s s1 q f : assemble_source load bcs d s = Ok s1 -> solve s1 (Some q) f = solve s (Some q) f.
Proof using.
  intros H. apply source_inv in H as (H1 & H2 & _ & H4). unfold solve_for_phi. rewrite H2, H4. destruct f; unfold fill; rewrite H1; reflexivity.
Qed.

(** C65: a solution without a charge uses what the last source or the last charge left: after a solution with a charge, nothing that is done with
    the charge field or with the values of the electric field changes the solution, until the next source or charge. *)
Definition quiet (k : call) : Prop := match k with KCharge _ | KField _ | KSolve => True | _ => False end.
Lemma quiet_call k s q s' q' : quiet k -> one k (s, q) = Ok (s', q') -> sb s' = sb s /\ mat s' = mat s.
Proof using.
  unfold do_call. destruct k as [d|g|g| |f]; intros Hq; try contradiction.
  - destruct (on_values g q) as [q1|]; [|intros H; discriminate H]. intros [= <- <-]. split; reflexivity.
  - destruct (snegE s) as [F|]; [|intros H; discriminate H]. destruct (on_values g F) as [F1|]; [|intros H; discriminate H]. intros [= <- <-]. split; reflexivity.
  - rewrite (solve_old s None). intros [= <- <-]. cbn [fst sb]. split; [reflexivity|]. unfold mat. cbn [sA]. destruct constant; reflexivity.
Qed.
Theorem C65_reuse f s q s1 q1 ks s2 q2 : one (KSolveCharge f) (s, q) = Ok (s1, q1) -> calls ks (s1, q1) = Ok (s2, q2) -> Forall quiet ks ->
  exists s3, one KSolve (s2, q2) = Ok (s3, q2) /\ su s3 = su s1 /\ felt s3 = felt s1.
Proof using.
  unfold do_call at 1. destruct (solve s (Some q) f) as [[s1' c1]|] eqn:E; [|intros H; discriminate H]. cbn [fst snd]. intros [= -> Hq].
  apply solve_inv in E as (_ & HA & Hu & HE). intros Hk Hf.
  assert (sb s2 = sb s1 /\ mat s2 = mat s1 /\ kept s1 s2) as (Hb & Hm & _ & _ & Hn).
  { clear HA Hu HE Hq. revert s1 q1 Hk. induction ks as [|k ks IH]; intros s1 q1; cbn [do_calls].
    - intros [= -> ->]. split; [reflexivity|]. split; [reflexivity|]. split; [reflexivity|]. split; [trivial|reflexivity].
    - destruct (one k (s1, q1)) as [[sx qx]|] eqn:E1; [|intros H; discriminate H]. intros H. apply Forall_cons_1 in Hf as [Hf1 Hf2].
      destruct (IH Hf2 sx qx H) as (P1 & P2 & P3 & P4 & P5). destruct (quiet_call k s1 q1 sx qx Hf1 E1) as [Q1 Q2]. apply call_kept in E1 as (L1 & L2 & L3).
      split; [congruence|]. split; [congruence|]. split; [congruence|]. split; [auto|]. rewrite L3. exact P5. }
  assert (Hms : mat s1 = mat s) by (unfold mat; rewrite HA; unfold mat; destruct constant; reflexivity).
  unfold do_call. rewrite (solve_old s2 None). cbn [fst]. eexists. split; [reflexivity|]. cbn [su]. rewrite Hm, Hms, Hb, <- Hu. split; [reflexivity|].
  unfold felt. cbn [snegE]. rewrite HE. unfold with_negE. rewrite HE in Hn. unfold with_negE in Hn.
  destruct (snegE s) as [F|], (snegE s2) as [F2|]; [reflexivity| | |reflexivity].
  - destruct Hn as [_ Hn]. specialize (Hn eq_refl). discriminate Hn.
  - destruct Hn as [Hn _]. specialize (Hn eq_refl). discriminate Hn.
Qed.

(** C65: a solution gives the electric field a new function: [function_values] keeps the values from before, and nothing that is done with
    [function_values] after it changes the field at the particles, until the next solution. *)
Definition unsolved (k : call) : Prop := match k with KSolve | KSolveCharge _ => False | _ => True end.
Theorem C65_stale s c f s1 c1 F ks q s2 q2 : snegE s = Some F -> solve s c f = Ok (s1, c1) -> calls ks (s1, q) = Ok (s2, q2) -> Forall unsolved ks ->
  (exists F1, snegE s1 = Some F1 /\ fvals F1 = fvals F) /\ felt s1 = Some (project (su s1)) /\ su s2 = su s1 /\ felt s2 = Some (project (su s1)).
Proof using.
  intros HF Hs Hk Hu. apply solve_inv in Hs as (_ & _ & _ & HE). unfold with_negE in HE. rewrite HF in HE.
  assert (H1 : felt s1 = Some (project (su s1))) by (unfold felt; rewrite HE; reflexivity).
  assert (HP : exists v, snegE s1 = Some (FieldObj v (Some (project (su s1))))) by (eexists; exact HE).
  split; [eexists; split; [exact HE|reflexivity]|]. split; [exact H1|]. clear HE H1.
  revert s1 q Hk HP. induction ks as [|k ks IH]; intros s1 q; cbn [do_calls].
  - intros [= <- <-] [v Hv]. split; [reflexivity|]. unfold felt. rewrite Hv. reflexivity.
  - apply Forall_cons_1 in Hu as [Hu1 Hu2]. destruct (one k (s1, q)) as [[sx qx]|] eqn:E; [|intros H; discriminate H]. intros H [v Hv].
    assert (su sx = su s1 /\ exists w, snegE sx = Some (FieldObj w (Some (project (su s1))))) as [Hx [w Hw]].
    { clear IH H. unfold do_call in E. destruct k as [d|g|g| |fk]; try contradiction.
      - destruct (assemble_source load bcs d s1) as [sy|] eqn:E1; [|discriminate E]. injection E as <- <-. apply source_inv in E1 as (_ & _ & E3 & E4).
        rewrite E3, E4. split; [reflexivity|]. exists v. exact Hv.
      - destruct (on_values g q) as [q1|]; [|discriminate E]. injection E as <- <-. split; [reflexivity|]. exists v. exact Hv.
      - rewrite Hv in E. unfold on_values in E. cbn [fvals frep] in E. destruct (g v) as [w|]; [|discriminate E]. injection E as <- <-. split; [reflexivity|]. exists w. reflexivity. }
    destruct (IH Hu2 sx qx H) as [P1 P2]; [exists w; rewrite Hx; exact Hw|]. rewrite Hx in P1, P2. split; assumption.
Qed.
End Any.

(** C65: the factor is applied to the caller's charge, for good: [k] solutions in a row with factor [f] leave [f^k] times the charge, and the last
    of them is the solution for that charge. *)
Theorem C65_repeat form load bcs lu project constant phi E s q f k :
  new_solver form load bcs phi E = Ok s -> length (fvals q) = length phi -> exists s1 s2,
  do_calls exact form load bcs lu project constant (replicate (S k) (KSolveCharge (Some f))) (s, q) = Ok (s1, FieldObj (map (fun x => x * f ^ S k) (fvals q)) (frep q)) /\
  do_call exact form load bcs lu project constant (KSolveCharge (Some (f ^ S k))) (s, q) = Ok (s2, FieldObj (map (fun x => x * f ^ S k) (fvals q)) (frep q)) /\
  su s1 = su s2 /\ felt s1 = felt s2.
Proof.
  intros Hn Hl. pose proof (new_inv form load bcs phi E s Hn) as (N1 & N2 & _ & _). unfold do_call at 1. rewrite <- N1 in Hl.
  assert (HK : forall m s' (q' : field), kept form bcs s s' -> length (fvals q') = length (fvals q) ->
     exists s1, do_calls exact form load bcs lu project constant (replicate (S m) (KSolveCharge (Some f))) (s', q') = Ok (s1, FieldObj (map (fun x => x * f ^ S m) (fvals q')) (frep q')) /\
       su s1 = lu (bcs_matrix bcs form) (bcs_vector bcs (map (fun x => x * f ^ S m) (fvals q'))) /\ felt s1 = (fun _ => project (su s1)) <$> snegE s).
  { clear k. induction m as [|m IH]; intros s' q' HK Hq'; pose proof HK as (K1 & K2 & K3).
    - cbn [replicate do_calls]. unfold do_call. rewrite (solve_charge exact form bcs lu project constant s' q' (Some f)) by congruence.
      cbn [fst snd default]. eexists. split.
      { unfold scaled, default. cbn [Datatypes.id]. do 3 f_equal. apply map_ext. intros x. unfold exact. ring. }
      cbn [su]. rewrite (mat_kept form bcs constant s' (K2 N2)). split; [unfold scaled; cbn [fvals]; do 2 f_equal; apply map_ext; intros x; unfold exact; ring|].
      unfold felt, with_negE. cbn [snegE su]. destruct (snegE s) as [F|], (snegE s') as [F'|]; [reflexivity| | |reflexivity].
      + destruct K3 as [_ K3]. specialize (K3 eq_refl). discriminate K3.
      + destruct K3 as [K3 _]. specialize (K3 eq_refl). discriminate K3.
    - change (replicate (S (S m)) (KSolveCharge (Some f))) with (KSolveCharge (Some f) :: replicate (S m) (KSolveCharge (Some f))). cbn [do_calls].
      destruct (do_call exact form load bcs lu project constant (KSolveCharge (Some f)) (s', q')) as [[s3 q3]|] eqn:E3.
      + pose proof (call_kept _ _ _ _ _ _ _ _ _ _ _ _ E3) as (L1 & L2 & L3). unfold do_call in E3.
        rewrite (solve_charge exact form bcs lu project constant s' q' (Some f)) in E3 by congruence. cbn [fst snd default] in E3. injection E3 as E3 Eq3. subst q3.
        unfold default, scaled.
        destruct (IH s3 (FieldObj (map (fun y => exact (y * f)) (fvals q')) (frep q'))) as (s1 & C1 & C2 & C3).
        * split; [congruence|]. split; [auto|]. rewrite K3. exact L3.
        * cbn [fvals]. rewrite map_length. exact Hq'.
        * cbn [fvals frep] in C1, C2. rewrite map_map in C1, C2.
          assert (HM : map (fun x => exact (x * f) * f ^ S m) (fvals q') = map (fun x => x * f ^ S (S m)) (fvals q')) by (apply map_ext; intros x; unfold exact; change (f ^ S (S m)) with (f * f ^ S m); ring).
          rewrite HM in C1, C2. exists s1. split; [exact C1|]. split; [exact C2|exact C3].
      + exfalso. unfold do_call in E3. rewrite (solve_charge exact form bcs lu project constant s' q' (Some f)) in E3 by congruence. discriminate E3. }
  destruct (HK k s q) as (s1 & C1 & C2 & C3); [split; [reflexivity|]; split; [trivial|reflexivity]|reflexivity|].
  exists s1. rewrite (solve_charge exact form bcs lu project constant s q (Some (f ^ S k)) Hl). cbn [fst snd default]. eexists.
  split; [exact C1|]. split; [reflexivity|]. cbn [su]. rewrite (mat_kept form bcs constant s N2). split; [exact C2|].
  rewrite C3, C2. unfold felt, with_negE. cbn [snegE]. destruct (snegE s); reflexivity.
Qed.

(** ** One radial coordinate *)

(** [x] solves the linear system. *)
Definition solves (n : nat) (A : matrix) (x b : list R) : Prop :=
  length x = n /\ forall i, (i < n)%nat -> Rsum (map (fun j => A i j * at_ x j) (seq 0 n)) = at_ b i.

Lemma seq_sum_S (g : nat -> R) n : Rsum (map g (seq 0 (S n))) = Rsum (map g (seq 0 n)) + g n.
Proof. rewrite seq_S, map_app, Rsum_app. cbn [map]. rewrite Rsum_cons, Rsum_nil. cbn. lra. Qed.
Lemma Rsum_ext_seq (g h : nat -> R) n : (forall i, (i < n)%nat -> g i = h i) -> Rsum (map g (seq 0 n)) = Rsum (map h (seq 0 n)).
Proof. intros H. f_equal. apply map_ext_in. intros i Hi%in_seq. apply H. lia. Qed.

Section Radial.
Context (X : list R) (dn : nat -> nat) (eps : R).
Context (HX : DeltaProps.increasing X) (H0 : 0 <= at_ X 0) (Hn2 : (2 <= length X)%nat) (Hdn : numbering X dn) (Heps : 0 < eps).
Notation n := (length X).
Notation h c := (at_ X (S c) - at_ X c).
(** The mean of [r**2] in a cell. *)
Definition rr (c : nat) : R := (at_ X c ^ 2 + at_ X c * at_ X (S c) + at_ X (S c) ^ 2) / 3.
(** The derivative of the potential in a cell, and the flux: [eps] times the mean of [r**2] times the electric field. *)
Definition grad (x : list R) (c : nat) : R := (at_ x (dn (S c)) - at_ x (dn c)) / h c.
Definition flux (x : list R) (c : nat) : R := eps * rr c * - grad x c.

Lemma h_pos c : (S c < n)%nat -> 0 < h c.
Proof. intros H. specialize (HX c H). lra. Qed.
Lemma X_nonneg c : (c < n)%nat -> 0 <= at_ X c.
Proof. intros H. destruct c as [|c]; [exact H0|]. pose proof (increasing_lt X 0 (S c) HX ltac:(lia) H). lra. Qed.
Lemma rr_pos c : (S c < n)%nat -> 0 < rr c.
Proof. intros H. pose proof (X_nonneg c ltac:(lia)). pose proof (HX c H). unfold rr. nra. Qed.
Lemma slope_sum c x : (S c < n)%nat -> Rsum (map (fun j => slope X dn c j * at_ x j) (seq 0 n)) = grad x c.
Proof.
  intros Hc. unfold slope, grad. change (nth (S c) X 0) with (at_ X (S c)). change (nth c X 0) with (at_ X c).
  destruct (Hdn (S c) Hc) as [B1 _], (Hdn c ltac:(lia)) as [B2 _].
  rewrite (map_ext _ (fun j => / h c * ((if (dn (S c) =? j)%nat then at_ x (dn (S c)) else 0) + (if (dn c =? j)%nat then - at_ x (dn c) else 0)))).
  - rewrite Rsum_map_scale, Rsum_map_plus, (pick_one (dn (S c)) n _ B1), (pick_one (dn c) n _ B2). unfold Rdiv. ring.
  - intros j. destruct (Nat.eqb_spec (dn (S c)) j) as [->|]; destruct (Nat.eqb_spec (dn c) j) as [->|]; unfold Rdiv; ring.
Qed.
(** The rows of the matrix, without the boundary conditions. *)
Lemma shell_rr c : (S c < n)%nat -> shell X c = rr c * h c.
Proof. intros Hc. unfold shell, rr. change (nth (S c) X 0) with (at_ X (S c)). change (nth c X 0) with (at_ X c). field. Qed.
Lemma form_row x v : (v < n)%nat -> Rsum (map (fun j => radial_form X dn eps (dn v) j * at_ x j) (seq 0 n)) =
  (if (S v <? n)%nat then flux x v else 0) - (match v with O => 0 | S w => flux x w end).
Proof.
  intros Hv. unfold radial_form.
  rewrite (map_ext _ (fun j => Rsum (map (fun c => eps * (slope X dn c (dn v) * slope X dn c j * shell X c) * at_ x j) (seq 0 (n - 1))))).
  2: { intros j. rewrite Rmult_comm, <- Rsum_map_scale. f_equal. apply map_ext. intros c. ring. }
  rewrite Rsum_swap.
  transitivity (Rsum (map (fun c => (if (c =? v)%nat then flux x v else 0) + (if (S c =? v)%nat then - flux x c else 0)) (seq 0 (n - 1)))).
  - apply Rsum_ext_seq. intros c Hc.
    rewrite (map_ext _ (fun j => eps * slope X dn c (dn v) * shell X c * (slope X dn c j * at_ x j))) by (intros j; ring).
    rewrite Rsum_map_scale, slope_sum by lia. rewrite shell_rr by lia. pose proof (h_pos c ltac:(lia)) as Hh.
    unfold slope. change (nth (S c) X 0) with (at_ X (S c)). change (nth c X 0) with (at_ X c).
    assert (K1 : (dn (S c) =? dn v)%nat = (S c =? v)%nat).
    { destruct (Nat.eqb_spec (S c) v) as [->|Hne]; [apply Nat.eqb_refl|]. apply Nat.eqb_neq. intros Hd. apply Hne. apply (Hdn v Hv); [lia|exact Hd]. }
    assert (K2 : (dn c =? dn v)%nat = (c =? v)%nat).
    { destruct (Nat.eqb_spec c v) as [->|Hne]; [apply Nat.eqb_refl|]. apply Nat.eqb_neq. intros Hd. apply Hne. apply (Hdn v Hv); [lia|exact Hd]. }
    rewrite K1, K2. destruct (Nat.eqb_spec (S c) v) as [E1|E1]; destruct (Nat.eqb_spec c v) as [E2|E2].
    + lia.
    + subst v. unfold flux. field. lra.
    + subst v. unfold flux. field. lra.
    + unfold Rdiv. ring.
  - rewrite Rsum_map_plus. unfold Rminus. f_equal.
    + destruct (Nat.ltb_spec (S v) n) as [Hl|Hl].
      * rewrite (map_ext _ (fun c => if (v =? c)%nat then flux x v else 0)) by (intros c; rewrite Nat.eqb_sym; reflexivity). apply pick_one. lia.
      * transitivity (Rsum (map (fun _ : nat => 0) (seq 0 (n - 1)))); [|apply Rsum_map_0]. apply Rsum_ext_seq. intros c Hc.
        destruct (Nat.eqb_spec c v); [lia|reflexivity].
    + destruct v as [|w].
      * transitivity (Rsum (map (fun _ : nat => 0) (seq 0 (n - 1)))); [|rewrite Rsum_map_0; ring]. apply Rsum_ext_seq. intros c Hc. reflexivity.
      * rewrite (map_ext _ (fun c => if (w =? c)%nat then - flux x w else 0)).
        -- apply pick_one. lia.
        -- intros c. destruct (Nat.eqb_spec (S c) (S w)) as [E|E]; destruct (Nat.eqb_spec w c) as [E'|E']; try lia; [subst; reflexivity|reflexivity].
Qed.

(** Every degree of freedom belongs to a vertex, and a vector can be given by its values at the vertices. *)
Lemma dn_onto i : (i < n)%nat -> exists v, (v < n)%nat /\ dn v = i.
Proof.
  intros Hi. assert (HI : incl (seq 0 n) (map dn (seq 0 n))).
  { apply NoDup_length_incl.
    - apply NoDup_ListNoDup. apply NoDup_fmap_2_strong; [|apply NoDup_seq]. intros v w Hv%elem_of_seq Hw%elem_of_seq He. apply (Hdn w); [lia|lia|exact He].
    - rewrite map_length. lia.
    - intros j Hj%in_map_iff. destruct Hj as (v & <- & Hv%in_seq). apply in_seq. destruct (Hdn v ltac:(lia)). lia. }
  assert (Hin : In i (map dn (seq 0 n))) by (apply HI, in_seq; lia). apply in_map_iff in Hin as (v & Hv & Hs%in_seq). exists v. split; [lia|exact Hv].
Qed.
Lemma from_vertices (y : nat -> R) : exists x, length x = n /\ forall v, (v < n)%nat -> at_ x (dn v) = y v.
Proof.
  assert (HK : forall m, (m <= n)%nat -> exists x, length x = n /\ forall v, (v < m)%nat -> at_ x (dn v) = y v).
  { induction m as [|m IH]; intros Hm.
    - exists (replicate n 0). split; [apply replicate_length|]. intros v Hv. lia.
    - destruct IH as (x & Hl & Hx); [lia|]. exists (<[dn m := y m]> x). split; [rewrite insert_length; exact Hl|]. intros v Hv.
      destruct (Hdn m ltac:(lia)) as [Hb Hi]. rewrite at_insert by lia. destruct (Nat.eqb_spec (dn v) (dn m)) as [E|E].
      + rewrite (Hi v ltac:(lia) E). reflexivity.
      + apply Hx. destruct (Nat.eq_dec v m) as [->|]; [contradiction|lia]. }
  exact (HK n (le_n n)).
Qed.

Context (rmin : option R) (rmax : R).
Notation bcs := (radial_bcs X dn rmin rmax).
(** The vertices at which the potential is given. *)
Definition given (v : nat) : option R := if (v =? n - 1)%nat then Some rmax else if (v =? 0)%nat then rmin else None.

Lemma dn_eqb v w : (v < n)%nat -> (w < n)%nat -> (dn v =? dn w)%nat = (v =? w)%nat.
Proof.
  intros Hv Hw. destruct (Nat.eqb_spec v w) as [->|Hne]; [apply Nat.eqb_refl|]. apply Nat.eqb_neq. intros Hd. apply Hne. apply (proj2 (Hdn w Hw) v Hv Hd).
Qed.
Lemma bcs_at b v : length b = n -> (v < n)%nat -> at_ (bcs_vector bcs b) (dn v) = match given v with Some y => y | None => at_ b (dn v) end.
Proof.
  intros Hb Hv. unfold radial_bcs, bcs_vector, given. destruct (Hdn 0%nat ltac:(lia)) as [B0 _], (Hdn (n - 1)%nat ltac:(lia)) as [B1 _].
  destruct rmin as [y|]; cbn [fold_left]; unfold bc_vector; cbn [fst snd map scatter].
  - rewrite at_insert by (rewrite insert_length; lia). rewrite dn_eqb by lia. destruct (v =? n - 1)%nat; [reflexivity|].
    rewrite at_insert by lia. rewrite dn_eqb by lia. destruct (v =? 0)%nat; reflexivity.
  - rewrite at_insert by lia. rewrite dn_eqb by lia. destruct (v =? n - 1)%nat; [reflexivity|]. destruct (v =? 0)%nat; reflexivity.
Qed.
Lemma in_one (i j : nat) : bool_decide (i ∈ [j]) = (i =? j)%nat.
Proof. destruct (Nat.eqb_spec i j) as [->|E]; [apply bool_decide_eq_true; constructor|]. apply bool_decide_eq_false. intros H%elem_of_list_singleton. contradiction. Qed.
Lemma bcs_row A v j : (v < n)%nat -> bcs_matrix bcs A (dn v) j = match given v with Some _ => if (dn v =? j)%nat then 1 else 0 | None => A (dn v) j end.
Proof.
  intros Hv. unfold radial_bcs, bcs_matrix, given. destruct rmin as [y|]; cbn [fold_left]; unfold bc_matrix; cbn [fst]; rewrite !in_one, !dn_eqb by lia.
  - destruct (v =? n - 1)%nat; [reflexivity|]. destruct (v =? 0)%nat; reflexivity.
  - destruct (v =? n - 1)%nat; [reflexivity|]. destruct (v =? 0)%nat; reflexivity.
Qed.
Notation A := (bcs_matrix bcs (radial_form X dn eps)).
Notation inflow x v := (match v with O => 0 | S w => flux x w end).
Lemma solves_rows x b : length x = n -> solves n A x b <->
  forall v, (v < n)%nat -> match given v with Some _ => at_ x (dn v) | None => flux x v - inflow x v end = at_ b (dn v).
Proof.
  intros Hx. assert (HR : forall v, (v < n)%nat -> Rsum (map (fun j => A (dn v) j * at_ x j) (seq 0 n)) =
    match given v with Some _ => at_ x (dn v) | None => flux x v - inflow x v end).
  { intros v Hv. destruct (given v) as [y|] eqn:Eg.
    - rewrite (map_ext _ (fun j => if (dn v =? j)%nat then at_ x (dn v) else 0)).
      + apply pick_one. apply Hdn. exact Hv.
      + intros j. rewrite bcs_row by exact Hv. rewrite Eg. destruct (Nat.eqb_spec (dn v) j) as [->|]; ring.
    - rewrite (map_ext _ (fun j => radial_form X dn eps (dn v) j * at_ x j)).
      + rewrite form_row by exact Hv. unfold given in Eg. destruct (Nat.eqb_spec v (n - 1)) as [E|E]; [discriminate Eg|].
        destruct (Nat.ltb_spec (S v) n); [reflexivity|lia].
      + intros j. rewrite bcs_row by exact Hv. rewrite Eg. reflexivity. }
  split.
  - intros [_ Hs] v Hv. specialize (Hs (dn v) (proj1 (Hdn v Hv))). rewrite (HR v Hv) in Hs. exact Hs.
  - intros Hs. split; [exact Hx|]. intros i Hi. destruct (dn_onto i Hi) as (v & Hv & <-). rewrite (HR v Hv). exact (Hs v Hv).
Qed.
Lemma solves_iff x b : length x = n -> length b = n -> solves n A x (bcs_vector bcs b) <->
  forall v, (v < n)%nat -> match given v with Some y => at_ x (dn v) = y | None => flux x v - inflow x v = at_ b (dn v) end.
Proof.
  intros Hx Hb. rewrite (solves_rows x _ Hx). split; intros Hs v Hv; specialize (Hs v Hv); rewrite (bcs_at b v Hb Hv) in *; destruct (given v); exact Hs.
Qed.

(** The change of the potential over a cell with a given flux. *)
Definition drop (F : R) (k : nat) : R := - (h k / (eps * rr k)) * F.
Lemma eps_rr k : (S k < n)%nat -> 0 < eps * rr k.
Proof. intros H. apply Rmult_lt_0_compat; [exact Heps|]. apply rr_pos. exact H. Qed.
Lemma flux_drop x k F : (S k < n)%nat -> at_ x (dn (S k)) - at_ x (dn k) = drop F k <-> flux x k = F.
Proof.
  intros Hk. pose proof (h_pos k Hk). pose proof (rr_pos k Hk). unfold drop, flux, grad. split; intros HF.
  - rewrite HF. field. split; [|split]; lra.
  - rewrite <- HF. field. split; [|split]; lra.
Qed.
Lemma tele x v : (v < n)%nat -> at_ x (dn v) = at_ x (dn 0) + Rsum (map (fun k => drop (flux x k) k) (seq 0 v)).
Proof.
  induction v as [|v IH]; intros Hv; [cbn [seq map]; rewrite Rsum_nil; ring|].
  rewrite seq_sum_S. pose proof (proj2 (flux_drop x v (flux x v) Hv) eq_refl). rewrite IH in H by lia. lra.
Qed.
(** The charge on the vertices from the second up to [k]. *)
Definition inside (b : list R) (k : nat) : R := Rsum (map (fun v => at_ b (dn (S v))) (seq 0 k)).
Lemma sol_flux x b k : length x = n -> length b = n -> solves n A x (bcs_vector bcs b) -> (S k < n)%nat -> flux x k = flux x 0 + inside b k.
Proof.
  intros Hx Hb Hs. rewrite (solves_iff x b Hx Hb) in Hs. induction k as [|k IH]; intros Hk; [unfold inside; cbn [seq map]; rewrite Rsum_nil; ring|].
  unfold inside. rewrite seq_sum_S. fold (inside b k). specialize (Hs (S k) ltac:(lia)). unfold given in Hs.
  destruct (Nat.eqb_spec (S k) (n - 1)); [lia|]. cbn [Nat.eqb] in Hs. rewrite IH in Hs by lia. lra.
Qed.
Definition resist : R := Rsum (map (fun k => h k / (eps * rr k)) (seq 0 (n - 1))).
Lemma resist_pos : 0 < resist.
Proof.
  unfold resist.
  assert (HK : forall j, (j <= n - 1)%nat -> 0 <= Rsum (map (fun k => h k / (eps * rr k)) (seq 0 j)) /\ ((1 <= j)%nat -> 0 < Rsum (map (fun k => h k / (eps * rr k)) (seq 0 j)))).
  { induction j as [|j IH]; intros Hj; [cbn [seq map]; rewrite Rsum_nil; split; [lra|lia]|]. rewrite seq_sum_S. destruct IH as [IH _]; [lia|].
    pose proof (h_pos j ltac:(lia)) as P1. pose proof (eps_rr j ltac:(lia)) as P2. pose proof (Rdiv_lt_0_compat _ _ P1 P2). split; [lra|intros _; lra]. }
  apply (HK (n - 1)%nat); lia.
Qed.
Lemma drops g b m : (m <= n - 1)%nat -> Rsum (map (fun k => drop (g + inside b k) k) (seq 0 m)) =
  - g * Rsum (map (fun k => h k / (eps * rr k)) (seq 0 m)) + Rsum (map (fun k => drop (inside b k) k) (seq 0 m)).
Proof.
  intros Hm. rewrite <- Rsum_map_scale, <- Rsum_map_plus. f_equal. apply map_ext. intros k. unfold drop. ring.
Qed.

(** C65: for every charge the equations with the boundary conditions of the constructor have exactly one solution, with a natural condition at the
    inner boundary ([rmin] unset) or a given potential there. *)
Theorem C65_wellposed b : length b = n -> exists x, solves n A x (bcs_vector bcs b) /\ forall x', solves n A x' (bcs_vector bcs b) -> x' = x.
Proof.
  intros Hb. pose proof resist_pos as HR.
  set (S2 := Rsum (map (fun k => drop (inside b k) k) (seq 0 (n - 1)))).
  set (g := match rmin with None => at_ b (dn 0) | Some a => (a - rmax + S2) / resist end).
  set (y0 := match rmin with None => rmax - (- g * resist + S2) | Some a => a end).
  destruct (from_vertices (fun v => y0 + Rsum (map (fun k => drop (g + inside b k) k) (seq 0 v)))) as (x & Hx & Hv).
  assert (HF : forall k, (S k < n)%nat -> flux x k = g + inside b k).
  { intros k Hk. apply (flux_drop x k _ Hk). rewrite !Hv by lia. rewrite seq_sum_S. ring. }
  assert (Hlast : at_ x (dn (n - 1)) = rmax).
  { rewrite Hv by lia. rewrite (drops g b (n - 1)) by lia. fold resist S2. unfold y0, g. destruct rmin as [a|]; [field; lra|ring]. }
  assert (Hfirst : at_ x (dn 0) = y0) by (rewrite Hv by lia; cbn [seq map]; rewrite Rsum_nil; ring).
  assert (Hs : solves n A x (bcs_vector bcs b)).
  { apply (solves_iff x b Hx Hb). intros v Hvn. unfold given. destruct (Nat.eqb_spec v (n - 1)) as [->|Hl]; [exact Hlast|].
    destruct v as [|w]; cbn [Nat.eqb].
    - destruct rmin as [a|] eqn:Er; [exact Hfirst|]. rewrite HF by lia. unfold inside. cbn [seq map]. rewrite Rsum_nil. unfold g. ring.
    - rewrite !HF by lia. unfold inside. rewrite seq_sum_S. ring. }
  exists x. split; [exact Hs|]. intros x' Hs'. pose proof (proj1 Hs') as Hx'.
  assert (HF' : forall k, (S k < n)%nat -> flux x' k = flux x' 0 + inside b k) by (intros k Hk; apply sol_flux; assumption).
  pose proof Hs' as Hs2. rewrite (solves_iff x' b Hx' Hb) in Hs2.
  assert (Hlast' : at_ x' (dn (n - 1)) = rmax).
  { specialize (Hs2 (n - 1)%nat ltac:(lia)). unfold given in Hs2. rewrite Nat.eqb_refl in Hs2. exact Hs2. }
  assert (HT : forall v, (v < n)%nat -> at_ x' (dn v) = at_ x' (dn 0) + Rsum (map (fun k => drop (flux x' 0 + inside b k) k) (seq 0 v))).
  { intros v Hvn. rewrite (tele x' v Hvn). f_equal. apply Rsum_ext_seq. intros k Hk. rewrite (HF' k) by lia. reflexivity. }
  assert (Hg : flux x' 0 = g /\ at_ x' (dn 0) = y0).
  { pose proof (HT (n - 1)%nat ltac:(lia)) as HTl. rewrite Hlast', (drops _ b (n - 1)) in HTl by lia. fold resist S2 in HTl.
    specialize (Hs2 0%nat ltac:(lia)). unfold given in Hs2. destruct (Nat.eqb_spec 0 (n - 1)); [lia|]. cbn [Nat.eqb] in Hs2.
    unfold y0, g. destruct rmin as [a|].
    - split; [|exact Hs2]. rewrite Hs2 in HTl. apply (Rmult_eq_reg_r resist); [|lra]. unfold Rdiv. rewrite Rmult_assoc, Rinv_l by lra. lra.
    - assert (flux x' 0 = at_ b (dn 0)) as Hf by lra. split; [exact Hf|]. rewrite Hf in HTl. lra. }
  destruct Hg as [Hg Hy]. apply at_ext; [congruence|]. intros i Hi. rewrite Hx' in Hi. destruct (dn_onto i Hi) as (v & Hvn & <-).
  rewrite (HT v Hvn), (Hv v Hvn), Hg, Hy. reflexivity.
Qed.

(** ** The field of a solution *)

Context (de : nat -> nat) (Hde : forall c, (c < n - 1)%nat -> (de c < n - 1)%nat /\ forall c', (c' < n - 1)%nat -> de c' = de c -> c' = c).
Lemma project_at u c : (c < n - 1)%nat -> at_ (radial_project X dn de u) (de c) = grad u c.
Proof.
  intros Hc. unfold radial_project.
  assert (HK : forall m, (m <= n - 1)%nat ->
    let a := fold_left (fun a c => <[de c := (nth (dn (S c)) u 0 - nth (dn c) u 0) / (nth (S c) X 0 - nth c X 0)]> a) (seq 0 m) (replicate (n - 1) 0) in
    length a = (n - 1)%nat /\ forall c, (c < m)%nat -> at_ a (de c) = grad u c).
  { induction m as [|m IH]; intros Hm; cbn zeta.
    - split; [apply replicate_length|]. intros c' Hc'. lia.
    - rewrite seq_S, fold_left_app. cbn [fold_left Nat.add]. destruct IH as [IL IA]; [lia|]. split; [rewrite insert_length; exact IL|].
      intros c' Hc'. destruct (Hde m ltac:(lia)) as [B J]. rewrite at_insert by lia. destruct (Nat.eqb_spec (de c') (de m)) as [E|E].
      + rewrite (J c' ltac:(lia) E). reflexivity.
      + apply IA. destruct (Nat.eq_dec c' m) as [->|]; [contradiction|lia]. }
  exact (proj2 (HK (n - 1)%nat ltac:(lia)) c Hc).
Qed.

(** [df_m.solve] returns a solution of a system with the matrix if there is one. *)
Context (lu : matrix -> list R -> list R) (Hlu : forall b, (exists x, solves n A x b) -> solves n A (lu A b) b).
Context (fl : R -> R).
Notation solve := (solve_for_phi fl (radial_form X dn eps) bcs lu (radial_project X dn de) true).
Notation calls := (do_calls fl (radial_form X dn eps) (radial_load X dn) bcs lu (radial_project X dn de) true).
Notation one := (do_call fl (radial_form X dn eps) (radial_load X dn) bcs lu (radial_project X dn de) true).
Notation new := (new_solver (radial_form X dn eps) (radial_load X dn) bcs).

Lemma load_length d v : radial_load X dn (inl d) = Some v -> length v = n.
Proof. intros [= <-]. rewrite map_length, seq_length. reflexivity. Qed.
Lemma new_ok phi F : length phi = n -> exists s, new phi F = Ok s.
Proof.
  intros Hp. unfold new_solver, assemble_source. cbn [radial_load]. cbn [assemble_matrix sb]. rewrite fill_ok; [eexists; reflexivity|].
  rewrite map_length, seq_length, replicate_length. congruence.
Qed.
Lemma lu_flux b u : length b = n -> u = lu A (bcs_vector bcs b) ->
  at_ u (dn (n - 1)) = rmax /\ (forall a, rmin = Some a -> at_ u (dn 0) = a) /\
  (rmin = None -> forall k, (S k < n)%nat -> flux u k = Rsum (map (fun v => at_ b (dn v)) (seq 0 (S k)))) /\
  (forall k, (S (S k) < n)%nat -> flux u (S k) - flux u k = at_ b (dn (S k))).
Proof.
  intros Hb ->. destruct (C65_wellposed b Hb) as (x & Hs & _). specialize (Hlu (bcs_vector bcs b) (ex_intro _ x Hs)). set (u := lu A (bcs_vector bcs b)) in *.
  pose proof (proj1 Hlu) as Hu. pose proof (proj1 (solves_iff u b Hu Hb) Hlu) as Hv.
  split; [specialize (Hv (n - 1)%nat ltac:(lia)); unfold given in Hv; rewrite Nat.eqb_refl in Hv; exact Hv|].
  pose proof (Hv 0%nat ltac:(lia)) as Hv0. unfold given in Hv0. destruct (Nat.eqb_spec 0 (n - 1)) as [Hz|Hz]; [lia|]. cbn [Nat.eqb] in Hv0.
  split; [intros a Ha; rewrite Ha in Hv0; exact Hv0|]. split.
  - intros Hr k Hk. rewrite Hr in Hv0. rewrite (sol_flux u b k Hu Hb Hlu Hk). cbn [seq map]. rewrite Rsum_cons. unfold inside. rewrite <- seq_shift, map_map. lra.
  - intros k Hk. specialize (Hv (S k) ltac:(lia)). unfold given in Hv. destruct (Nat.eqb_spec (S k) (n - 1)) as [Hy|Hy]; [lia|]. exact Hv.
Qed.

(** C65: Gauss's law.  After any calls, a solution with a charge has the potential of the boundary conditions; the electric field that the particles
    get is minus the slope of the potential in every cell; without a potential at the inner boundary, [eps] times the mean of [r**2] in a cell
    times the field there is the charge on the vertices inside of it; and with or without, this flux grows from a cell to the next by the charge of the
    vertex between them. *)
Theorem C65_gauss phi F s ks q0 s1 q1 q f : length phi = n -> new phi (Some F) = Ok s -> calls ks (s, q0) = Ok (s1, q1) -> length (fvals q) = n ->
  exists s2 c E, solve s1 (Some q) f = Ok (s2, Some c) /\ felt s2 = Some E /\
    fvals c = match f with Some x => map (fun y => fl (y * x)) (fvals q) | None => fvals q end /\
    at_ (su s2) (dn (n - 1)) = rmax /\ (forall a, rmin = Some a -> at_ (su s2) (dn 0) = a) /\
    (forall k, (S k < n)%nat -> at_ E (de k) = (at_ (su s2) (dn (S k)) - at_ (su s2) (dn k)) / (at_ X (S k) - at_ X k)) /\
    (rmin = None -> forall k, (S k < n)%nat -> eps * rr k * - at_ E (de k) = Rsum (map (fun v => at_ (fvals c) (dn v)) (seq 0 (S k)))) /\
    (forall k, (S (S k) < n)%nat -> eps * rr (S k) * - at_ E (de (S k)) - eps * rr k * - at_ E (de k) = at_ (fvals c) (dn (S k))).
Proof.
  intros Hp Hn Hk Hq. apply new_inv in Hn as (N1 & N2 & _ & N4). apply calls_kept in Hk as (K1 & K2 & K3).
  destruct (snegE s1) as [F1|] eqn:E1; [|destruct K3 as [_ K3]; specialize (K3 eq_refl); rewrite N4 in K3; discriminate K3].
  rewrite (solve_charge fl _ bcs lu _ true s1 q f) by congruence.
  eexists _, _, (radial_project X dn de (lu (mat (radial_form X dn eps) bcs true s1) (bcs_vector bcs (fvals (scaled fl q f))))). split; [reflexivity|].
  unfold felt, with_negE. cbn [snegE su]. rewrite E1.
  split; [reflexivity|]. split; [destruct f; reflexivity|]. unfold mat. rewrite (K2 N2).
  assert (Hb : length (fvals (scaled fl q f)) = n) by (unfold scaled; destruct f; cbn [fvals]; rewrite ?map_length; exact Hq).
  destruct (lu_flux (fvals (scaled fl q f)) _ Hb eq_refl) as (G1 & G2 & G3 & G4).
  split; [exact G1|]. split; [exact G2|]. split; [intros k Hk'; apply project_at; lia|]. split.
  - intros Hr k Hk'. rewrite project_at by lia. apply (G3 Hr k Hk').
  - intros k Hk'. rewrite !project_at by lia. apply (G4 k Hk').
Qed.

(** C65: a constant source density [d].  The assembled source has no factor [r**2], unlike the matrix: the flux in a cell is [d] times the length
    between the inner boundary and the middle of the cell. *)
Lemma load_at d v b : radial_load X dn (inl d) = Some b -> (v < n)%nat ->
  at_ b (dn v) = d * ((if (S v <? n)%nat then h v / 2 else 0) + match v with O => 0 | S w => h w / 2 end).
Proof.
  intros [= <-] Hv. destruct (Hdn v Hv) as [Bv _]. unfold at_ at 1. set (G := fun i => _). rewrite (nth_indep _ 0 (G 0%nat)) by (rewrite map_length, seq_length; exact Bv).
  rewrite (map_nth G). rewrite seq_nth by exact Bv. rewrite Nat.add_0_l. unfold G. rewrite Rsum_map_scale. f_equal. rewrite Rsum_map_plus. f_equal.
  - transitivity (Rsum (map (fun c => if (v =? c)%nat then h v / 2 else 0) (seq 0 (n - 1)))).
    + apply Rsum_ext_seq. intros c Hc. rewrite dn_eqb by lia. rewrite Nat.eqb_sym. destruct (Nat.eqb_spec v c) as [->|]; reflexivity.
    + destruct (Nat.ltb_spec (S v) n); [apply pick_one; lia|]. transitivity (Rsum (map (fun _ : nat => 0) (seq 0 (n - 1)))); [|apply Rsum_map_0].
      apply Rsum_ext_seq. intros c Hc. destruct (Nat.eqb_spec v c); [lia|reflexivity].
  - destruct v as [|w].
    + transitivity (Rsum (map (fun _ : nat => 0) (seq 0 (n - 1)))); [|apply Rsum_map_0]. apply Rsum_ext_seq. intros c Hc. rewrite dn_eqb by lia. reflexivity.
    + transitivity (Rsum (map (fun c => if (w =? c)%nat then h w / 2 else 0) (seq 0 (n - 1)))); [|apply pick_one; lia].
      apply Rsum_ext_seq. intros c Hc. rewrite dn_eqb by lia. cbn [Nat.eqb]. rewrite Nat.eqb_sym. destruct (Nat.eqb_spec w c) as [->|]; reflexivity.
Qed.
Theorem C65_constant_source phi F s ks q0 s1 q1 d : length phi = n -> rmin = None -> new phi (Some F) = Ok s -> calls ks (s, q0) = Ok (s1, q1) ->
  exists s2 E, calls [KSource (SNumber d); KSolve] (s1, q1) = Ok (s2, q1) /\ felt s2 = Some E /\
    forall k, (S k < n)%nat -> eps * rr k * - at_ E (de k) = d * ((at_ X k + at_ X (S k)) / 2 - at_ X 0).
Proof.
  intros Hp Hr Hn Hk. apply new_inv in Hn as (N1 & N2 & _ & N4). apply calls_kept in Hk as (K1 & K2 & K3).
  destruct (snegE s1) as [F1|] eqn:E1; [|destruct K3 as [_ K3]; specialize (K3 eq_refl); rewrite N4 in K3; discriminate K3].
  destruct (radial_load X dn (inl d)) as [b|] eqn:EL; [|discriminate EL]. pose proof (load_length d b EL) as Hb.
  cbn [do_calls]. unfold do_call at 1. unfold assemble_source. rewrite EL, fill_ok by congruence. unfold do_call. rewrite solve_old. cbn [fst].
  eexists _, (radial_project X dn de (lu (sA s1) (bcs_vector bcs b))). split; [reflexivity|]. unfold felt, with_negE. cbn [snegE su sb]. rewrite E1. split; [reflexivity|].
  rewrite (K2 N2). intros k Hk'. rewrite project_at by lia. destruct (lu_flux b _ Hb eq_refl) as (_ & _ & G3 & _).
  etransitivity; [apply (G3 Hr k Hk')|]. clear G3. induction k as [|k IH].
  - rewrite seq_sum_S. cbn [seq map]. rewrite Rsum_nil, (load_at d 0 b EL) by lia. destruct (Nat.ltb_spec 1 n); [|lia]. field.
  - rewrite seq_sum_S, IH, (load_at d (S k) b EL) by lia. destruct (Nat.ltb_spec (S (S k)) n); [|lia]. field.
Qed.
End Radial.

(** The part of a particle at radius [x] that counts as inside of cell [k]: all of it if it is nearer to the centre than the cell, nothing if it is
    farther away, and in the cell the part that falls linearly from one to zero. *)
Definition share (X : list R) (k : nat) (x : R) : R := Rmin 1 (Rmax 0 ((at_ X (S k) - x) / (at_ X (S k) - at_ X k))).
Lemma pick_if k m x : Rsum (map (fun i => if (k =? i)%nat then x else 0) (seq 0 m)) = if (k <? m)%nat then x else 0.
Proof.
  destruct (Nat.ltb_spec k m) as [H|H]; [by apply pick_one|]. transitivity (Rsum (map (fun _ : nat => 0) (seq 0 m))); [|apply Rsum_map_0].
  apply Rsum_ext_seq. intros i Hi. destruct (Nat.eqb_spec k i); [lia|reflexivity].
Qed.
Lemma share_sum X dn k p x r : DeltaProps.increasing X -> numbering X dn -> (S k < length X)%nat -> px p = x :: r -> in_line X (pcell p) x ->
  Rsum (map (fun v => spread (p1_line X dn) 1 (dn v) p) (seq 0 (S k))) = share X k x.
Proof.
  intros HX Hdn Hk Hx [Hc Hl]. set (c := Z.to_nat (pcell p)) in *. assert (Hcn : (S c < length X)%nat) by lia. pose proof (HX c Hcn) as Hh. pose proof (HX k Hk) as Hhk.
  transitivity (Rsum (map (fun v => (if (c =? v)%nat then (at_ X (S c) - x) / (at_ X (S c) - at_ X c) else 0) + (if (S c =? v)%nat then (x - at_ X c) / (at_ X (S c) - at_ X c) else 0)) (seq 0 (S k)))).
  - apply Rsum_ext_seq. intros v Hv. change (spread (p1_line X dn) 1 (dn v) p) with (hat (p1_line X dn) (pcell p) (take 1 (px p)) (dn v)).
    rewrite Hx. change (take 1 (x :: r)) with [x]. rewrite hat_p1. fold c.
    assert (HE : forall a, (a < length X)%nat -> (dn a =? dn v)%nat = (a =? v)%nat).
    { intros a Ha. destruct (Nat.eqb_spec a v) as [->|Hne]; [apply Nat.eqb_refl|]. apply Nat.eqb_neq. intros Hd. apply Hne. apply (proj2 (Hdn v ltac:(lia)) a Ha Hd). }
    rewrite !HE by lia. reflexivity.
  - rewrite Rsum_map_plus, !pick_if. unfold share. destruct (Nat.lt_trichotomy c k) as [H|[H|H]].
    + destruct (Nat.ltb_spec c (S k)); [|lia]. destruct (Nat.ltb_spec (S c) (S k)); [|lia].
      assert (Hxk : x <= at_ X k).
      { destruct (Nat.eq_dec (S c) k) as [<-|Hne]; [lra|]. pose proof (increasing_lt X (S c) k HX ltac:(lia) ltac:(lia)). lra. }
      assert (Hs1 : 1 <= (at_ X (S k) - x) / (at_ X (S k) - at_ X k)).
      { apply (Rmult_le_reg_r (at_ X (S k) - at_ X k)); [lra|]. unfold Rdiv. rewrite Rmult_assoc, Rinv_l by lra. lra. }
      rewrite Rmax_right by lra. rewrite Rmin_left by lra. field. lra.
    + subst c. rewrite H in *. destruct (Nat.ltb_spec k (S k)); [|lia]. destruct (Nat.ltb_spec (S k) (S k)); [lia|].
      assert (Hs1 : 0 <= (at_ X (S k) - x) / (at_ X (S k) - at_ X k) <= 1).
      { split; [apply Rmult_le_pos; [lra|]; left; apply Rinv_0_lt_compat; lra|].
        apply (Rmult_le_reg_r (at_ X (S k) - at_ X k)); [lra|]. unfold Rdiv. rewrite Rmult_assoc, Rinv_l by lra. lra. }
      rewrite Rmax_right by lra. rewrite Rmin_right by lra. lra.
    + destruct (Nat.ltb_spec c (S k)); [lia|]. destruct (Nat.ltb_spec (S c) (S k)); [lia|].
      assert (Hxk : at_ X (S k) <= x).
      { destruct (Nat.eq_dec (S k) c) as [->|Hne]; [lra|]. pose proof (increasing_lt X (S k) c HX ltac:(lia) ltac:(lia)). lra. }
      assert (Hs1 : (at_ X (S k) - x) / (at_ X (S k) - at_ X k) <= 0).
      { apply (Rmult_le_reg_r (at_ X (S k) - at_ X k)); [lra|]. unfold Rdiv. rewrite Rmult_assoc, Rinv_l by lra. lra. }
      rewrite Rmax_left by lra. rewrite Rmin_right by lra. lra.
Qed.

(** C65: from the particles to the field: after the update of the densities from the particles and a solution with factor [f], [eps] times the mean
    of [r**2] in a cell times the electric field that is interpolated there is [f] times the charge of the particles inside. *)
Theorem C65_particles (L : Z) X dn de eps rmax lu vol (vl : nat -> R) junk fC d charge names saps xs phi F s ks q0 s1 q1 rep f :
  (1 <= L)%Z -> DeltaProps.increasing X -> 0 <= at_ X 0 -> (2 <= length X)%nat -> numbering X dn -> 0 < eps ->
  (forall c, (c < length X - 1)%nat -> (de c < length X - 1)%nat /\ forall c', (c' < length X - 1)%nat -> de c' = de c -> c' = c) ->
  (let M := bcs_matrix (radial_bcs X dn None rmax) (radial_form X dn eps) in forall b, (exists x, solves (length X) M x b) -> solves (length X) M (lu M b) b) ->
  CellSpace fC (length X - 1) d -> (forall c : nat, (c < length X - 1)%nat -> vol (Z.of_nat c) = Some (vl c)) -> NoDup names ->
  (forall sn, sn ∈ names -> Counted L (saps sn) (xs sn) /\ forall p, p ∈ xs sn -> exists x r, px p = x :: r /\ in_line X (pcell p) x) ->
  length phi = length X -> new_solver (radial_form X dn eps) (radial_load X dn) (radial_bcs X dn None rmax) phi (Some F) = Ok s ->
  do_calls exact (radial_form X dn eps) (radial_load X dn) (radial_bcs X dn None rmax) lu (radial_project X dn de) true ks (s, q0) = Ok (s1, q1) ->
  exists saps' rho dofs cells s2 c E,
    density_update exact (length X - 1) 1 vol junk (p1_line X dn) fC charge names (length X) saps = Ok (saps', rho, dofs, cells) /\
    solve_for_phi exact (radial_form X dn eps) (radial_bcs X dn None rmax) lu (radial_project X dn de) true s1 (Some (FieldObj rho rep)) (Some f) = Ok (s2, Some c) /\
    felt s2 = Some E /\
    forall k, (S k < length X)%nat ->
      eps * rr X k * - at_ E (de k) = f * Rsum (map (fun sn => charge sn * Rsum (map (fun p => pw p * share X k (comp (px p) 0)) (xs sn))) names).
Proof.
  intros HL HX H0 Hn Hdn He Hde Hlu HC Hv Hnd Hpop Hp Hnew Hcalls.
  destruct (C33_assembled_charge L (length X - 1) 1 (length X) vol vl junk (p1_line X dn) fC d charge names saps xs HL (p1_dofs X dn Hdn) HC Hv Hnd) as (saps' & rho & dofs & cells & E & _ & Hlen & Hr & _).
  { intros sn Hsn. destruct (Hpop sn Hsn) as [HCo Hin]. split; [exact HCo|]. intros p Hpp. destruct (Hin p Hpp) as (x & r & _ & Hl). destruct Hl as [Hl _]. lia. }
  exists saps', rho, dofs, cells.
  destruct (C65_gauss X dn eps HX H0 Hn Hdn He None rmax de Hde lu Hlu exact phi F s ks q0 s1 q1 (FieldObj rho rep) (Some f) Hp Hnew Hcalls Hlen)
    as (s2 & c & E2 & S1 & S2 & S3 & _ & _ & _ & S4 & _).
  exists s2, c, E2. split; [exact E|]. split; [exact S1|]. split; [exact S2|]. intros k Hk. rewrite (S4 eq_refl k Hk), S3. cbn [fvals].
  transitivity (f * Rsum (map (fun v => at_ rho (dn v)) (seq 0 (S k)))).
  { rewrite <- Rsum_map_scale. apply Rsum_ext_seq. intros v Hv'. destruct (Hdn v ltac:(lia)) as [B _]. rewrite (at_map (fun y => exact (y * f))) by lia. unfold exact. ring. }
  f_equal. rewrite (map_ext _ (fun v => Rsum (map (fun sn => charge sn * Rsum (map (fun p => pw p * spread (p1_line X dn) 1 (dn v) p) (xs sn))) names))) by (intros v; apply Hr).
  rewrite Rsum_swap. f_equal. apply map_ext_in. intros sn Hsn%elem_of_list_In. rewrite Rsum_map_scale. f_equal. rewrite Rsum_swap. f_equal.
  apply map_ext_in. intros p Hpp%elem_of_list_In. rewrite Rsum_map_scale. f_equal. destruct (Hpop sn Hsn) as [_ Hin]. destruct (Hin p Hpp) as (x & r & Hx & Hl).
  rewrite (share_sum X dn k p x r HX Hdn Hk Hx Hl). rewrite Hx. reflexivity.
Qed.

(** ** Examples *)

(** The radii 0, 1 and 3 with the degrees of freedom numbered backwards, [eps] = 3, the potential 7 outside and no potential inside.  The solver is
    written out for this matrix. *)
Definition e_de (c : nat) : nat := (1 - c)%nat.
Definition e_lu (_ : matrix) (b : list R) : list R :=
  let u2 := at_ b 0 in let u1 := u2 + 2 * (at_ b 2 + at_ b 1) / 13 in [u2; u1; u1 + at_ b 2].
Notation e_form := (radial_form dX dback 3).
Notation e_load := (radial_load dX dback).
Notation e_bcs := (radial_bcs dX dback None 7).
Notation e_project := (radial_project dX dback e_de).
Lemma e_de_ok c : (c < 2)%nat -> (e_de c < 2)%nat /\ forall c', (c' < 2)%nat -> e_de c' = e_de c -> c' = c.
Proof. unfold e_de. intros H. split; [lia|]. intros c' H' E. lia. Qed.
Lemma e_x0 : 0 <= at_ dX 0. Proof. cbn. lra. Qed.
Lemma e_n2 : (2 <= length dX)%nat. Proof. cbn. lia. Qed.
Lemma e_eps : 0 < 3. Proof. lra. Qed.
Lemma e_solves b : solves 3 (bcs_matrix e_bcs e_form) (e_lu (bcs_matrix e_bcs e_form) b) b.
Proof.
  apply (solves_rows dX dback 3 dX_increasing e_n2 dX_numbering None 7); [reflexivity|]. intros v Hv. cbn in Hv.
  destruct v as [|[|[|v]]]; [| | |lia]; unfold given, flux, grad, rr, e_lu, dback, at_, dX; cbn; field.
Qed.
Definition e_F : field := FieldObj [0; 0] None.
Lemma e_new : exists s, new_solver e_form e_load e_bcs [0; 0; 0] (Some e_F) = Ok s.
Proof. exact (new_ok dX dback 3 None 7 [0; 0; 0] (Some e_F) eq_refl). Qed.

Notation e_solve := (solve_for_phi exact e_form e_bcs e_lu e_project true).
Notation e_calls := (do_calls exact e_form e_load e_bcs e_lu e_project true).
(** After any calls, a solution with a charge on this mesh. *)
Lemma e_gauss s ks q0 s1 q1 q f : new_solver e_form e_load e_bcs [0; 0; 0] (Some e_F) = Ok s -> e_calls ks (s, q0) = Ok (s1, q1) -> length (fvals q) = 3%nat ->
  exists s2 c E, e_solve s1 (Some q) (Some f) = Ok (s2, Some c) /\ felt s2 = Some E /\ fvals c = map (fun y => y * f) (fvals q) /\
    at_ (su s2) 0 = 7 /\ at_ E 1 = - (at_ (fvals c) 2) /\ at_ E 0 = - (at_ (fvals c) 2 + at_ (fvals c) 1) / 13.
Proof.
  intros Hn Hk Hq.
  destruct (C65_gauss dX dback 3 dX_increasing e_x0 e_n2 dX_numbering e_eps None 7 e_de e_de_ok e_lu (fun b _ => e_solves b) exact [0; 0; 0] e_F s ks q0 s1 q1 q (Some f) eq_refl Hn Hk Hq)
    as (s2 & c & E & S1 & S2 & S3 & S4 & _ & _ & S5 & _).
  exists s2, c, E. split; [exact S1|]. split; [exact S2|]. split; [exact S3|]. split; [exact S4|].
  pose proof (S5 eq_refl 0%nat ltac:(cbn; lia)) as G0. pose proof (S5 eq_refl 1%nat ltac:(cbn; lia)) as G1.
  cbn [seq map] in G0, G1. rewrite !Rsum_cons, Rsum_nil in G0. rewrite !Rsum_cons, Rsum_nil in G1. unfold rr, e_de, dback in G0, G1. 
  change (at_ dX 0) with 0 in G0. change (at_ dX 1) with 1 in G0, G1. change (at_ dX 2) with 3 in G1. cbn [Nat.sub] in G0, G1. split; lra.
Qed.
(** The charges 3, 4 and 5 at the radii 0, 1 and 3 with the factor 2: the fields are 6 and 14/13 (the mean of [r**2] is 1/3 and 13/3). *)
Example C65_gauss_example : exists s s2 c E, new_solver e_form e_load e_bcs [0; 0; 0] (Some e_F) = Ok s /\
  e_solve s (Some (FieldObj [5; 4; 3] None)) (Some 2) = Ok (s2, Some c) /\ felt s2 = Some E /\ at_ (su s2) 0 = 7 /\ - at_ E (e_de 0) = 6 /\ - at_ E (e_de 1) = 14 / 13.
Proof.
  destruct e_new as [s Hs]. destruct (e_gauss s [] (FieldObj [] None) s _ (FieldObj [5; 4; 3] None) 2 Hs eq_refl eq_refl) as (s2 & c & E & S1 & S2 & S3 & S4 & G0 & G1).
  exists s, s2, c, E. split; [exact Hs|]. split; [exact S1|]. split; [exact S2|]. split; [exact S4|]. rewrite S3 in G0, G1. cbn in G0, G1. unfold e_de. cbn [Nat.sub]. split; lra.
Qed.
(** Both potentials given: the potential 0 inside and 7 outside, without charge, has one solution. *)
Example C65_wellposed_example : exists x, solves 3 (bcs_matrix (radial_bcs dX dback (Some 0) 7) e_form) x [7; 0; 0] /\ at_ x (dback 0) = 0 /\ at_ x (dback 2) = 7.
Proof.
  destruct (C65_wellposed dX dback 3 dX_increasing e_x0 e_n2 dX_numbering e_eps (Some 0) 7 [0; 0; 0] eq_refl) as (x & Hx & _). exists x.
  split; [exact Hx|]. pose proof (proj1 (solves_iff dX dback 3 dX_increasing e_n2 dX_numbering (Some 0) 7 x [0; 0; 0] (proj1 Hx) eq_refl) Hx) as H.
  split; [exact (H 0%nat ltac:(cbn; lia))|exact (H 2%nat ltac:(cbn; lia))].
Qed.
(** A second solution with the same charge has fields twice as large. *)
Example C65_repeat_example : exists s s1 s2 q1 q2 E1 E2, new_solver e_form e_load e_bcs [0; 0; 0] (Some e_F) = Ok s /\
  e_calls [KSolveCharge (Some 2)] (s, FieldObj [5; 4; 3] None) = Ok (s1, q1) /\ e_calls [KSolveCharge (Some 2)] (s1, q1) = Ok (s2, q2) /\
  felt s1 = Some E1 /\ felt s2 = Some E2 /\ - at_ E1 (e_de 0) = 6 /\ - at_ E2 (e_de 0) = 12 /\ fvals q2 = [20; 16; 12].
Proof.
  destruct e_new as [s Hs]. destruct (e_gauss s [] (FieldObj [] None) s _ (FieldObj [5; 4; 3] None) 2 Hs eq_refl eq_refl) as (s1 & c & E1 & S1 & S2 & S3 & _ & G0 & _).
  assert (C1 : e_calls [KSolveCharge (Some 2)] (s, FieldObj [5; 4; 3] None) = Ok (s1, c)) by (cbn [do_calls]; unfold do_call; rewrite S1; reflexivity).
  destruct (e_gauss s [KSolveCharge (Some 2)] (FieldObj [5; 4; 3] None) s1 c c 2 Hs C1) as (s2 & c2 & E2 & T1 & T2 & T3 & _ & G2 & _); [rewrite S3; reflexivity|].
  exists s, s1, s2, c, c2, E1, E2. split; [exact Hs|]. split; [exact C1|]. split; [cbn [do_calls]; unfold do_call; rewrite T1; reflexivity|].
  split; [exact S2|]. split; [exact T2|]. rewrite T3, S3 in G2. rewrite S3 in G0. cbn in G0, G2. split; [unfold e_de; cbn [Nat.sub]; lra|]. split; [unfold e_de; cbn [Nat.sub]; lra|].
  rewrite T3, S3. cbn. repeat f_equal; lra.
Qed.
(** A constant density of one: the flux in the cell from 0 to 1 is 1/2, more than the charge 1/3 in the whole ball of radius 1 (per steradian).
    With a charge, here of zeros, the density is lost. *)
Example C65_constant_source_example : exists s s1 s2 s3 c E2 E3, new_solver e_form e_load e_bcs [0; 0; 0] (Some e_F) = Ok s /\
  assemble_source e_load e_bcs (SNumber 1) s = Ok s1 /\ e_calls [KSolve] (s1, FieldObj [0; 0; 0] None) = Ok (s2, FieldObj [0; 0; 0] None) /\
  felt s2 = Some E2 /\ 3 * (1 / 3) * - at_ E2 (e_de 0) = 1 / 2 /\
  e_solve s1 (Some (FieldObj [0; 0; 0] None)) (Some 1) = Ok (s3, Some c) /\ felt s3 = Some E3 /\ - at_ E3 (e_de 0) = 0.
Proof.
  destruct e_new as [s Hs].
  destruct (C65_constant_source dX dback 3 dX_increasing e_x0 e_n2 dX_numbering e_eps None 7 e_de e_de_ok e_lu (fun b _ => e_solves b) exact [0; 0; 0] e_F s [] (FieldObj [0; 0; 0] None) s _ 1 eq_refl eq_refl Hs eq_refl)
    as (s2 & E2 & S1 & S2 & S3).
  cbn [do_calls] in S1. unfold do_call at 1 in S1. destruct (assemble_source e_load e_bcs (SNumber 1) s) as [s1|] eqn:E1; [|discriminate S1].
  destruct (e_gauss s [] (FieldObj [] None) s _ (FieldObj [0; 0; 0] None) 1 Hs eq_refl eq_refl) as (s3 & c & E3 & T1 & T2 & T3 & _ & G0 & _).
  exists s, s1, s2, s3, c, E2, E3. split; [exact Hs|]. split; [exact E1|]. split; [exact S1|]. split; [exact S2|]. split.
  - specialize (S3 0%nat ltac:(cbn; lia)). unfold rr in S3. change (at_ dX 0) with 0 in S3. change (at_ dX 1) with 1 in S3. lra.
  - rewrite (C65_background_lost exact e_form e_load e_bcs e_lu e_project true (SNumber 1) s s1 (FieldObj [0; 0; 0] None) (Some 1) E1). split; [exact T1|]. split; [exact T2|].
    rewrite T3 in G0. cbn in G0. unfold e_de. cbn [Nat.sub]. lra.
Qed.
(** Before the first solution [set_values] sets the field at the particles; after a solution it does not any more, and the charge that is set to
    zero after it is not seen by a solution without a charge. *)
Example C65_stale_example : exists s sa s1 s2 s3 q1 q2, new_solver e_form e_load e_bcs [0; 0; 0] (Some e_F) = Ok s /\
  e_calls [KField (set_values (VSpace (fun _ => []) (fun _ => None) (fun _ _ => [])) 9 None)] (s, FieldObj [5; 4; 3] None) = Ok (sa, FieldObj [5; 4; 3] None) /\ felt sa = Some [9; 9] /\
  e_calls [KSolveCharge (Some 2)] (s, FieldObj [5; 4; 3] None) = Ok (s1, q1) /\ (exists E1, felt s1 = Some E1 /\ - at_ E1 1 = 6) /\
  e_calls [KField (set_values (VSpace (fun _ => []) (fun _ => None) (fun _ _ => [])) 9 None); KCharge (fun _ => Ok [0; 0; 0])] (s1, q1) = Ok (s2, q2) /\
  felt s2 = felt s1 /\ fvals <$> snegE s2 = Some [9; 9] /\ e_calls [KSolve] (s2, q2) = Ok (s3, q2) /\ felt s3 = felt s1 /\ fvals q2 = [0; 0; 0].
Proof.
  destruct e_new as [s Hs]. pose proof (new_inv _ _ _ _ _ _ Hs) as (N1 & N2 & N3 & N4).
  destruct (e_gauss s [] (FieldObj [] None) s _ (FieldObj [5; 4; 3] None) 2 Hs eq_refl eq_refl) as (s1 & c & E1 & S1 & S2 & S3 & _ & G0 & _).
  assert (C1 : do_call exact e_form e_load e_bcs e_lu e_project true (KSolveCharge (Some 2)) (s, FieldObj [5; 4; 3] None) = Ok (s1, c)) by (unfold do_call; rewrite S1; reflexivity).
  pose proof (solve_inv _ _ _ _ _ _ _ _ _ _ _ S1) as (_ & _ & _ & HE). unfold with_negE in HE. rewrite N4 in HE.
  set (F2 := FieldObj [9; 9] (Some (e_project (su s1)))). set (s2 := Solver (sA s1) (sb s1) (su s1) (Some F2)).
  assert (C2 : e_calls [KField (set_values (VSpace (fun _ => []) (fun _ => None) (fun _ _ => [])) 9 None); KCharge (fun _ => Ok [0; 0; 0])] (s1, c) = Ok (s2, FieldObj [0; 0; 0] (frep c))).
  { cbn [do_calls]. unfold do_call. rewrite HE. reflexivity. }
  destruct (C65_reuse exact e_form e_load e_bcs e_lu e_project true (Some 2) s _ s1 c _ s2 _ C1 C2) as (s3 & R1 & R2 & R3).
  { repeat constructor. }
  exists s, (Solver (sA s) (sb s) (su s) (Some (FieldObj [9; 9] None))), s1, s2, s3, c, (FieldObj [0; 0; 0] (frep c)).
  split; [exact Hs|]. split; [cbn [do_calls]; unfold do_call; rewrite N4; reflexivity|]. split; [reflexivity|].
  split; [cbn [do_calls]; rewrite C1; reflexivity|]. split; [exists E1; split; [exact S2|]; rewrite G0, S3; cbn; lra|].
  split; [exact C2|].
  destruct (C65_stale exact e_form e_load e_bcs e_lu e_project true s (Some (FieldObj [5; 4; 3] None)) (Some 2) s1 (Some c) e_F _ c s2 _ N4 S1 C2) as (_ & P2 & _ & P4).
  { repeat constructor. }
  split; [congruence|]. split; [reflexivity|]. split; [cbn [do_calls]; rewrite R1; reflexivity|]. split; [exact R3|reflexivity].
Qed.
(** What was set and solved before does not matter. *)
Example C65_history_example : exists s s1 q1, new_solver e_form e_load e_bcs [0; 0; 0] (Some e_F) = Ok s /\
  e_calls [KSource (SNumber 1); KSolve; KSolveCharge (Some 2)] (s, FieldObj [5; 4; 3] None) = Ok (s1, q1) /\
  (exists s2 s3 c, e_solve s1 (Some (FieldObj [1; 1; 1] None)) None = Ok (s2, Some c) /\ e_solve s (Some (FieldObj [1; 1; 1] None)) None = Ok (s3, Some c) /\ su s2 = su s3) /\
  e_solve s1 (Some (FieldObj [1; 1] None)) None = Raise RuntimeError.
Proof.
  destruct e_new as [s Hs]. pose proof (new_inv _ _ _ _ _ _ Hs) as (N1 & N2 & N3 & N4). exists s.
  destruct (e_calls [KSource (SNumber 1); KSolve; KSolveCharge (Some 2)] (s, FieldObj [5; 4; 3] None)) as [[s1 q1]|] eqn:E.
  - exists s1, q1. split; [exact Hs|]. split; [reflexivity|].
    split; [|by apply (C65_history exact e_form e_load e_bcs e_lu e_project true _ _ _ _ _ _ _ (FieldObj [1; 1] None) None Hs E)].
    destruct (C65_history exact e_form e_load e_bcs e_lu e_project true _ _ _ _ _ _ _ (FieldObj [1; 1; 1] None) None Hs E) as [H _].
    destruct (H eq_refl) as (s2 & s3 & c & H1 & H2 & H3 & _). exists s2, s3, c. split; [exact H1|]. split; [exact H2|exact H3].
  - exfalso. cbn [do_calls] in E. unfold do_call at 1 in E. unfold assemble_source in E. cbn [radial_load] in E. rewrite fill_ok in E by (rewrite N1; reflexivity).
    unfold do_call at 1 in E. rewrite solve_old in E. cbn [fst] in E. unfold do_call in E. rewrite solve_charge in E by (cbn [sb]; rewrite bcs_length; reflexivity). discriminate E.
Qed.
(** The three particles of [d_ps] (weights 8, 4 and 4 at 1/2, 1 and 2, charge one): the flux is 4 in the first cell and 14 in the second. *)
Example C65_particles_example vol junk fC d : CellSpace fC 2 d -> (forall c : nat, (c < 2)%nat -> vol (Z.of_nat c) = Some 1) ->
  exists s saps' rho dofs cells s2 c E, new_solver e_form e_load e_bcs [0; 0; 0] (Some e_F) = Ok s /\
    density_update exact 2 1 vol junk (p1_line dX dback) fC (fun _ => 1) ["electron"%string] 3 (fun _ => d_sap) = Ok (saps', rho, dofs, cells) /\
    e_solve s (Some (FieldObj rho None)) (Some 1) = Ok (s2, Some c) /\ felt s2 = Some E /\ - at_ E (e_de 0) = 4 /\ 13 * - at_ E (e_de 1) = 14.
Proof.
  intros HC Hv. destruct e_new as [s Hs]. exists s.
  destruct (C65_particles 2 dX dback e_de 3 7 e_lu vol (fun _ => 1) junk fC d (fun _ => 1) ["electron"%string] (fun _ => d_sap) (fun _ => d_ps) [0; 0; 0] e_F s [] (FieldObj [] None) s (FieldObj [] None) None 1
    ltac:(lia) dX_increasing e_x0 e_n2 dX_numbering e_eps e_de_ok (fun b _ => e_solves b) HC Hv (NoDup_singleton _)) as (saps' & rho & dofs & cells & s2 & c & E & D1 & D2 & D3 & G).
  - intros sn _. split; [exact d_counted|exact d_in].
  - reflexivity.
  - exact Hs.
  - reflexivity.
  - exists saps', rho, dofs, cells, s2, c, E. split; [exact Hs|]. split; [exact D1|]. split; [exact D2|]. split; [exact D3|].
    pose proof (G 0%nat ltac:(cbn; lia)) as G0. pose proof (G 1%nat ltac:(cbn; lia)) as G1.
    unfold d_ps in G0, G1. cbn [map dp set_pcell px pw] in G0, G1. rewrite !Rsum_cons, !Rsum_nil in G0. rewrite !Rsum_cons, !Rsum_nil in G1.
    unfold rr, share in G0, G1. change (at_ dX 0) with 0 in G0. change (at_ dX 1) with 1 in G0, G1. change (at_ dX 2) with 3 in G1. cbn [comp nth] in G0, G1.
    unfold FieldProps.comp in G0, G1. cbn [nth] in G0, G1.
    split.
    + rewrite (Rmax_right 0 ((1 - 1/2) / (1 - 0))), (Rmin_right 1 ((1 - 1/2) / (1 - 0))) in G0 by lra.
      rewrite (Rmax_right 0 ((1 - 1) / (1 - 0))), (Rmin_right 1 ((1 - 1) / (1 - 0))) in G0 by lra.
      rewrite (Rmax_left 0 ((1 - 2) / (1 - 0))), (Rmin_right 1 0) in G0 by lra. lra.
    + rewrite (Rmax_right 0 ((3 - 1/2) / (3 - 1))), (Rmin_left 1 ((3 - 1/2) / (3 - 1))) in G1 by lra.
      rewrite (Rmax_right 0 ((3 - 1) / (3 - 1))), (Rmin_left 1 ((3 - 1) / (3 - 1))) in G1 by lra.
      rewrite (Rmax_right 0 ((3 - 2) / (3 - 1))), (Rmin_right 1 ((3 - 2) / (3 - 1))) in G1 by lra. lra.
Qed.

Print Assumptions C65_history.
Print Assumptions C65_background_lost.
Print Assumptions C65_reuse.
Print Assumptions C65_stale.
Print Assumptions C65_repeat.
Print Assumptions C65_wellposed.
Print Assumptions C65_gauss.
Print Assumptions C65_constant_source.
Print Assumptions C65_particles.
