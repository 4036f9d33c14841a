(** C61: the older mover of the charged species and the one that replaced it. *)
From stdpp Require Import strings list_numbers.
From Verif Require Import SapModel MoverModel SapProofs SapSpec SapRefine MoverProofs StorageProps Vec VecProofs TrackModel TrajModel TrajProps.
From Verif Require Import BcModel Conforming TrackProofs TrackEval MeshFieldModel MeshFieldProps BatchProofs BatchProps.
From Verif Require Import OldMoverModel.
From Coq Require Import ZifyBool ZifyNat.
Ltac Zify.zify_post_hook ::= Z.div_mod_to_equations.
Local Open Scope R_scope.

(** ** What is meant *)

(** Boundary functions that refuse every particle with a trajectory. *)
Definition refuse_traj (bcs : Z -> option (bcfun (K:=option traj))) : Z -> option (bcfun (K:=option traj)) := fun v =>
  Some (fun c p mf f n => if is_traj p then Raise TypeError else match bcs v with None => Raise KeyError | Some b => b c p mf f n end).
(** Boundary functions that do not give particles a trajectory. *)
Definition no_new_traj (bcs : Z -> option (bcfun (K:=option traj))) : Prop :=
  forall v b c p mf f n q c', bcs v = Some b -> b c p mf f n = Ok (q, c') -> is_traj p = false -> is_traj q = false.
(** The particle, as it is after its move, has left its cell through a facet with a marker. *)
Definition leaves_marked (fl : R -> R) (m : mesh) (p : particle) : Prop := exists cr cf f n mf,
  cells m (pcell p) = Some cr /\ inside m (pcell p) (take (gdim m) (px p)) = false /\
  find_facet fl (gdim m) cr (px0 p) (vsub fl (px p) (px0 p)) = Ok (cf, f, n) /\ cf <> NO_FACET /\
  py_get (fids cr) cf = Ok mf /\ marker m mf <> 0%Z.

(** ** Proof *)

(** [a] is [b], or the call of line 1305 has failed; if [st], then [b] has failed too. *)
Definition tle (st : bool) {X} (a b : res X) : Prop := a = b \/ (a = Raise TypeError /\ (st = true -> exists e, b = Raise e)).
Lemma tle_refl st {X} (a : res X) : tle st a a. Proof. by left. Qed.
Lemma tle_match st {X Y} (a b : res X) (f g : X -> res Y) : tle st a b -> (forall x, b = Ok x -> tle st (f x) (g x)) ->
  tle st (match a with Ok x => f x | Raise e => Raise e end) (match b with Ok x => g x | Raise e => Raise e end).
Proof.
  intros [->|[-> H]] Hfg.
  - destruct b; [by apply Hfg|by left].
  - right. split; [reflexivity|]. intros Hs. destruct (H Hs) as (e & ->). by exists e.
Qed.

Section Track.
Context (fl : R -> R) (st : bool) (k : mkind) (m : mesh) (maxc fi : Z).
Context (b1 b2 : Z -> option (bcfun (K:=option traj))) (r1 r2 : tctx (K:=option traj) -> Z -> particle -> R -> res (tctx (K:=option traj))).
Context (Hon : forall mf f n t p c, tle st (on_marker b1 r1 m fi mf f n t p c) (on_marker b2 r2 m fi mf f n t p c)).

Lemma loop_tle fuel : forall ci ml cnt tS dtR p c,
  tle st (track_loop fl b1 r1 fuel k m maxc fi ci ml cnt tS dtR p c) (track_loop fl b2 r2 fuel k m maxc fi ci ml cnt tS dtR p c).
Proof using Hon.
  induction fuel as [|fuel IH]; intros ci ml cnt tS dtR p c; [by left|]. cbn [track_loop]. cbv zeta.
  destruct (cells m ci) as [cr|]; [|by left]. destruct (inside m ci _); [by left|]. destruct (maxc <? cnt + 1)%Z; [by left|].
  apply tle_match; [by left|]. intros [[cf f] n] _. destruct (cf =? NO_FACET)%Z; [by left|].
  apply tle_match; [by left|]. intros mf _. destruct (mf =? ml)%Z; [by left|].
  apply tle_match; [apply Hon|]. intros [p2 c2] _. apply tle_match; [by left|]. intros cn _.
  destruct (cn =? NO_CELL)%Z; [|apply IH]. destruct (is_deleted p2); [by left|apply IH].
Qed.
End Track.
Lemma advance_tle fl st m maxc fi (b1 b2 : Z -> option (bcfun (K:=option traj))) r1 r2 ao time dt qmdt E p c :
  (forall mf f n t p c, tle st (on_marker b1 r1 m fi mf f n t p c) (on_marker b2 r2 m fi mf f n t p c)) ->
  tle st (advance_charged fl b1 r1 ao m maxc fi time dt qmdt E p c) (advance_charged fl b2 r2 ao m maxc fi time dt qmdt E p c).
Proof.
  intros Hon. unfold advance_charged, track. cbv zeta. apply tle_match; [by apply loop_tle|intros [[q cnt] c1] _; by left].
Qed.

Lemma row_ext (E X : list vec) ip e : (length E <= length X)%nat -> row E ip = Ok e -> exists x, row X ip = Ok x.
Proof.
  unfold row, py_get, py_pos. intros Hl H.
  destruct ((0 <=? ip) && (ip <? Z.of_nat (length E)))%Z eqn:E1.
  - assert (((0 <=? ip) && (ip <? Z.of_nat (length X)))%Z = true) as -> by lia.
    destruct (lookup_lt_is_Some_2 X (Z.to_nat ip)) as [x ->]; [lia|]. by exists x.
  - assert (((0 <=? ip) && (ip <? Z.of_nat (length X)))%Z = true \/ ((0 <=? ip) && (ip <? Z.of_nat (length X)))%Z = false /\ ((- Z.of_nat (length X) <=? ip) && (ip <? 0))%Z = true) as HX.
    { destruct ((- Z.of_nat (length E) <=? ip) && (ip <? 0))%Z eqn:E2; [|discriminate]. right. lia. }
    destruct HX as [->|[-> HX]].
    + destruct ((- Z.of_nat (length E) <=? ip) && (ip <? 0))%Z eqn:E2; [|discriminate]. 
      destruct (lookup_lt_is_Some_2 X (Z.to_nat ip)) as [x ->]; [|by exists x].
      destruct (E !! Z.to_nat (ip + Z.of_nat (length E))) eqn:E3; [|discriminate]. apply lookup_lt_Some in E3. lia.
    + rewrite HX. destruct (lookup_lt_is_Some_2 X (Z.to_nat (ip + Z.of_nat (length X)))) as [x ->]; [lia|]. by exists x.
Qed.

Section One.
Context (fl : R -> R) (z : nat -> R) (dE gdim : nat) (negE Eext : option (vspace * list R)) (solved ext : option bool).
Context (sn : string) (step : Z) (time dt qom : R) (maxc : Z) (m : mesh) (accel_only : bool).
Context (st : bool) (b1 b2 : Z -> option (bcfun (K:=option traj))).
Context (Hon : forall r fi mf f n t p c, tle st (on_marker b1 rec_crossing_old m fi mf f n t p c) (on_marker b2 r m fi mf f n t p c)).

(** The external field of the segment's particles is there when their field is. *)
Definition has_ext (f : segfields) : Prop := match Eext, ext with
  | None, _ => True | Some _, Some false => True
  | Some _, _ => exists E X, sf_Eseg f = Some E /\ sf_Eext_seg f = Some X /\ (length E <= length X)%nat
  end.
Lemma prep_has_ext f ps f1 : prep_fields fl z dE gdim negE Eext solved ext f ps = Ok f1 -> has_ext f1.
Proof.
  unfold prep_fields, has_ext. cbv zeta. intros E. destruct (prep_solved _ _ _ _ _ f ps) as [[nA Es]|]; [|discriminate].
  destruct Eext as [[V a]|]; [|done].
  assert (H : (ext = Some false \/ exists E X, sf_Eseg f1 = Some E /\ sf_Eext_seg f1 = Some X /\ (length E <= length X)%nat)).
  { destruct (decide (ext = Some false)) as [->|Hne]; [by left|]. right.
    assert (E' : match interpolate_random fl V z dE gdim a ps (sf_Eext f) (sf_rng f) with
       | Ok (arr2, k1) => match Es with None => Raise AttributeError | Some E => Ok (SegFields (zip_with (vadd fl) E (take (length ps) arr2) ++ drop (length ps) nA) arr2 k1
           (Some (zip_with (vadd fl) E (take (length ps) arr2))) (Some (take (length ps) arr2))) end | Raise e => Raise e end = Ok f1)
      by (destruct ext as [[]|]; [exact E|done|exact E]).
    destruct (interpolate_random _ _ _ _ _ _ _ _ _) as [[arr2 k1]|]; [|discriminate]. destruct Es as [E0|]; [|discriminate].
    injection E' as <-. eexists _, _. split; [reflexivity|]. split; [reflexivity|]. rewrite zip_with_length. lia. }
  destruct ext as [[]|]; [|done|]; (destruct H as [H|H]; [discriminate|exact H]).
Qed.
Notation old_at := (old_hooks_at fl dE step time dt maxc m accel_only sn qom b1).
Notation new_at := (charged_hooks_at fl dE Eext ext sn step time dt qom maxc m b2 accel_only).

Lemma adv_tle f ip c fi p : has_ext f -> tle st (adv (old_at f ip) c fi p) (adv (new_at f ip) c fi p).
Proof using Hon.
  intros Hx. cbn [adv old_hooks_at charged_hooks_at]. apply tle_match; [by left|]. intros Es HEs.
  assert (HX : exists X, match Eext, ext with
                 | None, _ => Ok None
                 | Some _, Some false => Ok (Some (fun _ => []))
                 | Some _, _ => match sf_Eext_seg f with
                                | None => Raise NameError
                                | Some l => let! x := row l ip in Ok (Some (fun _ : particle => x))
                                end
                 end = Ok X).
  { unfold has_ext in Hx. destruct Eext as [G|]; [|by eexists].
    destruct (decide (ext = Some false)) as [->|Hne]; [by eexists|].
    assert (Hx' : exists E X, sf_Eseg f = Some E /\ sf_Eext_seg f = Some X /\ (length E <= length X)%nat) by (destruct ext as [[]|]; [exact Hx|done|exact Hx]).
    destruct Hx' as (E & X & H1 & H2 & Hl). rewrite H2. rewrite H1 in HEs. destruct (row E ip) as [e|] eqn:Er; [|discriminate].
    destruct (row_ext E X ip e Hl Er) as (x & ->). destruct ext as [[]|]; [by eexists|done|by eexists]. }
  destruct HX as (X & ->). apply advance_tle. intros. apply Hon.
Qed.
Lemma particle_tle f ip iarr iseg ms ipIn : has_ext f ->
  tle st (mover_particle (py_ops particle) (old_at f ip) iarr iseg ms ipIn) (mover_particle (py_ops particle) (new_at f ip) iarr iseg ms ipIn).
Proof using Hon.
  intros Hx. unfold mover_particle. cbv zeta. apply tle_match; [by left|]. intros m1 _. apply tle_match; [by left|]. intros slot _.
  destruct slot as [p|]; [|by left]. destruct (negb _); [by left|]. destruct (get_full_indices _ _ _) as [fi fo].
  apply tle_match; [by apply adv_tle|]. intros [q c1] _. apply tle_match; [by left|]. intros a1 _. by left.
Qed.
Lemma segment_tle f iarr iseg k : has_ext f -> forall ms ipIn,
  tle st (bsegment (py_ops particle) old_at f iarr iseg ms ipIn k) (bsegment (py_ops particle) new_at f iarr iseg ms ipIn k).
Proof using Hon.
  intros Hx. induction k as [|k IH]; intros ms ipIn; [by left|]. cbn [bsegment]. apply tle_match; [by apply particle_tle|]. intros m1 _. apply IH.
Qed.
Notation prep := (prep_fields fl z dE gdim negE Eext solved ext).
Lemma segments_tle fuel : forall f ms iarr iseg np,
  tle st (bsegments (py_ops particle) prep old_at fuel f ms iarr iseg np) (bsegments (py_ops particle) prep new_at fuel f ms iarr iseg np).
Proof using Hon.
  induction fuel as [|fuel IH]; intros f ms iarr iseg np; [by left|]. cbn [bsegments]. apply tle_match; [by left|]. intros v _.
  apply tle_match; [by left|]. intros ps _. apply tle_match; [by left|]. intros f1 Ef. apply prep_has_ext in Ef.
  apply tle_match; [by apply segment_tle|]. intros m1 _. apply tle_match; [by left|]. intros [s2 np2] _. cbv zeta.
  destruct (np2 =? 0)%Z; [by left|apply IH].
Qed.
Lemma species_tle s c f : tle st (old_bmover fl z dE gdim negE Eext step time dt maxc m accel_only solved ext sn qom b1 s c f)
  (charged_guarded_bmover fl z dE gdim negE Eext solved ext sn step time dt qom maxc m b2 accel_only s c f).
Proof using Hon.
  unfold old_bmover, charged_guarded_bmover. destruct (get_number_of_items s =? 0)%Z; [by left|]. unfold charged_bmover, bmover.
  apply tle_match; [by left|]. intros [s1 [np go]] _. cbv zeta. apply tle_match; [|intros [m2 f1] _; by left].
  destruct go; [apply segments_tle|by left].
Qed.
End One.

Lemma over_tle st one1 one2 sns : (forall sn s c f, tle st (one1 sn s c f) (one2 sn s c f)) ->
  forall saps c f, tle st (over_species one1 sns saps c f) (over_species one2 sns saps c f).
Proof.
  intros H. induction sns as [|sn sns IH]; intros saps c f; [by left|]. cbn [over_species]. apply tle_match; [apply H|]. intros [[s1 c1] f1] _. apply IH.
Qed.
Lemma same_marker m bcs r fi mf f n t p c : tle false (on_marker bcs rec_crossing_old m fi mf f n t p c) (on_marker bcs r m fi mf f n t p c).
Proof.
  unfold on_marker. cbv zeta. destruct (marker m mf =? 0)%Z; [by left|]. destruct (is_traj p); [by right|by left].
Qed.
Lemma refuse_marker m bcs r fi mf f n t p c :
  tle true (on_marker bcs rec_crossing_old m fi mf f n t p c) (on_marker (refuse_traj bcs) r m fi mf f n t p c).
Proof.
  unfold on_marker, refuse_traj. cbv zeta. destruct (marker m mf =? 0)%Z; [by left|]. destruct (is_traj p).
  - right. split; [reflexivity|]. intros _. destruct (r c fi p t); by eexists.
  - left. by destruct (bcs _).
Qed.

(** Without the flag the boundary functions are called in the same way. *)
Lemma loop_unflagged fl bcs r1 r2 k m maxc fi fuel : no_new_traj bcs -> forall ci ml cnt tS dtR p c, is_traj p = false ->
  track_loop fl (refuse_traj bcs) r1 fuel k m maxc fi ci ml cnt tS dtR p c = track_loop fl bcs r2 fuel k m maxc fi ci ml cnt tS dtR p c.
Proof.
  intros Hb. induction fuel as [|fuel IH]; intros ci ml cnt tS dtR p c Hp; [done|]. cbn [track_loop]. cbv zeta.
  destruct (cells m ci) as [cr|]; [|done]. destruct (inside m ci _); [done|]. destruct (maxc <? cnt + 1)%Z; [done|].
  destruct (find_facet _ _ _ _ _) as [[[cf f] n]|]; [|done]. destruct (cf =? NO_FACET)%Z; [done|].
  destruct (py_get (fids cr) cf) as [mf|]; [|done]. destruct (mf =? ml)%Z; [done|].
  set (p1 := set_px0 p _). assert (Hp1 : is_traj p1 = false) by exact Hp. set (c1 := put_move k c _). clearbody p1 c1.
  assert (Ho : on_marker (refuse_traj bcs) r1 m fi mf f n (fl (tS + fl (f * dtR))) p1 c1 = on_marker bcs r2 m fi mf f n (fl (tS + fl (f * dtR))) p1 c1).
  { unfold on_marker, refuse_traj. cbv zeta. rewrite Hp1. destruct (marker m mf =? 0)%Z; [done|]. by destruct (bcs _). }
  rewrite Ho. destruct (on_marker bcs r2 m fi mf f n _ p1 c1) as [[p2 c2]|] eqn:E2; [|done].
  assert (Hp2 : is_traj p2 = false).
  { unfold on_marker in E2. cbv zeta in E2. rewrite Hp1 in E2. destruct (marker m mf =? 0)%Z; [by injection E2 as <- _|].
    destruct (bcs (marker m mf)) as [b|] eqn:Eb; [|discriminate]. exact (Hb _ _ _ _ _ _ _ _ _ Eb E2 Hp1). }
  destruct (py_get (nbrs cr) cf) as [cn|]; [|done]. destruct (cn =? NO_CELL)%Z; [|by apply IH]. destruct (is_deleted p2); [done|by apply IH].
Qed.
Lemma advance_unflagged fl bcs r1 r2 ao m maxc fi time dt qmdt E p c : no_new_traj bcs -> is_traj p = false ->
  advance_charged fl (refuse_traj bcs) r1 ao m maxc fi time dt qmdt E p c = advance_charged fl bcs r2 ao m maxc fi time dt qmdt E p c.
Proof.
  intros Hb Hp. unfold advance_charged, track. cbv zeta. rewrite (loop_unflagged fl bcs r1 r2); [done|done|]. destruct ao, E; exact Hp.
Qed.
Lemma seq_pass_same {A C} (hk1 hk2 : hooks A C) xs : (forall c i p, p ∈ xs -> adv hk1 c i p = adv hk2 c i p) ->
  deleted hk1 = deleted hk2 -> on_keep hk1 = on_keep hk2 -> on_drop hk1 = on_drop hk2 ->
  forall i kept ch c, seq_pass hk1 i kept ch c xs = seq_pass hk2 i kept ch c xs.
Proof.
  intros Ha Hd Hk Ho. induction xs as [|p xs IH]; intros i kept ch c; [done|]. cbn [seq_pass]. rewrite Ha by left. rewrite Hd, Hk, Ho.
  destruct (adv hk2 c i p) as [[q c1]|]; [|done]. assert (IH' := IH ltac:(intros; apply Ha; by right)).
  destruct (deleted hk2 q); [destruct (on_drop hk2 c1 i p q)|destruct (on_keep hk2 c1 ch i _ q)]; done.
Qed.
(** Every particle of a pass that succeeds has been advanced. *)
Lemma seq_pass_each {A C} (hk : hooks A C) xs : forall i kept ch c r, seq_pass hk i kept ch c xs = Ok r ->
  forall j p, xs !! j = Some p -> exists c1 q c2, adv hk c1 (i + Z.of_nat j)%Z p = Ok (q, c2).
Proof.
  induction xs as [|x xs IH]; intros i kept ch c r E j p Hj; [done|]. cbn [seq_pass] in E.
  destruct (adv hk c i x) as [[q c1]|] eqn:Ea; [|discriminate]. destruct j as [|j].
  - injection Hj as <-. replace (i + Z.of_nat 0)%Z with i by lia. by eexists _, _, _.
  - replace (i + Z.of_nat (S j))%Z with (i + 1 + Z.of_nat j)%Z by lia.
    destruct (deleted hk q).
    + destruct (on_drop hk c1 i x q) as [c2|]; [|discriminate]. by eapply IH.
    + destruct (on_keep hk c1 ch i _ q) as [c2|]; [|discriminate]. by eapply IH.
Qed.

Section Main.
Context (fl : R -> R) (z : nat -> R) (dE gdim : nat) (negE Eext : option (vspace * list R)) (step : Z) (time dt : R) (maxc : Z) (m : mesh)
  (accel_only : bool).

Section Single.
Context (solved ext : option bool) (sn : string) (qom : R) (bcs : Z -> option (bcfun (K:=option traj))).
Notation old := (old_bmover fl z dE gdim negE Eext step time dt maxc m accel_only solved ext sn qom bcs).
Notation new b := (charged_guarded_bmover fl z dE gdim negE Eext solved ext sn step time dt qom maxc m b accel_only).

Lemma old_refuse s c f r : old s c f = Ok r <-> new (refuse_traj bcs) s c f = Ok r.
Proof.
  assert (H : tle true (old s c f) (new (refuse_traj bcs) s c f)) by (apply species_tle; intros; apply refuse_marker).
  destruct H as [H|[H1 H2]]; [by rewrite H|]. destruct (H2 eq_refl) as (e & H3). rewrite H1, H3. by split.
Qed.
Lemma old_new s c f r : old s c f = Ok r -> new bcs s c f = Ok r.
Proof.
  intros E. assert (H : tle false (old s c f) (new bcs s c f)) by (apply species_tle; intros; apply same_marker).
  destruct H as [H|[H _]]; congruence.
Qed.
Lemma new_old L s xs c f r : (1 <= L)%Z -> Reachable L s -> Stores s xs -> arrays_of L f -> (forall V a, Eext = Some (V, a) -> a <> []) ->
  no_new_traj bcs -> (forall p, p ∈ xs -> is_traj p = false) -> new bcs s c f = Ok r -> old s c f = Ok r.
Proof.
  intros HL HR Hs Hf Hv Hb Hp E. destruct r as [[s' c'] f'].
  destruct (proj1 (C59_fields fl z dE gdim negE Eext solved ext sn step time dt qom maxc m bcs accel_only L s xs c f HL HR Hs Hf Hv s' c') (ex_intro _ f' E)) as [Hin Em].
  set (v1 := value fl dE gdim negE) in *. set (v2 := fun (i : Z) (_ : particle) => random_value fl z dE gdim Eext (sf_rng f) xs (Z.to_nat i)) in *.
  set (hk1 := each_hooks fl dE negE Eext solved ext sn step time dt qom maxc m (refuse_traj bcs) accel_only v1 v2).
  set (hk2 := each_hooks fl dE negE Eext solved ext sn step time dt qom maxc m bcs accel_only v1 v2) in *.
  assert (Hseq : seq_pass hk1 0 [] false c xs = seq_pass hk2 0 [] false c xs).
  { apply (seq_pass_same hk1 hk2 xs); [|exact (eq_refl is_deleted)|exact (eq_refl (keep_particle sn))|exact (eq_refl (drop_particle fl sn step time dt (replicate dE 0)))]. intros c0 i p Hpx. unfold hk1, hk2, each_hooks, charged_hooks. cbn [adv].
    set (S := select_E fl dE (option_map (fun _ => v1) negE) (option_map (fun _ => v2 i) Eext) solved ext p). clearbody S.
    destruct S as [Es|]; [|reflexivity]. apply advance_unflagged; [exact Hb|exact (Hp p Hpx)]. }
  pose proof (C04_pass_is_sequential L s xs hk1 c HL HR Hs) as H1. pose proof (C04_pass_is_sequential L s xs hk2 c HL HR Hs) as H2.
  rewrite Hseq in H1. destruct (seq_pass hk2 0 [] false c xs) as [[ys c1]|e]; [|rewrite H2 in Em; discriminate].
  destruct H1 as (s1 & E1 & _), H2 as (s2 & E2 & _). rewrite E2 in Em. injection Em as -> ->.
  destruct (proj2 (C59_fields fl z dE gdim negE Eext solved ext sn step time dt qom maxc m (refuse_traj bcs) accel_only L s xs c f HL HR Hs Hf Hv s1 c') (conj Hin E1)) as (f1 & Ef).
  apply old_refuse in Ef. assert (Ef' := old_new _ _ _ _ Ef). rewrite E in Ef'. injection Ef' as -> ->. exact Ef.
Qed.
End Single.

(** [C61_records] for one species: a particle with a trajectory that leaves its cell through a facet with a marker. *)
Theorem C61_records solved ext sn qom bcs L s xs c f i p Es : (1 <= L)%Z -> Reachable L s -> Stores s xs -> arrays_of L f ->
  (forall V a, Eext = Some (V, a) -> a <> []) -> xs !! i = Some p -> is_traj p = true ->
  select_E fl dE (option_map (fun _ => value fl dE gdim negE) negE)
    (option_map (fun _ _ => random_value fl z dE gdim Eext (sf_rng f) xs i) Eext) solved ext p = Ok Es ->
  leaves_marked fl m (if accel_only then accelerate fl (fl (qom * dt)) Es p else free_move fl dt (accelerate fl (fl (qom * dt)) Es p)) ->
  (exists r, charged_guarded_bmover fl z dE gdim negE Eext solved ext sn step time dt qom maxc m bcs accel_only s c f = Ok r) ->
  old_bmover fl z dE gdim negE Eext step time dt maxc m accel_only solved ext sn qom bcs s c f = Raise TypeError.
Proof.
  intros HL HR Hs Hf Hv Hi Hp HE (cr & cf & fr & n & mf & L1 & L2 & L3 & L4 & L5 & L6) (r & Er).
  assert (H : tle false (old_bmover fl z dE gdim negE Eext step time dt maxc m accel_only solved ext sn qom bcs s c f)
    (charged_guarded_bmover fl z dE gdim negE Eext solved ext sn step time dt qom maxc m bcs accel_only s c f)) by (apply species_tle; intros; apply same_marker).
  destruct H as [H|[H _]]; [|exact H]. exfalso. rewrite Er in H. apply old_refuse in H. destruct r as [[s' c'] f'].
  destruct (proj1 (C59_fields fl z dE gdim negE Eext solved ext sn step time dt qom maxc m (refuse_traj bcs) accel_only L s xs c f HL HR Hs Hf Hv s' c') (ex_intro _ f' H)) as [_ Em].
  set (hk := each_hooks fl dE negE Eext solved ext sn step time dt qom maxc m (refuse_traj bcs) accel_only (value fl dE gdim negE)
    (fun (j : Z) (_ : particle) => random_value fl z dE gdim Eext (sf_rng f) xs (Z.to_nat j))) in Em.
  pose proof (C04_pass_is_sequential L s xs hk c HL HR Hs) as H1.
  destruct (seq_pass hk 0 [] false c xs) as [r|] eqn:Esq; [|rewrite H1 in Em; discriminate].
  destruct (seq_pass_each hk xs 0 [] false c r Esq i p Hi) as (c1 & q & c2 & Ea). unfold hk, each_hooks, charged_hooks in Ea. cbn [adv] in Ea.
  replace (Z.to_nat (0 + Z.of_nat i)) with i in Ea by lia. rewrite HE in Ea. unfold advance_charged, track in Ea. cbv zeta in Ea.
  set (p2 := if accel_only then _ else _) in *.
  assert (Hp2 : is_traj p2 = true) by (unfold p2; destruct accel_only, Es; exact Hp). clearbody p2.
  unfold track_fuel in Ea. cbn [track_loop] in Ea. rewrite L1, L2 in Ea. cbv zeta in Ea.
  destruct (maxc <? 0 + 1)%Z; [discriminate|]. rewrite L3 in Ea.
  destruct (cf =? NO_FACET)%Z eqn:Ecf; [lia|]. rewrite L5 in Ea. destruct (mf =? NO_FACET)%Z; [discriminate|].
  unfold on_marker at 1 in Ea. cbv zeta in Ea. destruct (marker m mf =? 0)%Z eqn:Emk; [lia|].
  set (p3 := set_px0 p2 _) in *. assert (Hp3 : is_traj p3 = true) by exact Hp2. rewrite Hp3 in Ea.
  destruct (rec_crossing_charged _ _ _ _ _ _ _ _ _ _ _) as [c3|]; [|discriminate]. cbn [refuse_traj] in Ea. rewrite Hp3 in Ea. discriminate.
Qed.

Section All.
Context (solved ext : string -> option bool) (qom : string -> R) (bcs : string -> Z -> option (bcfun (K:=option traj))).
Notation old := (move_particles_in_electrostatic_field fl z dE gdim negE Eext step time dt maxc m accel_only solved ext qom bcs).
Notation new b := (advance_charged_particles_in_E_field fl z dE gdim negE Eext step time dt maxc m accel_only solved ext qom b).

(** The older function does what the newer one does, or fails with a TypeError. *)
Theorem C61_either sns saps c f : old sns saps c f = new bcs sns saps c f \/ old sns saps c f = Raise TypeError.
Proof.
  assert (H : tle false (old sns saps c f) (new bcs sns saps c f)).
  { apply over_tle. intros. apply species_tle. intros. apply same_marker. }
  destruct H as [H|[H _]]; [by left|by right].
Qed.

(** It succeeds exactly when the newer one succeeds, with the same result, with boundary functions that refuse the particles with a
    trajectory. *)
Theorem C61_exact sns saps c f r : old sns saps c f = Ok r <-> new (fun sn => refuse_traj (bcs sn)) sns saps c f = Ok r.
Proof.
  assert (H : tle true (old sns saps c f) (new (fun sn => refuse_traj (bcs sn)) sns saps c f)).
  { apply over_tle. intros. apply species_tle. intros. apply refuse_marker. }
  destruct H as [H|[H1 H2]]; [by rewrite H|]. destruct (H2 eq_refl) as (e & H3). rewrite H1, H3. by split.
Qed.

(** Without particles with a trajectory it succeeds whenever the newer one does, with the same result. *)
Theorem C61_no_traj L sns saps xs c f r : (1 <= L)%Z -> NoDup sns ->
  (forall sn, sn ∈ sns -> Reachable L (saps sn) /\ Stores (saps sn) (xs sn) /\ (forall p, p ∈ xs sn -> is_traj p = false) /\ no_new_traj (bcs sn)) ->
  arrays_of L f -> (forall V a, Eext = Some (V, a) -> a <> []) ->
  new bcs sns saps c f = Ok r <-> old sns saps c f = Ok r.
Proof.
  intros HL Hnd Hall Hf Hv. split.
  2: { intros E. destruct (C61_either sns saps c f) as [H|H]; congruence. }
  revert saps c f Hall Hf. induction sns as [|sn sns IH]; intros saps c f Hall Hf E; [exact E|].
  unfold advance_charged_particles_in_E_field in E. unfold move_particles_in_electrostatic_field. cbn [over_species] in *.
  assert (Hf0 : arrays_of L (fields_at_start f)) by exact Hf.
  destruct (Hall sn) as (HR & Hs & Hp & Hb); [left|].
  set (N := charged_guarded_bmover fl z dE gdim negE Eext (solved sn) (ext sn) sn step time dt (qom sn) maxc m (bcs sn) accel_only (saps sn) c
    (fields_at_start f)) in E. destruct N as [[[s1 c1] f1]|] eqn:E1; [|discriminate]. unfold N in E1. clear N.
  rewrite (new_old (solved sn) (ext sn) sn (qom sn) (bcs sn) L (saps sn) (xs sn) c (fields_at_start f) _ HL HR Hs Hf0 Hv Hb Hp E1).
  apply list.NoDup_cons in Hnd as [Hnot Hnd]. apply IH; [exact Hnd| | |exact E].
  - intros sn' Hin. assert (sn' <> sn) by (intros ->; done). destruct (String.eqb_spec sn' sn); [done|]. apply Hall. by right.
  - exact (proj1 (C59_draws fl z dE gdim negE Eext (solved sn) (ext sn) sn step time dt (qom sn) maxc m (bcs sn) accel_only L (saps sn) (xs sn) c (fields_at_start f) s1 c1 f1
      HL HR Hs Hf0 Hv E1)).
Qed.
End All.
End Main.

(** *** A concrete case *)

(** A particle of the line mesh of C21 with [bits], which leaves through the absorbing end of the mesh in the next step. *)
Definition op (bits : Z) : particle := Particle [2] [0] [2] 1 bits 1 11 0.
Definition of : segfields := SegFields [[7]; [8]] [[0]; [0]] 4 None None.
Definition ohk (bits : Z) : hooks particle (tctx (K:=option traj)) :=
  each_hooks exact 1 None None None None "H" 7 3 1 0 10 line_mesh line_bcs false (value exact 1 1 None)
    (fun (j : Z) (_ : particle) => random_value exact INR 1 1 None 4 [op bits] (Z.to_nat j)).
Lemma ohk_adv : exists q c, adv (ohk 2) (TCtx [0] None) 0 (op 2) = Ok (q, c) /\ is_deleted q = true /\ usr c = None.
Proof.
  unfold ohk, each_hooks, charged_hooks, op. cbn [adv]. unfold advance_charged. cbn [select_E option_map accelerate set_pu free_move].
  rewrite track_eq. change (track_fuel 10) with 12%nat.
  erewrite (loop_leave _ _ _ _ _ _ _ _ _ (Particle [4] [3] [2] 1 3 (-1) 11 0) 1 (TCtx [2] None)).
  2: { ieval. }
  eexists _, _. split; [reflexivity|]. split; reflexivity.
Qed.
Lemma ohk_adv0 : exists q c, adv (ohk 0) (TCtx [0] None) 0 (op 0) = Ok (q, c) /\ is_deleted q = true /\ usr c = None.
Proof.
  unfold ohk, each_hooks, charged_hooks, op. cbn [adv]. unfold advance_charged. cbn [select_E option_map accelerate set_pu free_move].
  rewrite track_eq. change (track_fuel 10) with 12%nat.
  erewrite (loop_leave _ _ _ _ _ _ _ _ _ (Particle [4] [3] [2] 1 1 (-1) 11 0) 1 (TCtx [2] None)).
  2: { ieval. }
  eexists _, _. split; [reflexivity|]. split; reflexivity.
Qed.
Lemma onew bits q c : adv (ohk bits) (TCtx [0] None) 0 (op bits) = Ok (q, c) -> is_deleted q = true -> usr c = None ->
  exists s, push_all (sap_init 2) [op bits] = Ok (s, [(0, 0)]%Z) /\ Reachable 2 s /\ Stores s [op bits] /\
  exists s' f', Stores s' [] /\ charged_guarded_bmover exact INR 1 1 None None None None "H" 7 3 1 0 10 line_mesh line_bcs false s (TCtx [0] None) of = Ok (s', c, f').
Proof.
  intros Ea Hd Hu. destruct (C01_push_keeps_place 2 [op bits]) as (s & Ep & Hs); [lia|].
  assert (HR : Reachable 2 s) by exact (push_all_reach 2 [op bits] _ _ _ (r_new 2) Ep).
  exists s. split; [exact Ep|]. split; [exact HR|]. split; [exact Hs|].
  pose proof (C04_pass_is_sequential 2 s [op bits] (ohk bits) (TCtx [0] None) ltac:(lia) HR Hs) as H.
  assert (Hsq : seq_pass (ohk bits) 0 [] false (TCtx [0] None) [op bits] = Ok ([], c)).
  { rewrite (seq_drop _ _ _ _ _ _ _ q c c Ea Hd); [reflexivity|]. unfold ohk, each_hooks, drop_particle. cbn [on_drop]. by rewrite Hu. }
  rewrite Hsq in H. destruct H as (s' & E & Hst & _).
  destruct (proj2 (C59_fields exact INR 1 1 None None None None "H" 7 3 1 0 10 line_mesh line_bcs false 2 s [op bits] (TCtx [0] None) of
    ltac:(lia) HR Hs ltac:(by split) ltac:(done) s' c)) as (f' & Ef).
  { split; [|exact E]. intros p _. split; intros [Hx _]; exfalso; apply Hx; reflexivity. }
  exists s', f'. by split.
Qed.

(** With the flag the newer function completes the step and the older one fails; there is not even an object for trajectories. *)
Example C61_example : exists s s' c' f', push_all (sap_init 2) [op 2] = Ok (s, [(0, 0)]%Z) /\ Stores s' [] /\
  charged_guarded_bmover exact INR 1 1 None None None None "H" 7 3 1 0 10 line_mesh line_bcs false s (TCtx [0] None) of = Ok (s', c', f') /\
  old_bmover exact INR 1 1 None None 7 3 1 10 line_mesh false None None "H" 0 line_bcs s (TCtx [0] None) of = Raise TypeError.
Proof.
  destruct ohk_adv as (q & c & Ea & Hd & Hu). destruct (onew 2 q c Ea Hd Hu) as (s & Ep & HR & Hs & s' & f' & Hst & En).
  exists s, s', c, f'. split; [exact Ep|]. split; [exact Hst|]. split; [exact En|].
  apply (C61_records exact INR 1 1 None None 7 3 1 10 line_mesh false None None "H" 0 line_bcs 2 s [op 2] (TCtx [0] None) of 0 (op 2) (Some [0]));
    [lia|exact HR|exact Hs|by split|done|reflexivity|reflexivity|reflexivity| |by exists (s', c, f')].
  assert (Hm : accelerate exact (exact (0 * 1)) (Some [0]) (op 2) = op 2).
  { unfold op, accelerate, set_pu, vadd, vscale, exact. cbn. do 2 f_equal. lra. }
  rewrite Hm. exists (CellRec [[1]; [3]] [[-1]; [1]] [1; 2]%Z [0; -1]%Z), 1%Z, (1/2), (Some [1]), 2%Z.
  assert (Hx : free_move exact 1 (op 2) = Particle [4] [2] [2] 1 2 1 11 0).
  { unfold free_move, op, set_px, set_px0, vadd, exact. cbn. do 2 f_equal. lra. }
  rewrite Hx. split; [reflexivity|]. split; [reval; reflexivity|]. split; [reval; rsolve|]. split; [discriminate|]. split; [reflexivity|discriminate].
Qed.
(** Without the flag both complete it. *)
Example C61_no_traj_example : exists s s' c' f', push_all (sap_init 2) [op 0] = Ok (s, [(0, 0)]%Z) /\ Stores (s' "H") [] /\
  let saps := fun _ => s in let none := fun _ : string => None in
  advance_charged_particles_in_E_field exact INR 1 1 None None 7 3 1 10 line_mesh false none none (fun _ => 0) (fun _ => line_bcs) ["H"] saps (TCtx [0] None) of = Ok (s', c', f') /\
  move_particles_in_electrostatic_field exact INR 1 1 None None 7 3 1 10 line_mesh false none none (fun _ => 0) (fun _ => line_bcs) ["H"] saps (TCtx [0] None) of = Ok (s', c', f').
Proof.
  destruct ohk_adv0 as (q & c & Ea & Hd & Hu). destruct (onew 0 q c Ea Hd Hu) as (s & Ep & HR & Hs & s' & f' & Hst & En).
  exists s, (fun x => if String.eqb x "H" then s' else s), c, f'. split; [exact Ep|]. split; [exact Hst|]. cbv zeta.
  assert (Hnew : advance_charged_particles_in_E_field exact INR 1 1 None None 7 3 1 10 line_mesh false (fun _ => None) (fun _ => None) (fun _ => 0) (fun _ => line_bcs) ["H"]
    (fun _ => s) (TCtx [0] None) of = Ok (fun x => if String.eqb x "H" then s' else s, c, f')).
  { unfold advance_charged_particles_in_E_field. cbn [over_species]. change (fields_at_start of) with of. rewrite En. reflexivity. }
  split; [exact Hnew|].
  assert (Hall : forall sn, sn ∈ ["H"] -> Reachable 2 s /\ Stores s [op 0] /\ (forall p, p ∈ [op 0] -> is_traj p = false) /\ no_new_traj line_bcs).
  { intros sn _. split; [exact HR|]. split; [exact Hs|]. split.
    - intros p Hp. apply elem_of_list_singleton in Hp as ->. reflexivity.
    - intros v b c0 p mf f n q0 c1 Hb E Hp. destruct (line_civil v b c0 p mf f n q0 c1 Hb E) as [(_ & _ & Ht) _]. congruence. }
  pose proof (C61_no_traj exact INR 1 1 None None 7 3 1 10 line_mesh false (fun _ => None) (fun _ => None) (fun _ => 0) (fun _ => line_bcs) 2 ["H"] (fun _ => s)
    (fun _ => [op 0]) (TCtx [0] None) of (fun x => if String.eqb x "H" then s' else s, c, f') ltac:(lia) (NoDup_singleton "H") Hall ltac:(by split) ltac:(done)) as H.
  exact (proj1 H Hnew).
Qed.

Print Assumptions C61_either.
Print Assumptions C61_exact.
Print Assumptions C61_no_traj.
Print Assumptions C61_records.
