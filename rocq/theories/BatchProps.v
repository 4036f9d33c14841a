(** C59: the charged mover gives each particle the field at its own position. *)
From stdpp Require Import strings list_numbers.
From Verif Require Import SapModel MoverModel SapProofs SapSpec SapRefine MoverProofs StorageProps Vec VecProofs TrackModel TrajModel TrajProps.
From Verif Require Import MeshFieldModel MeshFieldProps BatchProofs.
From Coq Require Import ZifyBool ZifyNat.
Ltac Zify.zify_post_hook ::= Z.div_mod_to_equations.
Local Open Scope R_scope.

Lemma lookup_py_get {A} (l : list A) (j : Z) x : (0 <= j)%Z -> l !! Z.to_nat j = Some x -> py_get l j = Ok x.
Proof. intros H1 H2. by apply py_get_in. Qed.

Section Batch.
Context (fl : R -> R) (z : nat -> R) (dE gdim : nat) (negE Eext : option (vspace * list R)) (solved ext : option bool).
Context (sn : string) (step : Z) (time dt qom : R) (maxc : Z) (m : mesh) (bcs : Z -> option (bcfun (K:=option traj))) (accel_only : bool).

(** ** What is meant *)

(** The solved and the external field are to be applied to the species. *)
Definition solved_on : Prop := negE <> None /\ solved <> Some false.
Definition ext_on : Prop := Eext <> None /\ ext <> Some false.
(** The field [G] has value [v] at particle [p]. *)
Definition has_field (G : option (vspace * list R)) (p : particle) (v : vec) : Prop :=
  exists V a, G = Some (V, a) /\ fe_eval fl V dE a (take gdim (px p)) = Ok v.
(** The fields that are applied have values at the particle. *)
Definition in_fields (p : particle) : Prop := (solved_on -> exists v, has_field negE p v) /\ (ext_on -> exists v, has_field Eext p v).

(** The mover that treats one particle after the other (TrajModel.v), with the value [g p] of the negative field and the value
    [h i p] of the external field for the particle [p] with index [i]. *)
Definition each_hooks (g : particle -> vec) (h : Z -> particle -> vec) : hooks particle (tctx (K:=option traj)) :=
  Hooks (fun c fi p => adv (charged_hooks fl sn step time dt qom maxc m bcs dE (option_map (fun _ => g) negE) (option_map (fun _ => h fi) Eext)
                              solved ext accel_only) c fi p)
    is_deleted (keep_particle sn) (drop_particle fl sn step time dt (replicate dE 0)).

(** The external field of the particle with index [i]: its field multiplied by a random number, which is number [k] plus the
    number of particles before it that have a field other than zero. *)
Definition random_field (k : nat) (items : list particle) (ws : list vec) (h : Z -> particle -> vec) : Prop :=
  forall i p w, items !! i = Some p -> ws !! i = Some w ->
    h (Z.of_nat i) p = if Reqb (norm fl w) 0 then w else map (fun x => fl (x * fl (1 * z (k + drawn fl (take i ws))%nat))) w.

(** ** Proof *)

Context (L : Z) (HL : (1 <= L)%Z) (items : list particle) (g : particle -> vec) (ws : list vec) (h : Z -> particle -> vec) (k0 : nat).
Context (Hg : solved_on -> forall p, p ∈ items -> has_field negE p (g p)).
Context (Hws : ext_on -> Forall2 (has_field Eext) items ws).
Context (Hh : ext_on -> random_field k0 items ws h).
Context (Hval : forall V a, Eext = Some (V, a) -> a <> []).

Definition J (i : Z) (f : segfields) : Prop := length (sf_negE f) = Z.to_nat L /\ length (sf_Eext f) = Z.to_nat L /\
  (ext_on -> sf_rng f = (k0 + drawn fl (take (Z.to_nat (i * L)) ws))%nat) /\ (~ ext_on -> sf_rng f = k0).

(** The solved part of the field of a segment. *)
Lemma solved_part_ok ps f : (forall p, p ∈ ps -> p ∈ items) -> (length ps <= length (sf_negE f))%nat ->
  exists negArr Eseg, prep_solved fl dE gdim negE solved f ps = Ok (negArr, Eseg) /\ length negArr = length (sf_negE f) /\
    match Eseg with
    | None => negE <> None /\ solved = Some false
    | Some E => length E = length ps /\ ~ (negE <> None /\ solved = Some false) /\
      forall j p, ps !! j = Some p -> E !! j = Some (match negE with Some _ => map (fun x => fl (x * -1)) (g p) | None => replicate dE 0 end)
    end.
Proof using All.
  intros Hin Hle. unfold prep_solved. destruct negE as [[V a]|] eqn:En.
  - destruct (decide (solved = Some false)) as [Hs|Hs].
    + exists (sf_negE f), None. rewrite Hs. by repeat split.
    + assert (Hvs : Forall2 (fun p v => fe_eval fl V dE a (take gdim (px p)) = Ok v) ps (map g ps)).
      { assert (HF : forall p, p ∈ ps -> fe_eval fl V dE a (take gdim (px p)) = Ok (g p)).
        { intros p Hp. assert (Hon : solved_on) by (split; [by rewrite En|exact Hs]).
          destruct (Hg Hon p (Hin p Hp)) as (V' & a' & [= <- <-] & Hv). exact Hv. }
        clear - HF. induction ps as [|p ps IH]; [constructor|]. cbn. constructor; [apply HF; left|]. apply IH. intros q Hq. apply HF. by right. }
      pose proof (interpolate_ok fl V dE gdim a ps _ (sf_negE f) Hvs Hle) as Ei.
      set (E := map (map (fun x => fl (x * -1))) (map g ps)).
      exists (E ++ drop (length ps) (map g ps ++ drop (length ps) (sf_negE f))), (Some E).
      assert (Ht : take (length ps) (map g ps ++ drop (length ps) (sf_negE f)) = map g ps).
      { rewrite take_app_alt; [reflexivity|]. by rewrite map_length. }
      split.
      { destruct solved as [[]|]; [|done|]; rewrite Ei; rewrite Ht; reflexivity. }
      split.
      { unfold E. rewrite app_length, drop_length, app_length, !map_length, drop_length. lia. }
      split; [unfold E; by rewrite !map_length|]. split; [intros [_ ?]; done|]. intros j p Hp. unfold E.
      change (map ?g ?l) with (g <$> l). rewrite !list_lookup_fmap, Hp. reflexivity.
  - eexists _, _. split; [reflexivity|]. split.
    { rewrite app_length, map_length, take_length, drop_length. lia. }
    split; [rewrite map_length, take_length; lia|]. split; [intros [? _]; done|]. intros j p Hp.
    change (map ?g ?l) with (g <$> l). rewrite list_lookup_fmap. rewrite lookup_take by (by eapply lookup_lt_Some).
    destruct (lookup_lt_is_Some_2 (sf_negE f) j) as [x Hx]; [apply lookup_lt_Some in Hp; lia|]. by rewrite Hx.
Qed.

Lemma pieces_lookup (its : list particle) i ps : pieces L its !! i = Some ps -> ps = take (Z.to_nat L) (drop (i * Z.to_nat L) its).
Proof using All.
  unfold pieces. change (map ?g ?l) with (g <$> l). rewrite list_lookup_fmap. destruct (seq _ _ !! i) as [j|] eqn:E; [|discriminate].
  apply lookup_seq in E as [-> _]. cbn. intros [= <-]. reflexivity.
Qed.

(** One segment: its fields, and what its particles then do. *)
Lemma prep_step i f f1 ps : pieces L items !! Z.to_nat i = Some ps -> (0 <= i)%Z -> J i f ->
  prep_fields fl z dE gdim negE Eext solved ext f ps = Ok f1 -> J (i + 1) f1 /\
  forall j p, ps !! Z.to_nat j = Some p -> (0 <= j)%Z ->
    same_at (charged_hooks_at fl dE Eext ext sn step time dt qom maxc m bcs accel_only) (each_hooks g h) f1 j (i * L + j)%Z p.
Proof using All.
  intros Hps Hi (J1 & J2 & J3 & J4) E.
  apply pieces_lookup in Hps. assert (Hlen : (length ps <= Z.to_nat L)%nat) by (subst ps; rewrite take_length; lia).
  assert (Hin : forall p, p ∈ ps -> p ∈ items).
  { intros p Hp. subst ps. apply elem_of_list_lookup in Hp as [q Hq]. apply lookup_take_Some in Hq as [Hq _]. rewrite lookup_drop in Hq. by eapply elem_of_list_lookup_2. }
  assert (Hat : forall j p, ps !! Z.to_nat j = Some p -> (0 <= j)%Z -> items !! Z.to_nat (i * L + j) = Some p).
  { intros j p Hp Hj. subst ps. apply lookup_take_Some in Hp as [Hp _]. rewrite lookup_drop in Hp.
    replace (Z.to_nat (i * L + j)) with (Z.to_nat i * Z.to_nat L + Z.to_nat j)%nat by nia. exact Hp. }
  unfold prep_fields in E. destruct (solved_part_ok ps f Hin ltac:(lia)) as (negArr & Eseg & Es & Hl & HE). cbv zeta in E. rewrite Es in E.
  destruct (decide (is_Some Eext /\ ext <> Some false)) as [[[[V a] EX] Hext]|Hoff].
  - (* the external field is applied *)
    assert (Hon : ext_on) by (split; [by rewrite EX|exact Hext]).
    set (us := take (Z.to_nat L) (drop (Z.to_nat i * Z.to_nat L) ws)).
    assert (Hus : Forall2 (fun p v => fe_eval fl V dE a (take gdim (px p)) = Ok v) ps us).
    { assert (HF : Forall2 (has_field Eext) ps us) by (subst ps; unfold us; apply Forall2_take, Forall2_drop, (Hws Hon)).
      eapply Forall2_impl; [exact HF|]. intros p v (V' & a' & E' & Hv). rewrite EX in E'. injection E' as <- <-. exact Hv. }
    pose proof (interpolate_random_ok fl V dE gdim a z ps us (sf_Eext f) (sf_rng f) Hus ltac:(lia) (Hval _ _ EX)) as Er.
    pose proof (Forall2_length _ _ _ Hus) as Hlu.
    assert (E' : match Eseg with
      | None => Raise AttributeError
      | Some E0 => let E1 := zip_with (vadd fl) E0 (take (length ps) (rrows fl z (sf_rng f) us ++ drop (length ps) (sf_Eext f))) in
        Ok (SegFields (E1 ++ drop (length ps) negArr) (rrows fl z (sf_rng f) us ++ drop (length ps) (sf_Eext f)) (sf_rng f + drawn fl us)%nat (Some E1)
          (Some (take (length ps) (rrows fl z (sf_rng f) us ++ drop (length ps) (sf_Eext f)))))
      end = Ok f1).
    { rewrite EX in E. destruct ext as [[]|]; [|done|]; rewrite Er in E; exact E. }
    clear E. destruct Eseg as [E0|]; [|discriminate]. cbv zeta in E'.
    rewrite take_app_alt in E' by (rewrite rrows_length; lia). injection E' as <-. destruct HE as (HlE & Hoff & HE). split.
    + split; cbn [sf_negE sf_Eext sf_rng].
      { rewrite app_length, zip_with_length, rrows_length, drop_length. lia. }
      split; [rewrite app_length, rrows_length, drop_length; lia|]. split; [|done]. intros _. rewrite (J3 Hon).
      replace (Z.to_nat ((i + 1) * L)) with (Z.to_nat (i * L) + Z.to_nat L)%nat by nia.
      rewrite <- (take_drop (Z.to_nat (i * L)) (take (Z.to_nat (i * L) + Z.to_nat L) ws)).
      rewrite take_take, Nat.min_l by lia. rewrite <- take_drop_commute.
      replace (Z.to_nat (i * L)) with (Z.to_nat i * Z.to_nat L)%nat at 3 by nia. fold us.
      unfold drawn. rewrite list.filter_app, app_length. lia.
    + intros j p Hp Hj. split; [|done]. intros c. cbn [adv charged_hooks_at each_hooks charged_hooks sf_Eseg sf_Eext_seg].
      pose proof (Hat j p Hp Hj) as Hi2. destruct (Forall2_lookup_l _ _ _ _ _ (Hws Hon) Hi2) as (w & Hw & _).
      assert (Hu : us !! Z.to_nat j = Some w).
      { unfold us. pose proof (lookup_lt_Some _ _ _ Hp). rewrite lookup_take by lia. rewrite lookup_drop.
        replace (Z.to_nat i * Z.to_nat L + Z.to_nat j)%nat with (Z.to_nat (i * L + j)) by nia. exact Hw. }
      pose proof (rrows_lookup fl z us (sf_rng f) (Z.to_nat j) w Hu) as Hr.
      pose proof (Hh Hon (Z.to_nat (i * L + j)) p w Hi2 Hw) as Hx. rewrite Z2Nat.id in Hx by nia.
      assert (Hx' : rrows fl z (sf_rng f) us !! Z.to_nat j = Some (h (i * L + j)%Z p)).
      { assert (Hk : (sf_rng f + drawn fl (take (Z.to_nat j) us))%nat = (k0 + drawn fl (take (Z.to_nat (i * L + j)) ws))%nat).
        { rewrite (J3 Hon). rewrite <- Nat.add_assoc. f_equal.
          replace (Z.to_nat (i * L + j)) with (Z.to_nat (i * L) + Z.to_nat j)%nat by nia.
          rewrite <- (take_drop (Z.to_nat (i * L)) (take (Z.to_nat (i * L) + Z.to_nat j) ws)).
          rewrite take_take, Nat.min_l by lia. rewrite <- take_drop_commute. unfold us. rewrite take_take.
          rewrite Nat.min_l by (apply lookup_lt_Some in Hp; lia).
          replace (Z.to_nat (i * L)) with (Z.to_nat i * Z.to_nat L)%nat at 3 by nia.
          unfold drawn. rewrite list.filter_app, app_length. lia. }
        rewrite Hr, Hx, Hk. reflexivity. }
      set (e := match negE with Some _ => map (fun x => fl (x * -1)) (g p) | None => replicate dE 0 end) in *.
      assert (HrowE : row (zip_with (vadd fl) E0 (rrows fl z (sf_rng f) us)) j = Ok (vadd fl e (h (i * L + j)%Z p))).
      { apply lookup_py_get; [exact Hj|]. rewrite lookup_zip_with, (HE _ _ Hp), Hx'. reflexivity. }
      assert (HrowX : row (rrows fl z (sf_rng f) us) j = Ok (h (i * L + j)%Z p)) by (by apply lookup_py_get).
      rewrite HrowE, HrowX.
      assert (Hsel : select_E fl dE (option_map (fun _ => g) negE) (option_map (fun _ => h (i * L + j)%Z) Eext) solved ext p = Ok (Some (vadd fl e (h (i * L + j)%Z p)))).
      { unfold select_E. rewrite EX. cbn [option_map]. subst e. destruct negE; cbn [option_map].
        - destruct (decide (solved = Some false)) as [Hs|Hs]; [exfalso; apply Hoff; by split|].
          destruct solved as [[]|]; [|done|]; destruct ext as [[]|]; done.
        - destruct ext as [[]|]; done. }
      rewrite Hsel, EX. cbn [option_map]. destruct ext as [[]|]; [|done|]; reflexivity.
  - (* it is not *)
    assert (Hnot : ~ ext_on).
    { intros [H1 H2]. apply Hoff. split; [|exact H2]. destruct Eext; [by eexists|done]. }
    assert (E' : f1 = SegFields negArr (sf_Eext f) (sf_rng f) Eseg (sf_Eext_seg f)).
    { destruct Eext as [[V a]|]; [|congruence]. destruct ext as [[]|]; try congruence; exfalso; apply Hoff; split; [by eexists|done|by eexists|done]. }
    subst f1. split.
    + split; cbn [sf_negE sf_Eext sf_rng]; [congruence|]. split; [exact J2|]. split; [done|exact J4].
    + intros j p Hp Hj. split; [|done]. intros c. cbn [adv charged_hooks_at each_hooks charged_hooks sf_Eseg sf_Eext_seg].
      assert (Hsel : exists Eo, match Eseg with None => Ok None | Some l => let! e := row l j in Ok (Some e) end = Ok Eo /\
        select_E fl dE (option_map (fun _ => g) negE) (option_map (fun _ => h (i * L + j)%Z) Eext) solved ext p = Ok Eo).
      { assert (Hrhs : forall Eo, match negE with Some _ => match solved with Some false => None | _ => Some (map (fun x => fl (x * -1)) (g p)) end | None => Some (replicate dE 0) end = Eo ->
          select_E fl dE (option_map (fun _ => g) negE) (option_map (fun _ => h (i * L + j)%Z) Eext) solved ext p = Ok Eo).
        { intros Eo <-. unfold select_E. destruct Eext as [X|]; cbn [option_map].
          - destruct ext as [[]|]; [exfalso; apply Hoff; split; [by eexists|done]| |exfalso; apply Hoff; split; [by eexists|done]]. by destruct negE.
          - by destruct negE. }
        destruct Eseg as [E0|].
        - destruct HE as (_ & Hns & HE). eexists. split; [unfold row; rewrite (lookup_py_get _ _ _ Hj (HE _ _ Hp)); reflexivity|].
          apply Hrhs. destruct negE; [|done]. destruct solved as [[]|]; [done| |done]. exfalso. apply Hns. by split.
        - destruct HE as [H1 H2]. exists None. split; [reflexivity|]. apply Hrhs. rewrite H2. by destruct negE. }
      destruct Hsel as (Eo & -> & ->). destruct Eext as [X|]; cbn [option_map]; [|reflexivity].
      destruct ext as [[]|]; [exfalso; apply Hoff; split; [by eexists|done]|reflexivity|exfalso; apply Hoff; split; [by eexists|done]].
Qed.

(** The fields of a segment can be computed unless the external field is to be added to no field. *)
Lemma prep_ok i f ps : pieces L items !! Z.to_nat i = Some ps -> (0 <= i)%Z -> J i f -> ~ (negE <> None /\ solved = Some false /\ ext_on) ->
  exists f1, prep_fields fl z dE gdim negE Eext solved ext f ps = Ok f1.
Proof using All.
  intros Hps Hi (J1 & J2 & _) Hgood. apply pieces_lookup in Hps.
  assert (Hlen : (length ps <= Z.to_nat L)%nat) by (subst ps; rewrite take_length; lia).
  assert (Hin : forall p, p ∈ ps -> p ∈ items).
  { intros p Hp. subst ps. apply elem_of_list_lookup in Hp as [q Hq]. apply lookup_take_Some in Hq as [Hq _]. rewrite lookup_drop in Hq. by eapply elem_of_list_lookup_2. }
  unfold prep_fields. cbv zeta. destruct (solved_part_ok ps f Hin ltac:(lia)) as (negArr & Eseg & -> & _ & HE).
  destruct (decide (is_Some Eext /\ ext <> Some false)) as [[[[V a] EX] Hext]|Hoff].
  - assert (Hon : ext_on) by (split; [by rewrite EX|exact Hext]).
    assert (Hus : exists us, Forall2 (fun p v => fe_eval fl V dE a (take gdim (px p)) = Ok v) ps us).
    { exists (take (Z.to_nat L) (drop (Z.to_nat i * Z.to_nat L) ws)).
      eapply Forall2_impl; [subst ps; apply Forall2_take, Forall2_drop, (Hws Hon)|]. intros p v (V' & a' & E' & Hv). rewrite EX in E'. injection E' as <- <-. exact Hv. }
    destruct Hus as (us & Hus). rewrite EX.
    rewrite (interpolate_random_ok fl V dE gdim a z ps us (sf_Eext f) (sf_rng f) Hus ltac:(lia) (Hval _ _ EX)).
    destruct Eseg as [E0|]; [|exfalso; apply Hgood; by destruct HE].
    destruct ext as [[]|]; [|done|]; by eexists.
  - destruct Eext as [[V a]|]; [|by eexists]. destruct ext as [[]|]; [|by eexists|]; exfalso; apply Hoff; (split; [by eexists|done]).
Qed.
Lemma preps_ok cs : forall i f, (0 <= i)%Z -> (forall n ps, cs !! n = Some ps -> pieces L items !! (Z.to_nat i + n)%nat = Some ps) -> J i f ->
  ~ (negE <> None /\ solved = Some false /\ ext_on) -> exists f1, preps (prep_fields fl z dE gdim negE Eext solved ext) f cs = Ok f1.
Proof using All.
  induction cs as [|ps cs IH]; intros i f Hi Hcs HJ Hgood; [by eexists|]. cbn [preps].
  pose proof (Hcs 0%nat ps eq_refl) as Hps. rewrite Nat.add_0_r in Hps. destruct (prep_ok i f ps Hps Hi HJ Hgood) as (f1 & E1). rewrite E1.
  destruct (prep_step i f f1 ps Hps Hi HJ E1) as [HJ1 _]. apply (IH (i + 1)%Z f1); [lia| |exact HJ1|exact Hgood].
  intros n qs Hq. specialize (Hcs (S n) qs Hq). by replace (Z.to_nat (i + 1) + n)%nat with (Z.to_nat i + S n)%nat by lia.
Qed.

(** With values of the fields at all particles, the mover with a field per segment is the mover with a field per particle: they
    succeed together with the same result, and each particle has the field of its own position. *)
Lemma same_live s cursor nin nout c f :
  Live L s items cursor nin nout -> items <> [] -> length (sf_negE f) = Z.to_nat L -> length (sf_Eext f) = Z.to_nat L -> sf_rng f = k0 ->
  match mover (py_ops particle) (each_hooks g h) s c with
  | Ok (s', c') => exists f', charged_bmover fl z dE gdim negE Eext solved ext sn step time dt qom maxc m bcs accel_only s c f = Ok (s', c', f') /\
      length (sf_negE f') = Z.to_nat L /\ length (sf_Eext f') = Z.to_nat L /\
      (ext_on -> sf_rng f' = (k0 + drawn fl ws)%nat) /\ (~ ext_on -> sf_rng f' = k0)
  | Raise _ => exists e, charged_bmover fl z dE gdim negE Eext solved ext sn step time dt qom maxc m bcs accel_only s c f = Raise e
  end.
Proof using All.
  intros HLive Hne H1 H2 H3.
  assert (HJ0 : J 0 f). { split; [exact H1|]. split; [exact H2|]. split; [|done]. intros _. rewrite H3, Z.mul_0_l. change (Z.to_nat 0) with 0%nat. rewrite take_0. change (drawn fl []) with 0%nat. lia. }
  pose proof (bmover_same L HL (prep_fields fl z dE gdim negE Eext solved ext)
    (charged_hooks_at fl dE Eext ext sn step time dt qom maxc m bcs accel_only) (each_hooks g h) s items cursor nin nout c f J HLive Hne HJ0) as HB.
  assert (HJs : forall i f f1 ps, pieces L items !! Z.to_nat i = Some ps -> (0 <= i)%Z -> J i f ->
    prep_fields fl z dE gdim negE Eext solved ext f ps = Ok f1 -> J (i + 1) f1 /\
    forall j p, ps !! Z.to_nat j = Some p -> (0 <= j)%Z ->
      same_at (charged_hooks_at fl dE Eext ext sn step time dt qom maxc m bcs accel_only) (each_hooks g h) f1 j (i * L + j)%Z p).
  { intros i f0 f1 ps A1 A2 A3 A4. exact (prep_step i f0 f1 ps A1 A2 A3 A4). }
  specialize (HB HJs). unfold charged_bmover.
  destruct (mover (py_ops particle) (each_hooks g h) s c) as [[s' c']|e] eqn:Em.
  - assert (Hgood : ~ (negE <> None /\ solved = Some false /\ ext_on)).
    { intros (B1 & B2 & B3 & B4). pose proof (mover_py (each_hooks g h) L HL s items cursor nin nout c HLive Hne) as Hm.
      destruct items as [|p its] eqn:Ei; [done|]. cbn [spec_pass] in Hm. unfold spec_step in Hm. cbn [adv each_hooks charged_hooks] in Hm.
      assert (Hsel : select_E fl dE (option_map (fun _ => g) negE) (option_map (fun _ => h 0%Z) Eext) solved ext p = Raise AttributeError).
      { unfold select_E. destruct negE; [|done]. destruct Eext; [|done]. cbn [option_map]. rewrite B2. destruct ext as [[]|]; done. }
      rewrite Hsel in Hm. rewrite Em in Hm. discriminate. }
    destruct (preps_ok (pieces L items) 0 f ltac:(lia) ltac:(intros n ps Hn; exact Hn) HJ0 Hgood) as (f' & Ep). rewrite Ep in HB.
    destruct HB as ((K1 & K2 & K3 & K4) & HB). rewrite HB. exists f'. split; [reflexivity|]. split; [exact K1|]. split; [exact K2|]. split; [|exact K4].
    intros Hon. rewrite (K3 Hon). do 2 f_equal. apply take_ge. rewrite <- (Forall2_length _ _ _ (Hws Hon)).
    unfold pieces. rewrite map_length, seq_length. nia.
  - destruct (preps (prep_fields fl z dE gdim negE Eext solved ext) f (pieces L items)) as [f'|e'].
    + destruct HB as [_ ->]. by exists e.
    + exact HB.
Qed.
End Batch.

(** *** C59: who has a field *)

Section Main.
Context (fl : R -> R) (z : nat -> R) (dE gdim : nat) (negE Eext : option (vspace * list R)) (solved ext : option bool).
Context (sn : string) (step : Z) (time dt qom : R) (maxc : Z) (m : mesh) (bcs : Z -> option (bcfun (K:=option traj))) (accel_only : bool).
Notation bmove := (charged_bmover fl z dE gdim negE Eext solved ext sn step time dt qom maxc m bcs accel_only).

Lemma preps_inv cs : forall f f', preps (prep_fields fl z dE gdim negE Eext solved ext) f cs = Ok f' ->
  forall ps p, ps ∈ cs -> p ∈ ps -> in_fields fl dE gdim negE Eext solved ext p.
Proof.
  induction cs as [|ps0 cs IH]; intros f f' E ps p Hps Hp; [by apply elem_of_nil in Hps|]. cbn [preps] in E.
  destruct (prep_fields _ _ _ _ _ _ _ _ f ps0) as [f1|] eqn:E1; [|discriminate]. apply elem_of_cons in Hps as [->|Hps]; [|by eapply IH].
  unfold prep_fields in E1. cbv zeta in E1. destruct (prep_solved _ _ _ _ _ f ps0) as [[nA Es]|] eqn:E2; [|discriminate].
  apply elem_of_list_lookup in Hp as [j Hj]. split.
  - intros [Hn Hs]. unfold prep_solved in E2. destruct negE as [[V a]|] eqn:En; [|done].
    assert (Hi : exists o, interpolate fl V dE gdim a ps0 (sf_negE f) = Ok o).
    { destruct solved as [[]|]; [|done|]; (destruct (interpolate fl V dE gdim a ps0 (sf_negE f)) as [o|]; [by exists o|discriminate]). }
    destruct Hi as (o & Hi). apply interpolate_from_inv in Hi as (vs & Hvs). destruct (Forall2_lookup_l _ _ _ _ _ Hvs Hj) as (v & _ & Hv).
    exists v, V, a. by split.
  - intros [Hn Hs]. destruct Eext as [[V a]|] eqn:En; [|done].
    assert (Hi : exists o, interpolate_random fl V z dE gdim a ps0 (sf_Eext f) (sf_rng f) = Ok o).
    { destruct ext as [[]|]; [|done|]; (destruct (interpolate_random fl V z dE gdim a ps0 (sf_Eext f) (sf_rng f)) as [o|]; [by exists o|discriminate]). }
    destruct Hi as (o & Hi). apply interpolate_random_from_inv in Hi as (vs & Hvs). destruct (Forall2_lookup_l _ _ _ _ _ Hvs Hj) as (v & _ & Hv).
    exists v, V, a. by split.
Qed.

Lemma pieces_cover (L : Z) (HL : (1 <= L)%Z) (items : list particle) p : p ∈ items -> exists ps, ps ∈ pieces L items /\ p ∈ ps.
Proof.
  intros Hp. apply elem_of_list_lookup in Hp as [i Hi]. pose proof (lookup_lt_Some _ _ _ Hi) as Hlt.
  set (q := (i / Z.to_nat L)%nat).
  assert (Hq : (Z.of_nat q <= (Z.of_nat (length items) - 1) / L)%Z).
  { apply Z.div_le_lower_bound; [lia|]. unfold q. pose proof (Nat.div_mod_eq i (Z.to_nat L)). nia. }
  exists (take (Z.to_nat L) (drop (q * Z.to_nat L) items)). split.
  - unfold pieces. apply elem_of_list_In. apply in_map_iff. exists q. split; [reflexivity|]. apply in_seq. lia.
  - apply elem_of_list_lookup. exists (i - q * Z.to_nat L)%nat. pose proof (Nat.div_mod_eq i (Z.to_nat L)) as Hd. pose proof (Nat.mod_upper_bound i (Z.to_nat L) ltac:(lia)) as Hm.
    fold q in Hd. rewrite lookup_take by nia. rewrite lookup_drop. replace (q * Z.to_nat L + (i - q * Z.to_nat L))%nat with i by nia. exact Hi.
Qed.

(** A pass succeeds only if every particle has a position at which the fields that are applied have values. *)
Lemma located_live L s items cursor nin nout c f r : (1 <= L)%Z -> Live L s items cursor nin nout -> items <> [] -> bmove s c f = Ok r ->
  forall p, p ∈ items -> in_fields fl dE gdim negE Eext solved ext p.
Proof.
  intros HL HLive Hne E p Hp. destruct r as [[s' c'] f']. unfold charged_bmover in E.
  pose proof (bmover_preps L HL _ _ s items cursor nin nout c f s' c' f' HLive Hne E) as Ep.
  destruct (pieces_cover L HL items p Hp) as (ps & H1 & H2). exact (preps_inv _ _ _ Ep ps p H1 H2).
Qed.

(** The value of a field at a particle, and the multiple of it that the mover adds. *)
Definition value (G : option (vspace * list R)) (p : particle) : vec :=
  match G with Some (V, a) => match fe_eval fl V dE a (take gdim (px p)) with Ok v => v | Raise _ => [] end | None => [] end.
Definition random_value (k : nat) (items : list particle) (i : nat) : vec :=
  let w := match items !! i with Some p => value Eext p | None => [] end in
  if Reqb (norm fl w) 0 then w else map (fun x => fl (x * fl (1 * z (k + drawn fl (map (value Eext) (take i items)))%nat))) w.

Lemma value_field G p : (exists v, has_field fl dE gdim G p v) -> has_field fl dE gdim G p (value G p).
Proof. intros (v & V & a & -> & Hv). exists V, a. split; [reflexivity|]. cbn. by rewrite Hv. Qed.
Lemma value_unique G p v : has_field fl dE gdim G p v -> v = value G p.
Proof. intros (V & a & -> & Hv). cbn. by rewrite Hv. Qed.
Lemma value_random k items h : (forall i p, items !! i = Some p -> h (Z.of_nat i) p = random_value k items i) ->
  random_field fl z k items (map (value Eext) items) h.
Proof.
  intros Hh i p w Hp Hw. rewrite (Hh i p Hp). unfold random_value. rewrite Hp.
  change (map (value Eext) items) with (value Eext <$> items) in Hw. rewrite list_lookup_fmap, Hp in Hw. injection Hw as <-.
  by rewrite <- firstn_map.
Qed.

(** What a pass over the particles does, when each of them has fields: it is the pass with, for each particle, the negative field
    at its position with the sign changed plus a random multiple of the external field at its position.  The random multiples are
    independent of how the particles are divided over the segments: they are taken in the order of the particles. *)
Lemma fields_live L s items cursor nin nout c f : (1 <= L)%Z -> Live L s items cursor nin nout -> items <> [] ->
  length (sf_negE f) = Z.to_nat L -> length (sf_Eext f) = Z.to_nat L -> (forall V a, Eext = Some (V, a) -> a <> []) ->
  forall s' c', (exists f', bmove s c f = Ok (s', c', f')) <->
    (forall p, p ∈ items -> in_fields fl dE gdim negE Eext solved ext p) /\
    mover (py_ops particle) (each_hooks fl dE negE Eext solved ext sn step time dt qom maxc m bcs accel_only (value negE)
      (fun i _ => random_value (sf_rng f) items (Z.to_nat i))) s c = Ok (s', c').
Proof.
  intros HL HLive Hne H1 H2 Hval s' c'.
  set (h := fun (i : Z) (_ : particle) => random_value (sf_rng f) items (Z.to_nat i)).
  assert (Hall : (forall p, p ∈ items -> in_fields fl dE gdim negE Eext solved ext p) ->
    (solved_on negE solved -> forall p, p ∈ items -> has_field fl dE gdim negE p (value negE p)) /\
    (ext_on Eext ext -> Forall2 (has_field fl dE gdim Eext) items (map (value Eext) items)) /\
    (ext_on Eext ext -> random_field fl z (sf_rng f) items (map (value Eext) items) h)).
  { intros Hin. split; [|split].
    - intros Hon p Hp. apply value_field. by apply Hin.
    - intros Hon. change (map (value Eext) items) with (value Eext <$> items). apply Forall2_fmap_r, Forall_Forall2_diag, list.Forall_forall.
      intros p Hp. apply value_field. by apply Hin.
    - intros _. apply value_random. intros i p Hp. unfold h. by rewrite Nat2Z.id. }
  split.
  - intros (f' & E). assert (Hin : forall p, p ∈ items -> in_fields fl dE gdim negE Eext solved ext p) by (eapply located_live; eauto).
    split; [exact Hin|]. destruct (Hall Hin) as (G1 & G2 & G3).
    pose proof (same_live fl z dE gdim negE Eext solved ext sn step time dt qom maxc m bcs accel_only L HL items (value negE) (map (value Eext) items) h
      (sf_rng f) G1 G2 G3 Hval s cursor nin nout c f HLive Hne H1 H2 eq_refl) as HS.
    destruct (mover _ _ s c) as [[s1 c1]|e].
    + destruct HS as (f1 & E1 & _). rewrite E1 in E. injection E as -> -> _. reflexivity.
    + destruct HS as (e' & E1). rewrite E1 in E. discriminate.
  - intros [Hin Em]. destruct (Hall Hin) as (G1 & G2 & G3).
    pose proof (same_live fl z dE gdim negE Eext solved ext sn step time dt qom maxc m bcs accel_only L HL items (value negE) (map (value Eext) items) h
      (sf_rng f) G1 G2 G3 Hval s cursor nin nout c f HLive Hne H1 H2 eq_refl) as HS.
    fold h in Em. rewrite Em in HS. destruct HS as (f1 & E1 & _). by exists f1.
Qed.

(** When the particles' IDs are distinct, as particles of a run have (C28), a pass that succeeds is one of those that the theorems
    about whole runs are about, with fields that are functions of the particle alone. *)
Lemma distinct_live L s items cursor nin nout c f s' c' f' : (1 <= L)%Z -> Live L s items cursor nin nout -> items <> [] ->
  length (sf_negE f) = Z.to_nat L -> length (sf_Eext f) = Z.to_nat L -> (forall V a, Eext = Some (V, a) -> a <> []) ->
  NoDup (map puid items) -> bmove s c f = Ok (s', c', f') ->
  exists X : particle -> vec, (forall i p, items !! i = Some p -> X p = random_value (sf_rng f) items i) /\
    mover (py_ops particle) (charged_hooks fl sn step time dt qom maxc m bcs dE (option_map (fun _ => value negE) negE)
      (option_map (fun _ => X) Eext) solved ext accel_only) s c = Ok (s', c').
Proof.
  intros HL HLive Hne H1 H2 Hval Hnd E.
  assert (Hin : forall p, p ∈ items -> in_fields fl dE gdim negE Eext solved ext p) by (eapply located_live; eauto).
  set (X := fun p : particle => match list_find (fun q => puid q = puid p) items with Some (i, _) => random_value (sf_rng f) items i | None => [] end).
  assert (HX : forall i p, items !! i = Some p -> X p = random_value (sf_rng f) items i).
  { intros i p Hp. unfold X. destruct (list_find _ items) as [[j q]|] eqn:Ef.
    - apply list_find_Some in Ef as (Hq & Hid & _). f_equal. eapply (NoDup_lookup (map puid items)); [exact Hnd| |].
      + change (map puid items) with (puid <$> items). rewrite list_lookup_fmap, Hq. reflexivity.
      + change (map puid items) with (puid <$> items). rewrite list_lookup_fmap, Hp. cbn. by rewrite Hid.
    - exfalso. apply list_find_None in Ef. rewrite list.Forall_forall in Ef. apply (Ef p); [by eapply elem_of_list_lookup_2|reflexivity]. }
  exists X. split; [exact HX|].
  pose proof (same_live fl z dE gdim negE Eext solved ext sn step time dt qom maxc m bcs accel_only L HL items (value negE) (map (value Eext) items) (fun _ => X)
    (sf_rng f)) as HS.
  specialize (HS ltac:(intros Hon p Hp; apply value_field; by apply Hin)).
  specialize (HS ltac:(intros Hon; change (map (value Eext) items) with (value Eext <$> items); apply Forall2_fmap_r, Forall_Forall2_diag, list.Forall_forall;
    intros p Hp; apply value_field; by apply Hin)).
  specialize (HS ltac:(intros _; apply value_random; exact HX) Hval s cursor nin nout c f HLive Hne H1 H2 eq_refl).
  change (each_hooks fl dE negE Eext solved ext sn step time dt qom maxc m bcs accel_only (value negE) (fun _ => X))
    with (charged_hooks fl sn step time dt qom maxc m bcs dE (option_map (fun _ => value negE) negE) (option_map (fun _ => X) Eext) solved ext accel_only) in HS.
  destruct (mover _ _ s c) as [[s1 c1]|e].
  - destruct HS as (f1 & E1 & _). rewrite E1 in E. injection E as -> -> _. reflexivity.
  - destruct HS as (e' & E1). rewrite E1 in E. discriminate.
Qed.

(** The state of the arrays of the field at a particle's call. *)
Definition arrays_of (L : Z) (f : segfields) : Prop := length (sf_negE f) = Z.to_nat L /\ length (sf_Eext f) = Z.to_nat L.

Lemma draws_live L s items cursor nin nout c f s' c' f' : (1 <= L)%Z -> Live L s items cursor nin nout -> items <> [] ->
  length (sf_negE f) = Z.to_nat L -> length (sf_Eext f) = Z.to_nat L -> (forall V a, Eext = Some (V, a) -> a <> []) ->
  bmove s c f = Ok (s', c', f') -> arrays_of L f' /\
    (ext_on Eext ext -> sf_rng f' = (sf_rng f + drawn fl (map (value Eext) items))%nat) /\ (~ ext_on Eext ext -> sf_rng f' = sf_rng f).
Proof.
  intros HL HLive Hne H1 H2 Hval E.
  assert (Hin : forall p, p ∈ items -> in_fields fl dE gdim negE Eext solved ext p) by (eapply located_live; eauto).
  set (h := fun (i : Z) (_ : particle) => random_value (sf_rng f) items (Z.to_nat i)).
  pose proof (same_live fl z dE gdim negE Eext solved ext sn step time dt qom maxc m bcs accel_only L HL items (value negE) (map (value Eext) items) h (sf_rng f)) as HS.
  specialize (HS ltac:(intros Hon p Hp; apply value_field; by apply Hin)).
  specialize (HS ltac:(intros Hon; change (map (value Eext) items) with (value Eext <$> items); apply Forall2_fmap_r, Forall_Forall2_diag, list.Forall_forall;
    intros p Hp; apply value_field; by apply Hin)).
  specialize (HS ltac:(intros _; apply value_random; intros i p Hp; unfold h; by rewrite Nat2Z.id) Hval s cursor nin nout c f HLive Hne H1 H2 eq_refl).
  destruct (mover _ _ s c) as [[s1 c1]|e].
  - destruct HS as (f1 & E1 & A1 & A2 & A3 & A4). rewrite E1 in E. injection E as _ _ <-. by repeat split.
  - destruct HS as (e' & E1). rewrite E1 in E. discriminate.
Qed.

(** ** The theorems *)

Notation gmove := (charged_guarded_bmover fl z dE gdim negE Eext solved ext sn step time dt qom maxc m bcs accel_only).

Lemma gmove_cases L (s : sap particle) xs : (1 <= L)%Z -> Reachable L s -> Stores s xs -> xs = [] /\ (get_number_of_items s =? 0)%Z = true \/
  xs <> [] /\ (get_number_of_items s =? 0)%Z = false /\ exists cursor nin nout, Live L s xs cursor nin nout.
Proof.
  intros HL HR Hs. destruct (reach_rel L HL s HR) as [a Ha]. pose proof (rel_stores_eq L HL s a xs Ha Hs) as <-. pose proof (rel_count L HL s a Ha) as Hc.
  rewrite Hc. destruct (a_items a) as [|p xs] eqn:Ei; [left; by split|]. right. split; [done|]. split; [cbn [length]; lia|].
  destruct Ha as [_ Ha]. destruct (a_dead a); [destruct Ha as [Hx _]; congruence|]. rewrite Ei in Ha. eauto.
Qed.

(** A pass succeeds only if every particle has a position at which the fields that are applied have values. *)
Theorem C59_located L s xs c f r : (1 <= L)%Z -> Reachable L s -> Stores s xs -> gmove s c f = Ok r ->
  forall p, p ∈ xs -> in_fields fl dE gdim negE Eext solved ext p.
Proof.
  intros HL HR Hs E p Hp. unfold charged_guarded_bmover in E.
  destruct (gmove_cases L s xs HL HR Hs) as [[-> _]|(Hne & Hn & cu & ni & no & HLive)]; [by apply elem_of_nil in Hp|]. rewrite Hn in E.
  eapply located_live; eauto.
Qed.

(** A pass is the pass over the particles one by one that gives each of them the negative field at its position with the sign
    changed plus a random multiple of the external field at its position.  The random multiples are independent of how the
    particles are divided over the segments: they are taken in the order of the particles. *)
Theorem C59_fields L s xs c f : (1 <= L)%Z -> Reachable L s -> Stores s xs -> arrays_of L f -> (forall V a, Eext = Some (V, a) -> a <> []) ->
  forall s' c', (exists f', gmove s c f = Ok (s', c', f')) <->
    (forall p, p ∈ xs -> in_fields fl dE gdim negE Eext solved ext p) /\
    guarded_mover (py_ops particle) (each_hooks fl dE negE Eext solved ext sn step time dt qom maxc m bcs accel_only (value negE)
      (fun i _ => random_value (sf_rng f) xs (Z.to_nat i))) s c = Ok (s', c').
Proof.
  intros HL HR Hs [H1 H2] Hval s' c'. unfold charged_guarded_bmover, guarded_mover.
  destruct (gmove_cases L s xs HL HR Hs) as [[-> ->]|(Hne & -> & cu & ni & no & HLive)].
  - split.
    + intros (f' & [= -> -> _]). split; [|reflexivity]. intros p Hp. by apply elem_of_nil in Hp.
    + intros [_ [= -> ->]]. by exists f.
  - by eapply fields_live.
Qed.

(** Afterwards the arrays are as long as before and the generator has given as many numbers as there are particles with an external
    field other than zero. *)
Theorem C59_draws L s xs c f s' c' f' : (1 <= L)%Z -> Reachable L s -> Stores s xs -> arrays_of L f -> (forall V a, Eext = Some (V, a) -> a <> []) ->
  gmove s c f = Ok (s', c', f') -> arrays_of L f' /\
    (ext_on Eext ext -> sf_rng f' = (sf_rng f + drawn fl (map (value Eext) xs))%nat) /\ (~ ext_on Eext ext -> sf_rng f' = sf_rng f).
Proof.
  intros HL HR Hs [H1 H2] Hval E. unfold charged_guarded_bmover in E.
  destruct (gmove_cases L s xs HL HR Hs) as [[-> Hn]|(Hne & Hn & cu & ni & no & HLive)]; rewrite Hn in E.
  - injection E as _ _ <-. split; [by split|]. split; [|done]. intros _. change (drawn fl (map (value Eext) [])) with 0%nat. lia.
  - by eapply draws_live.
Qed.

(** When the particles' IDs are distinct, as those of the particles of a run are (C28), a pass that succeeds is one of those that
    the theorems about whole runs are about, with fields that are functions of the particle alone. *)
Theorem C59_distinct L s xs c f s' c' f' : (1 <= L)%Z -> Reachable L s -> Stores s xs -> arrays_of L f -> (forall V a, Eext = Some (V, a) -> a <> []) ->
  NoDup (map puid xs) -> gmove s c f = Ok (s', c', f') ->
  exists X : particle -> vec, (forall i p, xs !! i = Some p -> X p = random_value (sf_rng f) xs i) /\
    guarded_mover (py_ops particle) (charged_hooks fl sn step time dt qom maxc m bcs dE (option_map (fun _ => value negE) negE)
      (option_map (fun _ => X) Eext) solved ext accel_only) s c = Ok (s', c').
Proof.
  intros HL HR Hs [H1 H2] Hval Hnd E. unfold charged_guarded_bmover in E. unfold guarded_mover.
  destruct (gmove_cases L s xs HL HR Hs) as [[-> Hn]|(Hne & Hn & cu & ni & no & HLive)]; rewrite Hn in E; rewrite Hn.
  - injection E as -> -> _. exists (fun _ => []). split; [intros i p Hp; done|reflexivity].
  - by eapply distinct_live.
Qed.
End Main.

(** *** A concrete case *)

(** A mesh with one cell that contains every point, and on it the fields a + (b - a) x. *)
Definition one_cell : mesh := Mesh 1 (fun _ => Some (CellRec [] [] [] [])) (fun _ _ => true) (fun _ => 0%Z).
Definition line1 : vspace := VSpace (fun _ => [0%nat; 1%nat]) (fun x => match x with [] => None | _ => Some 0%Z end) (fun _ x => [[1 - hd 0 x]; [hd 0 x]]).
Definition bp (x u : R) (id : Z) : particle := Particle [x] [x] [u] 1 0 0 id 0.
Definition bp3 : list particle := [bp 1 0 1; bp 2 0 2; bp 3 0 3].
Definition bf : segfields := SegFields [[7]; [8]] [[0]; [0]] 4 None None.

(** Three particles in segments of two: the third has the field at its own position, although the array has another row for it. *)
Example C59_example : exists s s' c' f', push_all (sap_init 2) bp3 = Ok (s, [(0, 0); (1, 1); (0, 2)])%Z /\
  charged_guarded_bmover exact (fun n => INR n) 1 1 (Some (line1, [0; 5])) None None None "e" 0 0 1 1 100 one_cell (fun _ => None) true s (TCtx [0] None) bf
    = Ok (s', c', f') /\
  exists ys, Stores s' ys /\ map puid ys = [1; 2; 3]%Z /\ map pu ys = [[-5]; [-10]; [-15]] /\ map px ys = [[1]; [2]; [3]].
Proof.
  destruct (C01_push_keeps_place 2 bp3) as (s & Ep & Hs); [lia|].
  assert (HR : Reachable 2 s) by exact (push_all_reach 2 bp3 _ _ _ (r_new 2) Ep).
  set (v x := 0 + 0 * (1 - x) + 5 * x).
  set (hk := each_hooks exact 1 (Some (line1, [0; 5])) None None None "e" 0 0 1 1 100 one_cell (fun _ => None) true (value exact 1 1 (Some (line1, [0; 5])))
    (fun i _ => random_value exact INR 1 1 None 4 bp3 (Z.to_nat i))).
  assert (Hadv : forall c i x id, adv hk c i (bp x 0 id) = Ok (Particle [x] [x] [0 + 1 * 1 * (v x * -1)] 1 0 0 id 0, c)) by reflexivity.
  pose proof (C04_pass_is_sequential 2 s bp3 hk (TCtx [0] None) ltac:(lia) HR Hs) as H.
  assert (Hsp : seq_pass hk 0 [] false (TCtx [0] None) bp3 = Ok ([Particle [1] [1] [0 + 1 * 1 * (v 1 * -1)] 1 0 0 1 0;
    Particle [2] [2] [0 + 1 * 1 * (v 2 * -1)] 1 0 0 2 0; Particle [3] [3] [0 + 1 * 1 * (v 3 * -1)] 1 0 0 3 0], TCtx [0] None)).
  { unfold bp3. do 3 (erewrite seq_keep; [|apply Hadv|reflexivity|reflexivity]). reflexivity. }
  rewrite Hsp in H. destruct H as (s' & E & Hst & _).
  destruct (proj2 (C59_fields exact INR 1 1 (Some (line1, [0; 5])) None None None "e" 0 0 1 1 100 one_cell (fun _ => None) true 2 s bp3 (TCtx [0] None) bf
    ltac:(lia) HR Hs ltac:(by split) ltac:(done) s' (TCtx [0] None))) as (f' & Ef).
  { split; [|exact E]. intros p Hp. split; [|intros [Hx _]; exfalso; apply Hx; reflexivity]. intros _. unfold bp3 in Hp. rewrite !elem_of_cons, elem_of_nil in Hp.
    exists (value exact 1 1 (Some (line1, [0; 5])) p). apply value_field. destruct Hp as [->|[->|[->|[]]]]; eexists _, _, _; (split; reflexivity). }
  exists s, s', (TCtx [0] None), f'. split; [exact Ep|]. split; [exact Ef|]. eexists. split; [exact Hst|]. split; [reflexivity|].
  split; [|reflexivity]. cbn [map pu]. unfold v. repeat f_equal; lra.
Qed.
(** With the third particle nowhere in the mesh of the field, the pass fails. *)
Example C59_example_outside c f s rs r : push_all (sap_init 2) [bp 1 0 1; bp 2 0 2; Particle [] [] [0] 1 0 0 3 0] = Ok (s, rs) ->
  charged_guarded_bmover exact INR 1 1 (Some (line1, [0; 5])) None None None "e" 0 0 1 1 100 one_cell (fun _ => None) true s c f <> Ok r.
Proof.
  intros Ep E. set (xs := [bp 1 0 1; bp 2 0 2; Particle [] [] [0] 1 0 0 3 0]) in *.
  destruct (C01_push_keeps_place 2 xs) as (s1 & Ep1 & Hs); [lia|]. rewrite Ep1 in Ep. injection Ep as <- _.
  assert (HR : Reachable 2 s1) by exact (push_all_reach 2 xs _ _ _ (r_new 2) Ep1).
  destruct (C59_located _ _ _ _ _ _ _ _ _ _ _ _ _ _ _ _ _ 2 s1 xs c f r ltac:(lia) HR Hs E (Particle [] [] [0] 1 0 0 3 0)) as [H _].
  { unfold xs. right. right. left. }
  destruct (H ltac:(by split)) as (v & V & a & [= <- <-] & Hv). discriminate.
Qed.

Print Assumptions C59_located.
Print Assumptions C59_fields.
Print Assumptions C59_draws.
Print Assumptions C59_distinct.
