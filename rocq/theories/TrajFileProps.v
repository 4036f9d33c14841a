(** C54: the trajectory files. *)
From stdpp Require Import strings pretty relations.
From Verif Require Import Vec VecProofs TrackModel TrajModel TrajProofs TrajProps TrajRecProps DiagModel RunModel TrajFileModel.
From Coq Require Import Ascii ZifyBool ZifyNat.

(** ** The names of the files *)

(** The character does not occur in the string. *)
Fixpoint lacks (c : ascii) (s : string) : Prop :=
  match s with EmptyString => True | String x r => x <> c /\ lacks c r end.
Lemma lacks_app c s t : lacks c (s +:+ t) <-> lacks c s /\ lacks c t.
Proof. induction s as [|x s IH]; [cbn; tauto|]. change (String x s +:+ t) with (String x (s +:+ t)). cbn [lacks]. rewrite IH. tauto. Qed.
Lemma split_last c : forall a a' b b', lacks c b -> lacks c b' -> a +:+ String c b = a' +:+ String c b' -> a = a' /\ b = b'.
Proof.
  induction a as [|x a IH]; intros [|x' a'] b b' Hb Hb' H.
  - change (String c b = String c b') in H. by injection H as ->.
  - change (String c b = String x' (a' +:+ String c b')) in H. injection H as <- ->. apply lacks_app in Hb as [_ Hb]. by destruct Hb as [Hb _].
  - change (String x (a +:+ String c b) = String c b') in H. injection H as -> <-. apply lacks_app in Hb' as [_ Hb']. by destruct Hb' as [Hb' _].
  - change (String x (a +:+ String c b) = String x' (a' +:+ String c b')) in H. injection H as -> H. destruct (IH a' b b' Hb Hb' H) as [-> ->]. done.
Qed.
Lemma digits_lack_u x s : lacks "u"%char s -> lacks "u"%char (pretty_N_go x s).
Proof.
  revert s. induction (N.lt_wf_0 x) as [x _ IH]; intros s Hs. assert (x = 0 \/ 0 < x)%N as [->|Hx] by lia; [by rewrite pretty_N_go_0|].
  rewrite pretty_N_go_step by done. apply IH; [apply N.div_lt; lia|]. cbn. split; [|exact Hs].
  unfold pretty_N_char. by repeat case_match.
Qed.
Lemma number_lacks_u (z : Z) : lacks "u"%char (pretty z).
Proof.
  unfold pretty, pretty_Z. destruct z as [|p|p]; [cbn; by split| |]; unfold pretty, pretty_N.
  - by apply digits_lack_u.
  - cbn. split; [done|]. by apply digits_lack_u.
Qed.
Lemma string_app_assoc (a b c : string) : (a +:+ b) +:+ c = a +:+ (b +:+ c).
Proof. induction a as [|x a IH]; [done|]. exact (f_equal (String x) IH). Qed.
Lemma tail_inj c : forall a b : string, a +:+ c = b +:+ c -> a = b.
Proof.
  intros a b H. assert (Hl : String.length a = String.length b).
  { apply (f_equal String.length) in H. assert (forall s : string, String.length (s +:+ c) = (String.length s + String.length c)%nat) as Hlen.
    { induction s as [|x s IH]; [done|]. exact (f_equal S IH). } rewrite !Hlen in H. lia. }
  revert b H Hl. induction a as [|x a IH]; intros [|y b] H Hl; [done|discriminate Hl..|].
  change (String x (a +:+ c) = String y (b +:+ c)) in H. cbn in Hl. injection H as -> H. f_equal. apply IH; [exact H|lia].
Qed.

(** Different particles, different files: the name tells the species and the ID. *)
Theorem C54_names sn sn' uid uid' : traj_file_name sn uid = traj_file_name sn' uid' -> sn = sn' /\ uid = uid'.
Proof.
  unfold traj_file_name. intros H. injection H as H.
  assert (Hshape : forall (s : string) (z : Z), s +:+ "-uid" +:+ pretty z +:+ ".h5part" = (s +:+ "-") +:+ String "u"%char ("id" +:+ pretty z +:+ ".h5part")).
  { intros s z. by rewrite string_app_assoc. }
  change (sn +:+ "-uid" +:+ pretty uid +:+ ".h5part" = sn' +:+ "-uid" +:+ pretty uid' +:+ ".h5part") in H. rewrite !Hshape in H.
  assert (Hl : forall z : Z, lacks "u"%char ("id" +:+ pretty z +:+ ".h5part")).
  { intros z. apply lacks_app. split; [cbn; repeat split; discriminate|]. apply lacks_app. split; [apply number_lacks_u|]. cbn. repeat split; discriminate. }
  apply split_last in H as [H1 H2]; [|apply Hl..]. split; [by eapply tail_inj|].
  injection H2 as H2. apply tail_inj in H2. by apply (inj pretty) in H2.
Qed.

(** ** What a file contains *)
(** Example: species whose names look like parts of file names. *)
Example C54_names_example : traj_file_name "e-uid1" 2 = "traj-e-uid1-uid2.h5part" /\ traj_file_name "e-uid1" 2 <> traj_file_name "e" 12.
Proof. split; [reflexivity|]. intros H. apply C54_names in H as [H _]. discriminate H. Qed.


Section Contents.
Context (tc : tconf).

(** The quantity with the name [c] at a recorded point: number and time of the step, the position, an attribute of the particle, and for
    charged species the components of the two fields. *)
Inductive Quantity (charged : bool) (d : datum) : string -> val -> Prop :=
| q_step : Quantity charged d "step" (VI (d_step d))
| q_time : Quantity charged d "t" (VF (d_time d))
| q_position i c x : tc_coords tc !! i = Some c -> d_x d !! i = Some x -> Quantity charged d c (VF x)
| q_attribute c col : tc_column tc c = Some col -> c ∉ tc_coords tc -> Quantity charged d c (col (d_p d))
| q_E i c x : charged = true -> tc_Enames tc !! i = Some c -> d_E d !! i = Some x -> Quantity charged d c (VF x)
| q_Eext i c x : charged = true -> tc_Extnames tc !! i = Some c -> d_Eext d !! i = Some x -> Quantity charged d c (VF x).

(** No name stands for two quantities, and the position coordinates are attributes of particles. *)
Record Names : Prop := {
  na_coords : NoDup (tc_coords tc);
  na_E : NoDup ("step" :: "t" :: tc_Enames tc ++ tc_Extnames tc);
  na_coords_columns : forall c, c ∈ tc_coords tc -> is_Some (tc_column tc c);
  na_columns : forall c, is_Some (tc_column tc c) -> c ∉ "step" :: "t" :: tc_Enames tc ++ tc_Extnames tc
}.

Lemma position_lookup names i c : NoDup names -> names !! i = Some c -> position c names = Some i.
Proof using.
  intros Hnd. revert i. induction Hnd as [|y r Hni Hnd IH]; intros [|i] H; [discriminate..| |].
  - injection H as ->. cbn. by rewrite String.eqb_refl.
  - cbn. destruct (String.eqb_spec c y) as [->|Hne]; [destruct Hni; by apply elem_of_list_lookup_2 with i|]. by rewrite (IH i H).
Qed.
Lemma position_none names c : c ∉ names -> position c names = None.
Proof using.
  induction names as [|y r IH]; intros H; [done|]. apply not_elem_of_cons in H as [H1 H2]. cbn.
  destruct (String.eqb_spec c y); [done|]. by rewrite (IH H2).
Qed.
Lemma component_quantity charged d c v : Names -> Quantity charged d c v -> component tc charged c d = Some v.
Proof using.
  intros [N1 N2 N3 N4] Hq. unfold component.
  apply list.NoDup_cons in N2 as [M1 M2]. apply list.NoDup_cons in M2 as [M2 M3].
  assert (Hsep : forall c, c ∈ tc_Enames tc ++ tc_Extnames tc -> c <> "step" /\ c <> "t" /\ tc_column tc c = None).
  { intros a Ha. split; [intros ->; apply M1; by right|]. split; [by intros ->|]. destruct (tc_column tc a) eqn:E; [|done].
    destruct (N4 a (ex_intro _ _ E)). right. by right. }
  assert (Hcol : forall c, is_Some (tc_column tc c) -> c <> "step" /\ c <> "t").
  { intros a Ha. apply N4 in Ha. apply not_elem_of_cons in Ha as [H1 Ha]. apply not_elem_of_cons in Ha as [H2 _]. done. }
  destruct Hq as [| |i c x H1 H2|c col H1 H2|i c x Hc H1 H2|i c x Hc H1 H2]; [done|done|..].
  - destruct (N3 c (elem_of_list_lookup_2 _ _ _ H1)) as [col Hc]. destruct (Hcol c (ex_intro _ _ Hc)) as [A1 A2].
    rewrite (proj2 (String.eqb_neq _ _) A1), (proj2 (String.eqb_neq _ _) A2), Hc, (position_lookup _ _ _ N1 H1), H2. done.
  - destruct (Hcol c (ex_intro _ _ H1)) as [A1 A2].
    rewrite (proj2 (String.eqb_neq _ _) A1), (proj2 (String.eqb_neq _ _) A2), H1, (position_none _ _ H2). done.
  - destruct (Hsep c) as (A1 & A2 & A3); [apply elem_of_app; left; by eapply elem_of_list_lookup_2|].
    rewrite (proj2 (String.eqb_neq _ _) A1), (proj2 (String.eqb_neq _ _) A2), A3, Hc.
    apply NoDup_app in M3 as (M4 & _ & _). by rewrite (position_lookup _ _ _ M4 H1), H2.
  - destruct (Hsep c) as (A1 & A2 & A3); [apply elem_of_app; right; by eapply elem_of_list_lookup_2|].
    rewrite (proj2 (String.eqb_neq _ _) A1), (proj2 (String.eqb_neq _ _) A2), A3, Hc.
    apply NoDup_app in M3 as (_ & M4 & M5). rewrite (position_none (tc_Enames tc) c), (position_lookup _ _ _ M5 H1), H2; [done|].
    intros H. apply (M4 c H). by eapply elem_of_list_lookup_2.
Qed.

Lemma existsb_fst (c : string) (l : list (string * val)) : c ∉ map fst l -> existsb (fun cv => String.eqb c (fst cv)) l = false.
Proof using.
  induction l as [|[a v] l IH]; intros H; [done|]. cbn in *. apply not_elem_of_cons in H as [H1 H2].
  rewrite (proj2 (String.eqb_neq _ _) H1). by apply IH.
Qed.
Lemma write_sets_ok charged o : forall dict done, NoDup (map fst done ++ map fst dict) ->
  write_sets tc charged dict o done = Ok (done ++ map (fun cf => (fst cf, recorded tc charged (fst cf) (snd cf) o)) dict).
Proof using.
  induction dict as [|[c f] dict IH]; intros done Hnd; cbn [write_sets map fst snd]; [by rewrite app_nil_r|].
  cbn [map fst] in Hnd. rewrite existsb_fst.
  - rewrite IH; [by rewrite <- app_assoc|]. rewrite map_app, <- app_assoc. exact Hnd.
  - apply NoDup_app in Hnd as (_ & H & _). intros Hin. apply (H c Hin). left.
Qed.

(** The data sets of the group for the point [o]. *)
Definition group_of charged (dict : tdict) (f : format) (i : nat) (o : option datum) : tgroup :=
  TGroup ("Step#" +:+ pretty i) (recorded tc charged "t" f o) (map (fun cf => (fst cf, recorded tc charged (fst cf) (snd cf) o)) dict).
Lemma find_time (dict : tdict) f : NoDup (map fst dict) -> ("t", f) ∈ dict -> exists i, list_find (fun cf => fst cf = "t") dict = Some (i, ("t", f)).
Proof using.
  intros Hnd Hin. apply elem_of_list_lookup in Hin as [i Hi]. exists i. apply list_find_Some. split; [exact Hi|]. split; [done|].
  intros j [a g] Hj Hlt Ha. cbn in Ha. subst a.
  assert (i = j); [|lia]. eapply (proj1 (NoDup_alt _) Hnd i j "t"); rewrite list_lookup_fmap; [by rewrite Hi|by rewrite Hj].
Qed.
Lemma write_groups_ok charged dict f es : NoDup (map fst dict) -> ("t", f) ∈ dict -> forall k n gs, (k + n <= length es)%nat ->
  (forall g, g ∈ gs -> exists i, (i < k)%nat /\ tg_name g = "Step#" +:+ pretty i) ->
  write_groups tc charged dict es (seq k n) gs = Ok (gs ++ map (fun i => group_of charged dict f i (default None (es !! i))) (seq k n)).
Proof using.
  intros Hnd Ht k n. revert k. induction n as [|n IH]; intros k gs Hlen Hgs; cbn [seq write_groups map]; [by rewrite app_nil_r|].
  unfold write_group. assert (existsb (fun g => String.eqb ("Step#" +:+ pretty k) (tg_name g)) gs = false) as ->.
  { apply not_true_is_false. intros H. apply existsb_exists in H as (g & Hg & He). apply elem_of_list_In in Hg.
    destruct (Hgs g Hg) as (i & Hi & Hn). apply String.eqb_eq in He. rewrite Hn in He. injection He as He. apply (inj pretty) in He. lia. }
  destruct (find_time dict f Hnd Ht) as (i & ->). destruct (lookup_lt_is_Some_2 es k ltac:(lia)) as [o Ho]. rewrite Ho.
  rewrite write_sets_ok by exact Hnd. rewrite IH; [|lia|].
  - by rewrite <- app_assoc.
  - intros g Hg. apply elem_of_app in Hg as [Hg|Hg%elem_of_list_singleton].
    + destruct (Hgs g Hg) as (j & Hj & Hn). exists j. split; [lia|exact Hn].
    + exists k. split; [lia|]. by subst g.
Qed.

(** The dictionary that describes the trajectories of a species. *)
Definition dict_of (sn : string) : tdict := if decide (sn ∈ tc_charged tc) then tc_cdict tc else tc_ndict tc.
(** The dictionary has the time, every name once, and only numbers. *)
Record Good (dict : tdict) : Prop := {
  gd_nodup : NoDup (map fst dict);
  gd_time : exists f, ("t", f) ∈ dict;
  gd_numeric : forall c f, (c, f) ∈ dict -> f <> FOther
}.
(** The value [w] is the number [v] in the format [f]: rounded for a floating-point type, wrapped for an integer type, and truncated
    before that if [v] is not an integer. *)
Inductive InFormat : format -> val -> val -> Prop :=
| if_float rnd x : InFormat (FFloat rnd) (VF x) (VF (rnd x))
| if_float_int rnd z : InFormat (FFloat rnd) (VI z) (VF (rnd (IZR z)))
| if_int wrap z : InFormat (FInt wrap) (VI z) (VI (wrap z))
| if_int_float wrap x : InFormat (FInt wrap) (VF x) (VI (wrap (Flocq.Core.Raux.Ztrunc x))).
Lemma stored_format f v : f <> FOther -> InFormat f v (stored f v).
Proof using. intros Hf. destruct f; [| |done]; destruct v; constructor. Qed.
(** The file shows the trajectory [e]: the attributes tell the species, there is a group for every recorded point, in their order, with
    the time of the point, and it has a data set for every name of the dictionary, with the value of the point in the given format. *)
Record FileShows (sn : string) (e : entry) (file : tfile) : Prop := {
  fi_species : ("particle_type_" +:+ pretty (tc_sindex tc sn), AString sn) ∈ tf_attrs file;
  fi_mass : ("mass_" +:+ pretty (tc_sindex tc sn), ANumber (tc_mass tc sn)) ∈ tf_attrs file;
  fi_charge : ("charge_" +:+ pretty (tc_sindex tc sn), ANumber (tc_charge tc sn)) ∈ tf_attrs file;
  fi_title : ("Title:", AString (tc_title tc)) ∈ tf_attrs file /\ ("Author:", AString (tc_author tc)) ∈ tf_attrs file;
  fi_length : Z.of_nat (length (tf_groups file)) = e_len e;
  fi_groups : forall i d, points e !! i = Some (Some d) -> exists g, tf_groups file !! i = Some g /\ tg_name g = "Step#" +:+ pretty i /\
    (forall f, ("t", f) ∈ dict_of sn -> InFormat f (VF (d_time d)) (tg_time g)) /\
    map fst (tg_sets g) = map fst (dict_of sn) /\
    forall c f v, (c, f) ∈ dict_of sn -> Quantity (bool_decide (sn ∈ tc_charged tc)) d c v ->
      exists w, (c, w) ∈ tg_sets g /\ InFormat f v w
}.

Lemma charged_bool sn : existsb (String.eqb sn) (tc_charged tc) = bool_decide (sn ∈ tc_charged tc).
Proof using.
  induction (tc_charged tc) as [|a l IH]; [done|]. cbn [existsb]. rewrite IH. destruct (String.eqb_spec sn a) as [->|Hne]; cbn.
  - symmetry. apply bool_decide_eq_true. left.
  - apply bool_decide_ext. rewrite elem_of_cons. tauto.
Qed.

Context (HN : Names) (np : Z).

Lemma entry_file sn e gs : Good (dict_of sn) -> SoundEntry np e ->
  write_groups tc (bool_decide (sn ∈ tc_charged tc)) (dict_of sn) (e_data e) (seq 0 (Z.to_nat (e_len e))) [] = Ok gs ->
  FileShows sn e (TFile (traj_attrs tc sn) gs).
Proof using HN.
  intros [G1 (f & G2) G3] (H1 & H2 & H3) E. rewrite (write_groups_ok _ _ f _ G1 G2) in E; [|lia|intros g Hg; by apply elem_of_nil in Hg].
  injection E as <-. unfold traj_attrs. split; cbn [tf_attrs tf_groups]; [do 2 right; left|do 3 right; left|do 4 right; left|split; [left|right; left]|..].
  - rewrite ?app_nil_l, map_length, seq_length. lia.
  - intros i d Hi. unfold points in Hi. apply lookup_take_Some in Hi as [Hi Hlt].
    exists (group_of (bool_decide (sn ∈ tc_charged tc)) (dict_of sn) f i (Some d)). split; [|split; [done|split; [|split]]].
    + rewrite ?app_nil_l, list_lookup_fmap, lookup_seq_lt by lia. cbn. by rewrite Hi.
    + intros f' Hf. assert (f' = f) as ->.
      { apply elem_of_list_lookup in G2 as [a Ha]. apply elem_of_list_lookup in Hf as [b Hb].
        assert (a = b) as <-; [|congruence]. eapply (proj1 (NoDup_alt _) G1 a b "t"); rewrite list_lookup_fmap; [by rewrite Ha|by rewrite Hb]. }
      cbn [group_of tg_time recorded]. exact (stored_format f _ (G3 _ _ G2)).
    + cbn [group_of tg_sets]. by rewrite map_map.
    + intros c f' v Hc Hq. exists (stored f' v). split; [|exact (stored_format f' v (G3 _ _ Hc))]. cbn [group_of tg_sets]. apply elem_of_list_fmap. exists (c, f'). split; [|exact Hc]. cbn [fst snd recorded].
      by rewrite (component_quantity _ _ _ _ HN Hq).
Qed.
Lemma entries_written sn : Good (dict_of sn) -> forall es fs, Forall (SoundEntry np) es ->
  exists fs', write_entries tc (bool_decide (sn ∈ tc_charged tc)) (dict_of sn) sn es fs = Ok fs' /\
    (forall k e, es !! k = Some e -> (forall j e', (k < j)%nat -> es !! j = Some e' -> e_uid e' <> e_uid e) ->
       exists file, fs' (traj_file_name sn (e_uid e)) = Some file /\ FileShows sn e file) /\
    (forall name, (forall e, e ∈ es -> name <> traj_file_name sn (e_uid e)) -> fs' name = fs name).
Proof using HN.
  intros HG. induction es as [|e es IH]; intros fs HS; cbn [write_entries].
  - exists fs. split; [done|]. split; [intros k e Hk; by rewrite lookup_nil in Hk|done].
  - inversion_clear HS as [|? ? He Hes].
    destruct (gd_time _ HG) as (f & Hf). pose proof (write_groups_ok (bool_decide (sn ∈ tc_charged tc)) (dict_of sn) f (e_data e) (gd_nodup _ HG) Hf 0 (Z.to_nat (e_len e)) []) as Hw.
    rewrite app_nil_l in Hw. specialize (Hw ltac:(destruct He as (? & ? & _); lia) ltac:(intros g Hg; by apply elem_of_nil in Hg)).
    pose proof (entry_file sn e _ HG He Hw) as Hshow. rewrite Hw.
    destruct (IH (set_key fs (traj_file_name sn (e_uid e)) (Some (TFile (traj_attrs tc sn) (map (fun i => group_of (bool_decide (sn ∈ tc_charged tc)) (dict_of sn) f i (default None (e_data e !! i))) (seq 0 (Z.to_nat (e_len e))))))) Hes)
      as (fs' & E & A1 & A2). exists fs'. split; [exact E|]. split.
    + intros [|k] e' Hk Hl.
      * injection Hk as ->. eexists. split; [|exact Hshow]. rewrite A2; [unfold set_key; by rewrite String.eqb_refl|].
        intros e1 He1 Hn. apply C54_names in Hn as [_ Hn]. apply elem_of_list_lookup in He1 as [j Hj]. apply (Hl (S j) e1); [lia|exact Hj|done].
      * apply (A1 k e' Hk). intros j e1 Hj He1. apply (Hl (S j)); [lia|exact He1].
    + intros name Hn. rewrite A2; [|intros e1 He1; apply Hn; by right]. unfold set_key.
      destruct (String.eqb_spec name (traj_file_name sn (e_uid e))) as [->|]; [|done]. destruct (Hn e); [left|done].
Qed.
Lemma species_written T : t_npoints T = np -> Sound T -> forall sns fs, NoDup sns -> (forall sn, sn ∈ sns -> t_sp T sn <> [] -> Good (dict_of sn)) ->
  exists fs', write_species tc sns T fs = Ok fs' /\
    (forall sn k e, sn ∈ sns -> t_sp T sn !! k = Some e -> (forall j e', (k < j)%nat -> t_sp T sn !! j = Some e' -> e_uid e' <> e_uid e) ->
       exists file, fs' (traj_file_name sn (e_uid e)) = Some file /\ FileShows sn e file) /\
    (forall name, (forall sn e, sn ∈ sns -> e ∈ t_sp T sn -> name <> traj_file_name sn (e_uid e)) -> fs' name = fs name).
Proof using HN.
  intros Hnp [_ HS]. induction sns as [|sn sns IH]; intros fs Hnd HG; cbn [write_species].
  - exists fs. split; [done|]. split; [intros sn k e Hk; by apply elem_of_nil in Hk|done].
  - apply list.NoDup_cons in Hnd as [Hni Hnd].
    assert (HE : exists fs1, (match t_sp T sn with [] => Ok fs | es =>
        if negb (forallb (fun cf => numeric (snd cf)) ((if existsb (String.eqb sn) (tc_charged tc) then tc_cdict tc else tc_ndict tc) : tdict)) then Raise RuntimeError else
        write_entries tc (existsb (String.eqb sn) (tc_charged tc)) ((if existsb (String.eqb sn) (tc_charged tc) then tc_cdict tc else tc_ndict tc) : tdict) sn es fs end) = Ok fs1 /\
      (forall k e, t_sp T sn !! k = Some e -> (forall j e', (k < j)%nat -> t_sp T sn !! j = Some e' -> e_uid e' <> e_uid e) ->
       exists file, fs1 (traj_file_name sn (e_uid e)) = Some file /\ FileShows sn e file) /\
      (forall name, (forall e, e ∈ t_sp T sn -> name <> traj_file_name sn (e_uid e)) -> fs1 name = fs name)).
    { rewrite charged_bool. assert (Hd : (if bool_decide (sn ∈ tc_charged tc) then tc_cdict tc else tc_ndict tc) = dict_of sn).
      { unfold dict_of. destruct (decide _); [by rewrite bool_decide_eq_true_2|by rewrite bool_decide_eq_false_2]. }
      rewrite !Hd. destruct (t_sp T sn) as [|e es] eqn:Es.
      - exists fs. split; [done|]. split; [intros k e Hk; by rewrite lookup_nil in Hk|done].
      - specialize (HG sn ltac:(left) ltac:(by rewrite Es)). replace (forallb (fun cf => numeric (snd cf)) (dict_of sn)) with true.
        + cbn [negb]. apply (entries_written sn HG (e :: es) fs). apply list.Forall_forall. intros e0 He0. rewrite <- Hnp. apply (HS sn). by rewrite Es.
        + symmetry. apply forallb_forall. intros [c f] Hc. apply elem_of_list_In in Hc. cbn. pose proof (gd_numeric _ HG _ _ Hc). by destruct f. }
    destruct HE as (fs1 & E & A1 & A2). destruct (IH fs1 Hnd ltac:(intros s Hs; apply HG; by right)) as (fs' & E' & B1 & B2). exists fs'. split; [|split].
    + destruct (t_sp T sn) as [|e es]; [injection E as <-; exact E'|]. destruct (negb _); [discriminate|]. by rewrite E.
    + intros s k e Hs Hk Hl. apply elem_of_cons in Hs as [->|Hs]; [|by apply (B1 s k e)].
      destruct (A1 k e Hk Hl) as (file & Hf & Hsh). exists file. split; [|exact Hsh]. rewrite B2; [exact Hf|].
      intros s' e' Hs' _ Hn. apply C54_names in Hn as [-> _]. done.
    + intros name Hn. rewrite B2; [|intros s e Hs; apply Hn; by right]. apply A2. intros e He. apply Hn; [left|exact He].
Qed.
End Contents.

(** The names of the code are such names, for each of the four coordinate systems. *)
Theorem C54_shipped_names tc system cs : coordinates system = Some cs -> tc_coords tc = cs -> tc_column tc = particle_column cs ->
  tc_Enames tc = E1_names cs -> tc_Extnames tc = Eext1_names cs -> Names tc.
Proof.
  intros Hs H1 H2 H3 H4. unfold coordinates in Hs.
  assert (H : forall cs, NoDup cs -> NoDup ("step" :: "t" :: E1_names cs ++ Eext1_names cs) -> (forall c, c ∈ cs -> is_Some (particle_column cs c)) ->
    Forall (fun c => particle_column cs c = None) ("step" :: "t" :: E1_names cs ++ Eext1_names cs) ->
    tc_coords tc = cs -> tc_column tc = particle_column cs -> tc_Enames tc = E1_names cs -> tc_Extnames tc = Eext1_names cs -> Names tc).
  { clear. intros cs A1 A2 A3 A4 B1 B2 B3 B4. split; rewrite ?B1, ?B2, ?B3, ?B4; try assumption. intros c [col Hc] Hin.
    apply (proj1 (list.Forall_forall _ _) A4) in Hin. congruence. }
  apply (H cs); try assumption; clear - Hs; repeat destruct (String.eqb system _) in Hs; try discriminate; injection Hs as <-.
  all: try (apply (bool_decide_unpack _); vm_compute; exact I).
  all: try (intros c Hc; repeat (apply elem_of_cons in Hc as [->|Hc]; [vm_compute; by eexists|]); by apply elem_of_nil in Hc).
  all: cbv [E1_names Eext1_names map]; rewrite ?list.Forall_cons; repeat split; try (vm_compute; reflexivity); apply list.Forall_nil; exact I.
Qed.

Print Assumptions C54_names.
Print Assumptions C54_names_example.
Print Assumptions C54_shipped_names.
