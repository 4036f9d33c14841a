(** C67: the time loop with its solver object: what the object remembers does not matter, and Gauss's law holds in every step of a run. *)
From Coq Require Import String FunctionalExtensionality.
From stdpp Require Import strings numbers list list_numbers.
From Verif Require Import SapModel MoverModel SapProofs SapSpec SapRefine StorageProps.
From Verif Require Import Vec VecProofs Rounding BcModel TrackModel TrackGeomProofs TrajModel TrajProofs TrajProps DiagModel DiagProofs DumpProps SumProps HistoryProps.
From Verif Require RegionProps.
From Verif Require Import AcceptProps DensityModel DensityProps SourceModel SourceProps UidProps LineMeshModel LineMeshProps RunModel RunProps.
From Verif Require Import MeshFieldModel MeshFieldProps CppFieldProps DeltaModel DeltaProps SolveModel SolveProps RunTotalProps.
From Verif Require Import PicModel.
From Verif Require Import FieldProps.
Local Open Scope R_scope.

(** ** Any solver *)
Section Any.
Context (fl st32 : R -> R) (form : matrix) (load : R + string -> option (list R)) (bcs : list dirichlet).
Context (lu : matrix -> list R -> list R) (project : list R -> list R) (constant : bool) (factor : option R) (eval : list R -> particle -> vec).
Notation fieldf := (solver_field fl form bcs lu project constant factor eval).
Notation loop := (pic_loop fl st32 form bcs lu project constant factor eval).
Notation stepf := (pic_step fl st32 form bcs lu project constant factor eval).

(** A solver with an electric field that was constructed for [n] degrees of freedom and used in whatever way. *)
Definition ready (n : nat) (s : solver) : Prop := length (sb s) = n /\ sA s = bcs_matrix bcs form /\ snegE s <> None.
Lemma ready_calls phi E s0 ks q0 s q : new_solver form load bcs phi (Some E) = Ok s0 ->
  do_calls fl form load bcs lu project constant ks (s0, q0) = Ok (s, q) -> ready (length phi) s.
Proof using.
  intros Hn Hk. apply new_inv in Hn as (N1 & N2 & _ & N4). apply calls_kept in Hk as (K1 & K2 & K3). split; [congruence|]. split; [exact (K2 N2)|].
  intros H. apply K3 in H. rewrite N4 in H. discriminate H.
Qed.
Lemma field_value n s rho : ready n s -> fieldf s rho = if (length rho =? n)%nat
  then Ok (eval (project (lu (bcs_matrix bcs form) (bcs_vector bcs (fvals (scaled fl (FieldObj rho None) factor)))))) else Raise RuntimeError.
Proof using.
  intros (H1 & H2 & H3). unfold solver_field. destruct (Nat.eqb_spec (length rho) n) as [E|E].
  - rewrite (solve_charge fl form bcs lu project constant s (FieldObj rho None) factor) by (cbn [fvals]; congruence).
    cbn [fst snegE]. unfold with_negE. destruct (snegE s) as [F|]; [|destruct (H3 eq_refl)].
    rewrite (mat_kept form bcs constant s H2). reflexivity.
  - rewrite (solve_charge_bad fl form bcs lu project constant s (FieldObj rho None) factor) by (cbn [fvals]; congruence). reflexivity.
Qed.
Lemma field_same n s s' : ready n s -> ready n s' -> fieldf s = fieldf s'.
Proof using. intros H H'. apply functional_extensionality. intros rho. rewrite (field_value n s rho H), (field_value n s' rho H'). reflexivity. Qed.
Lemma solve_ready n s rho g : ready n s -> fieldf s rho = Ok g ->
  exists s' c, solve_for_phi fl form bcs lu project constant s (Some (FieldObj rho None)) factor = Ok (s', c) /\ ready n s' /\ length rho = n.
Proof using.
  intros Hr Hg. pose proof Hr as (H1 & H2 & H3). rewrite (field_value n s rho Hr) in Hg. destruct (Nat.eqb_spec (length rho) n) as [E|E]; [|discriminate Hg].
  rewrite (solve_charge fl form bcs lu project constant s (FieldObj rho None) factor) by (cbn [fvals]; congruence).
  eexists _, _. split; [reflexivity|]. split; [|exact E]. split; [|split]; cbn [sb sA snegE].
  - rewrite bcs_length. unfold scaled. destruct factor; cbn [fvals]; rewrite ?map_length; exact E.
  - apply mat_kept. exact H2.
  - unfold with_negE. destruct (snegE s); [intros H; discriminate H|exact H3].
Qed.

(** One step of the loop with the object is one step of [time_step] with the field as a function of the charge. *)
Lemma step_pure n u s0 s w : ready n s0 -> ready n s ->
  match time_step fl st32 (with_solve u (fieldf s0)) w with
  | Ok w' => exists s', stepf u (w, s) = Ok (w', s') /\ ready n s'
  | Raise e => stepf u (w, s) = Raise e
  end.
Proof using.
  intros H0 Hs. unfold pic_step. cbn [fst snd]. rewrite (field_same n s s0 Hs H0).
  destruct (time_step fl st32 (with_solve u (fieldf s0)) w) as [w'|e] eqn:E; [|reflexivity].
  destruct (step_parts _ _ _ _ _ E) as (saps1 & c1 & st2 & st3 & saps4 & saps5 & saps6 & _ & _ & _ & _ & _ & _ & Es & _).
  change (u_solve (with_solve u (fieldf s0)) (rs_rho w')) with (fieldf s0 (rs_rho w')) in Es. rewrite (field_same n s0 s H0 Hs) in Es.
  destruct (solve_ready n s _ _ Hs Es) as (s' & c & -> & Hr & _). exists s'. split; [reflexivity|exact Hr].
Qed.

(** C67: a run of any length with the solver object, used before in whatever way, gives what the run gives in which the field is a function of the present charge,
    computed by a new solver; it also fails where that one fails, with the same exception. *)
Theorem C67_refines u phi E s0 ks q0 s q n w : new_solver form load bcs phi (Some E) = Ok s0 ->
  do_calls fl form load bcs lu project constant ks (s0, q0) = Ok (s, q) ->
  match loop u n (w, s) with Ok x => Ok (fst x) | Raise e => Raise e end = time_loop fl st32 (with_solve u (fieldf s0)) n w.
Proof using.
  intros Hn Hk. pose proof (ready_calls phi E s0 ks q0 s q Hn Hk) as Hs.
  assert (H0 : ready (length phi) s0) by (apply (ready_calls phi E s0 [] q0 s0 q0 Hn); reflexivity). clear Hn Hk.
  revert w s Hs. induction n as [|n IH]; intros w s Hs; [reflexivity|]. cbn [pic_loop time_loop].
  pose proof (step_pure (length phi) u s0 s w H0 Hs) as Hp. destruct (time_step fl st32 (with_solve u (fieldf s0)) w) as [w'|e].
  - destruct Hp as (s' & -> & Hr). apply IH. exact Hr.
  - rewrite Hp. reflexivity.
Qed.
End Any.

(** ** The spherical example *)

(** The charge that counts for the field in cell [k]: that of the particles farther in, and a share of those in the cell. *)
Definition enclosed (X : list R) (charge : string -> R) (names : list string) (pop : string -> list particle) (k : nat) : R :=
  Rsum (map (fun sn => charge sn * Rsum (map (fun p => pw p * share X k (comp (px p) 0)) (pop sn))) names).
Lemma Forall2_in_impl {A B} (P Q : A -> B -> Prop) l k : Forall2 P l k -> (forall x y, In x l -> P x y -> Q x y) -> Forall2 Q l k.
Proof. intros H. induction H as [|x y l k Hxy H IH]; intros HPQ; constructor; [apply HPQ; [left; reflexivity|exact Hxy]|]. apply IH. intros x' y' Hin. apply HPQ. right. exact Hin. Qed.

Section Radial.
(** [loc] is the search of DOLFIN for the cell of a point; the function with the coefficients [E] is constant on every cell. *)
Context (X : list R) (dn de : nat -> nat) (eps rmax f : R) (lu : matrix -> list R -> list R) (loc : R -> nat).
Notation form := (radial_form X dn eps).
Notation load := (radial_load X dn).
Notation bcs := (radial_bcs X dn None rmax).
Notation project := (radial_project X dn de).
Notation eval := (fun (E : list R) (p : particle) => [at_ E (de (loc (comp (px p) 0)))]).
Notation fieldf := (solver_field exact form bcs lu project true (Some f) eval).
Notation stepf st32 := (pic_step exact st32 form bcs lu project true (Some f) eval).
Notation loop st32 := (pic_loop exact st32 form bcs lu project true (Some f) eval).
Context (HX : DeltaProps.increasing X) (H0 : 0 <= at_ X 0) (Hn : (2 <= length X)%nat) (Hdn : numbering X dn) (He : 0 < eps).
Context (Hde : forall c, (c < length X - 1)%nat -> (de c < length X - 1)%nat /\ forall c', (c' < length X - 1)%nat -> de c' = de c -> c' = c).
Context (Hlu : let M := bcs_matrix bcs form in forall b, (exists x, solves (length X) M x b) -> solves (length X) M (lu M b) b).

(** C67: after every step with the solver object, used before in whatever way, Gauss's law holds for the field that the particles will get in the next step, with the
    particles that are stored then. *)
Theorem C67_gauss st32 u (L : Z) (vl : nat -> R) d phi F s0 ks q0 s q w w' s' pop pop' : (1 <= L)%Z ->
  NoDup (u_charged u) -> (forall sn, Civil (u_bcs u sn)) -> NoDup (u_names u) ->
  u_ncell u = (length X - 1)%nat -> u_gdim u = 1%nat -> u_ndof u = length X -> u_fD u = p1_line X dn -> CellSpace (u_fC u) (u_ncell u) d ->
  (forall c : nat, (c < u_ncell u)%nat -> u_vol u (Z.of_nat c) = Some (vl c)) ->
  length phi = length X -> new_solver form load bcs phi (Some F) = Ok s0 -> do_calls exact form load bcs lu project true ks (s0, q0) = Ok (s, q) ->
  StoresAll L (ss_saps (rs_src w)) pop -> StoresAll L (ss_saps (rs_src w')) pop' ->
  (forall sn, sn ∈ u_names u -> (pop' sn = [] -> NeverPushed L (ss_saps (rs_src w) sn)) /\
     forall p, p ∈ pop' sn -> exists x r, px p = x :: r /\ in_line X (pcell p) x) ->
  stepf st32 u (w, s) = Ok (w', s') ->
  forall p, let k := loc (comp (px p) 0) in (S k < length X)%nat ->
    eps * rr X k * - comp (rs_negE w' p) 0 = f * enclosed X (u_charge u) (u_names u) pop' k.
Proof.
  intros HL Hnd Hciv Hnn Hnc Hgd Hndof HfD HC Hv Hp Hnew Hcalls HS HS' Hpop Hstep p k Hk.
  pose proof (ready_calls exact form load bcs lu project true phi F s0 ks q0 s q Hnew Hcalls) as Hs.
  unfold pic_step in Hstep. cbn [fst snd] in Hstep. destruct (time_step exact st32 (with_solve u (fieldf s)) w) as [w1|] eqn:Et; [|discriminate Hstep].
  destruct (solve_for_phi exact form bcs lu project true s (Some (FieldObj (rs_rho w1) None)) (Some f)) as [[s1 c1]|] eqn:Esol; [|discriminate Hstep].
  injection Hstep as -> <-.
  assert (HD : DofSpace (u_fD u) (u_ncell u) (u_ndof u)) by (rewrite HfD, Hnc, Hndof; apply p1_dofs; exact Hdn).
  destruct (C40_charge_current st32 (with_solve u (fieldf s)) L vl d w w' pop pop' HL Hnd Hciv Hnn HD HC Hv HS HS') as (G1 & _ & _ & G4 & _).
  { intros sn Hsn. destruct (Hpop sn Hsn) as [P1 P2]. split; [|exact P1]. intros p' Hp'. destruct (P2 p' Hp') as (x & r & _ & Hl). change (u_ncell (with_solve u _)) with (u_ncell u). rewrite Hnc.
    destruct Hl as [Hl _]. lia. }
  { exact Et. }
  change (u_solve (with_solve u (fieldf s)) (rs_rho w')) with (fieldf s (rs_rho w')) in G4.
  change (u_fD (with_solve u (fieldf s))) with (u_fD u) in G1. change (u_gdim (with_solve u (fieldf s))) with (u_gdim u) in G1. change (u_charge (with_solve u (fieldf s))) with (u_charge u) in G1.
  change (u_names (with_solve u (fieldf s))) with (u_names u) in G1. rewrite HfD, Hgd in G1.
  destruct (solve_ready exact form bcs lu project true (Some f) eval (length phi) s (rs_rho w') _ Hs G4) as (_ & _ & _ & _ & Hlen). rewrite Hp in Hlen.
  destruct (C65_gauss X dn eps HX H0 Hn Hdn He None rmax de Hde lu Hlu exact phi F s0 ks q0 s q (FieldObj (rs_rho w') None) (Some f) Hp Hnew Hcalls Hlen)
    as (s2 & c & E2 & S1 & S2 & S3 & _ & _ & _ & S4 & _).
  unfold solver_field in G4. rewrite S1 in G4. unfold felt in S2. cbn [fst] in G4. destruct (snegE s2) as [F2|]; [|discriminate S2]. cbn in S2. injection S2 as <-.
  injection G4 as G4. rewrite <- G4. cbn [nth]. fold k. rewrite (S4 eq_refl k Hk), S3. cbn [fvals]. unfold enclosed.
  transitivity (f * Rsum (map (fun v => at_ (rs_rho w') (dn v)) (seq 0 (S k)))).
  { rewrite <- Rsum_map_scale. apply Rsum_ext_seq. intros v Hv'. destruct (Hdn v ltac:(lia)) as [B _]. rewrite (at_map (fun y => exact (y * f))) by lia. unfold exact. ring. }
  f_equal. rewrite (map_ext _ (fun v => Rsum (map (fun sn => u_charge u sn * Rsum (map (fun p => pw p * spread (p1_line X dn) 1 (dn v) p) (pop' sn))) (u_names u)))) by (intros v; apply G1).
  rewrite Rsum_swap. f_equal. apply map_ext_in. intros sn Hsn%elem_of_list_In. rewrite Rsum_map_scale. f_equal. rewrite Rsum_swap. f_equal.
  apply map_ext_in. intros p' Hpp%elem_of_list_In. rewrite Rsum_map_scale. f_equal. destruct (Hpop sn Hsn) as [_ Hin]. destruct (Hin p' Hpp) as (x & r & Hx & Hl).
  rewrite (share_sum X dn k p' x r HX Hdn Hk Hx Hl). rewrite Hx. reflexivity.
Qed.

Lemma holds_in_line vs c x : LineMeshProps.Holds vs c x -> in_line vs c x.
Proof using.
  clear. intros (x0 & x1 & Hc & E1 & E2 & Hx). split; [apply lookup_lt_Some in E2; lia|]. unfold at_. rewrite (nth_lookup_Some _ _ 0 _ E1), (nth_lookup_Some _ _ 0 _ E2). exact Hx.
Qed.

Context (Hloc : forall x, at_ X 0 <= x <= at_ X (length X - 1) -> (S (loc x) < length X)%nat).
Context (u : setup) (L : Z) (HL : (1 <= L)%Z) (HuL : u_L u = L) (mk : Z -> Z) (a b : R) (d : nat -> nat) (vl : nat -> R).
Context (HR : LineRun (with_solve u (fun _ => Ok (fun _ => [0]))) X mk a b d vl).
Context (Hgd : u_gdim u = 1%nat) (Hndof : u_ndof u = length X) (HfD : u_fD u = p1_line X dn).
Context (phi : list R) (F : field) (s0 : solver) (Hphi : length phi = length X) (Hnew : new_solver form load bcs phi (Some F) = Ok s0).

Lemma calls_app ks ks' : forall w, do_calls exact form load bcs lu project true (ks ++ ks') w =
  match do_calls exact form load bcs lu project true ks w with Ok w1 => do_calls exact form load bcs lu project true ks' w1 | Raise e => Raise e end.
Proof using.
  induction ks as [|k ks IH]; intros w; [reflexivity|]. cbn [app do_calls]. destruct (do_call exact form load bcs lu project true k w) as [w1|e]; [apply IH|reflexivity].
Qed.
(** The run fits into C40 whatever solver object is used. *)
Lemma run_solver s : ready form bcs (length phi) s -> LineRun (with_solve u (fieldf s)) X mk a b d vl.
Proof.
  intros Hs. destruct HR. constructor; try assumption.
  intros rho Hrho. change (u_solve (with_solve u (fieldf s)) rho) with (fieldf s rho). change (u_ndof (with_solve u (fieldf s))) with (u_ndof u) in Hrho.
  rewrite (field_value exact form bcs lu project true (Some f) eval (length phi) s rho Hs). rewrite Hrho, Hndof, Hphi, Nat.eqb_refl. eexists. split; [reflexivity|]. intros p. reflexivity.
Qed.

(** What the field obeys in a state with the particles [pop]. *)
Definition Gauss (w : runst) (pop : string -> list particle) : Prop :=
  forall p, let k := loc (comp (px p) 0) in (S k < length X)%nat -> eps * rr X k * - comp (rs_negE w p) 0 = f * enclosed X (u_charge u) (u_names u) pop k.

Lemma run_step st32 ks q0 s q w pop : do_calls exact form load bcs lu project true ks (s0, q0) = Ok (s, q) -> Fit u L X w pop -> Served L u a b w pop ->
  exists w' s' pop', stepf st32 u (w, s) = Ok (w', s') /\ Fit u L X w' pop' /\ Gauss w' pop' /\
    (forall sn, sn ∈ u_charged u -> exists moved new, pop' sn = moved ++ new /\
       Forall2 (Landed u (rs_count w') (rs_negE w) sn) (List.filter (stays u a b (rs_count w') (rs_negE w) sn) (pop sn)) moved /\ length new = emitted u sn (rs_count w')) /\
    (rs_hist w = None -> rs_hist w' = None) /\ exists ks' q0' q', do_calls exact form load bcs lu project true ks' (s0, q0') = Ok (s', q').
Proof.
  intros Hcalls HF HSv. pose proof (ready_calls exact form load bcs lu project true phi F s0 ks q0 s q Hnew Hcalls) as Hs.
  destruct (C40_progress (with_solve u (fieldf s)) L HL X mk a b d vl (run_solver s Hs) st32 w pop HuL) as (w' & pop' & Et & HF' & Hmoved & Hhist).
  { destruct HF. constructor; assumption. }
  { exact HSv. }
  pose proof (step_pure exact st32 form bcs lu project true (Some f) eval (length phi) u s s w Hs Hs) as Hpure. rewrite Et in Hpure. destruct Hpure as (s' & Es & _).
  assert (HF2 : Fit u L X w' pop') by (destruct HF'; constructor; assumption).
  exists w', s', pop'. split; [exact Es|]. split; [exact HF2|]. split; [|split; [|split]].
  - refine (C67_gauss st32 u L vl d phi F s0 ks q0 s q w w' s' pop pop' HL _ _ _ _ Hgd Hndof HfD _ _ Hphi Hnew Hcalls (ft_stored _ _ _ _ _ HF) (ft_stored _ _ _ _ _ HF2) _ Es).
    + exact (lr_charged _ _ _ _ _ _ _ HR).
    + exact (lr_civil _ _ _ _ _ _ _ HR).
    + exact (lr_names _ _ _ _ _ _ _ HR).
    + pose proof (lr_ncell _ _ _ _ _ _ _ HR) as Hnc. change (u_ncell (with_solve u _)) with (u_ncell u) in Hnc. lia.
    + exact (lr_C _ _ _ _ _ _ _ HR).
    + exact (lr_vol _ _ _ _ _ _ _ HR).
    + intros sn Hsn. split.
      * intros Hnil. specialize (Hmoved sn). change (u_charged (with_solve u (fieldf s))) with (u_charged u) in Hmoved. case_bool_decide as Hch.
        -- destruct Hmoved as (moved & new & Hp & HF3 & _). destruct HSv as [Hfeed _]. destruct (Hfeed sn Hch) as [Hemp|[Hk _]]; [exact (proj1 (ft_fresh _ _ _ _ _ HF sn Hemp))|].
           exfalso. rewrite Hp in Hnil. apply app_eq_nil in Hnil as [-> _]. apply Forall2_length in HF3. cbn [length] in HF3.
           assert (Hcnt : rs_count w' = (rs_count w + 1)%Z) by (destruct (step_parts _ _ _ _ _ Et) as (? & ? & ? & ? & ? & ? & ? & _ & _ & _ & _ & _ & _ & _ & _ & _ & Hc & _); exact Hc).
           rewrite Hcnt in HF3. change (length (List.filter (stays u a b (rs_count w + 1) (rs_negE w) sn) (pop sn)) = 0%nat) in HF3. lia.
        -- apply (ft_fresh _ _ _ _ _ HF). rewrite <- Hmoved. exact Hnil.
      * intros p Hp. destruct (ft_line _ _ _ _ _ HF2 sn p Hp) as (x & v & Hx & _ & HH & _). exists x, []. split; [exact Hx|]. apply holds_in_line. exact HH.
  - intros sn Hch. specialize (Hmoved sn). change (u_charged (with_solve u (fieldf s))) with (u_charged u) in Hmoved. rewrite bool_decide_eq_true_2 in Hmoved by exact Hch.
    destruct Hmoved as (moved & new & Hp & HF3 & Hnw & _). exists moved, new. split; [exact Hp|]. split; [|exact Hnw].
    change (List.filter (stays (with_solve u (fieldf s)) a b (rs_count w') (rs_negE w) sn) (pop sn)) with (List.filter (stays u a b (rs_count w') (rs_negE w) sn) (pop sn)) in HF3.
    eapply Forall2_impl; [exact HF3|]. intros x y [? ? ? ?]. constructor; assumption.
  - intros Hnone. rewrite Hnone in Hhist. destruct (rs_hist w'); [destruct Hhist|reflexivity].
  - unfold pic_step in Es. cbn [fst snd] in Es. rewrite Et in Es.
    destruct (solve_for_phi exact form bcs lu project true s (Some (FieldObj (rs_rho w') None)) (Some f)) as [[s1 c1]|] eqn:Esol; [|discriminate Es]. injection Es as <-.
    assert (Hlen : length (rs_rho w') = length (sb s)).
    { destruct (Nat.eq_dec (length (rs_rho w')) (length (sb s))) as [E|E]; [exact E|].
      rewrite (solve_charge_bad exact form bcs lu project true s (FieldObj (rs_rho w') None) (Some f)) in Esol by exact E. discriminate Esol. }
    rewrite (solve_charge exact form bcs lu project true s (FieldObj (rs_rho w') None) (Some f) Hlen) in Esol. injection Esol as <- _.
    exists (ks ++ [KCharge (fun _ => Ok (rs_rho w')); KSolveCharge (Some f)]), q0. eexists. rewrite calls_app, Hcalls. cbn [do_calls do_call on_values].
    change (length (fvals (FieldObj (rs_rho w') (frep q))) = length (sb s)) in Hlen.
    rewrite (solve_charge exact form bcs lu project true s (FieldObj (rs_rho w') (frep q)) (Some f) Hlen). cbn [fst snd default]. reflexivity.
Qed.

(** C67: a run of any length on the radial mesh, with absorbing ends and the solver object of the example, succeeds as long as the states that it meets are served (as in C40), and
    Gauss's law holds after each step, for the particles that are stored then. *)
Theorem C67_run st32 n ks q0 s q w pop : do_calls exact form load bcs lu project true ks (s0, q0) = Ok (s, q) -> Fit u L X w pop ->
  (forall m w1 s1 pop1, (m < n)%nat -> loop st32 u m (w, s) = Ok (w1, s1) -> Fit u L X w1 pop1 -> Served L u a b w1 pop1) ->
  exists w' s' pop', loop st32 u n (w, s) = Ok (w', s') /\ Fit u L X w' pop' /\ ((0 < n)%nat -> Gauss w' pop').
Proof.
  revert ks q0 s q w pop. induction n as [|n IH]; intros ks q0 s q w pop Hcalls HF Hserved.
  - exists w, s, pop. split; [reflexivity|]. split; [exact HF|]. intros H. lia.
  - destruct (run_step st32 ks q0 s q w pop Hcalls HF) as (w1 & s1 & pop1 & E1 & HF1 & HG & _ & _ & ks' & q0' & q' & Hcalls').
    { apply (Hserved 0%nat w s pop); [lia|reflexivity|exact HF]. }
    cbn [pic_loop]. rewrite E1. destruct n as [|n].
    + exists w1, s1, pop1. split; [reflexivity|]. split; [exact HF1|]. intros _. exact HG.
    + destruct (IH ks' q0' s1 q' w1 pop1 Hcalls' HF1) as (w' & s' & pop' & E' & HF' & HG').
      { intros m w2 s2 pop2 Hm E2. apply (Hserved (S m) w2 s2 pop2); [lia|]. cbn [pic_loop]. rewrite E1. exact E2. }
      exists w', s', pop'. split; [exact E'|]. split; [exact HF'|]. intros _. apply HG'. lia.
Qed.

(** C67: so in the second of two steps every particle that stays is accelerated by the field of the charge inside: its velocity changes by [q/m dt] times [f Q / (eps <r**2>)],
    where [Q] is the charge enclosed at the end of the first step, plus the external field. *)
Theorem C67_push st32 ks q0 s q w pop : do_calls exact form load bcs lu project true ks (s0, q0) = Ok (s, q) -> Fit u L X w pop -> Served L u a b w pop ->
  (forall w1 s1 pop1, stepf st32 u (w, s) = Ok (w1, s1) -> Fit u L X w1 pop1 -> Served L u a b w1 pop1) ->
  exists w1 s1 pop1 w2 s2 pop2, stepf st32 u (w, s) = Ok (w1, s1) /\ stepf st32 u (w1, s1) = Ok (w2, s2) /\ Fit u L X w1 pop1 /\ Fit u L X w2 pop2 /\
    forall sn, sn ∈ u_charged u -> exists moved new, pop2 sn = moved ++ new /\
      Forall2 (fun p p' => let k := loc (comp (px p) 0) in
          comp (pu p') 0 = comp (pu p) 0 + u_qom u sn * u_dt u * (f * enclosed X (u_charge u) (u_names u) pop1 k / (eps * rr X k) + external_part (u_Eext u (rs_count w2)) (u_ext u sn) p 0) /\
          comp (px p') 0 = comp (px p) 0 + comp (pu p') 0 * u_dt u /\ pw p' = pw p /\ puid p' = puid p)
        (List.filter (stays u a b (rs_count w2) (rs_negE w1) sn) (pop1 sn)) moved /\ length new = emitted u sn (rs_count w2).
Proof.
  intros Hcalls HF HS1 HS2. destruct (run_step st32 ks q0 s q w pop Hcalls HF HS1) as (w1 & s1 & pop1 & E1 & HF1 & HG & _ & _ & ks' & q0' & q' & Hcalls').
  destruct (run_step st32 ks' q0' s1 q' w1 pop1 Hcalls' HF1 (HS2 w1 s1 pop1 E1 HF1)) as (w2 & s2 & pop2 & E2 & HF2 & _ & Hmoved & _).
  exists w1, s1, pop1, w2, s2, pop2. split; [exact E1|]. split; [exact E2|]. split; [exact HF1|]. split; [exact HF2|].
  intros sn Hsn. destruct (Hmoved sn Hsn) as (moved & new & Hp & HM & Hnw). exists moved, new. split; [exact Hp|]. split; [|exact Hnw].
  eapply Forall2_in_impl; [exact HM|]. intros p p' Hin [L1 L2 L3 L4]. apply filter_In in Hin as [Hin _]. apply elem_of_list_In in Hin.
  destruct (ft_line _ _ _ _ _ HF1 sn p Hin) as (x & v & Hx & _ & HH & _). set (k := loc (comp (px p) 0)).
  assert (Hk : (S k < length X)%nat).
  { apply Hloc. rewrite Hx. cbn [nth]. pose proof (holds_between X (pcell p) x _ _ (lr_incr _ _ _ _ _ _ _ HR) HH (lr_a _ _ _ _ _ _ _ HR) (lr_b _ _ _ _ _ _ _ HR)) as Hab.
    pose proof (lr_a _ _ _ _ _ _ _ HR) as Ea. pose proof (lr_b _ _ _ _ _ _ _ HR) as Eb. rewrite head_lookup in Ea. rewrite last_lookup in Eb. unfold at_.
    rewrite (nth_lookup_Some _ _ 0 _ Ea). replace (length X - 1)%nat with (pred (length X)) by lia. rewrite (nth_lookup_Some _ _ 0 _ Eb). exact Hab. }
  pose proof (HG p Hk) as Hg. fold k in Hg.
  assert (Hpos : 0 < eps * rr X k) by (apply Rmult_lt_0_compat; [exact He|apply rr_pos; assumption]).
  split; [|split; [|split; assumption]].
  - rewrite L2. cbn [nth]. unfold new_velocity. f_equal. f_equal. f_equal. destruct (lr_apply _ _ _ _ _ _ _ HR sn 0%Z Hsn) as [Hap _].
    change (u_solved (with_solve u (fun _ => Ok (fun _ => [0]))) sn) with (u_solved u sn) in Hap.
    assert (Hs : solved_part (Some (rs_negE w1)) (u_solved u sn) p 0 = - comp (rs_negE w1 p) 0) by (unfold solved_part; destruct (u_solved u sn) as [[]|]; [reflexivity|destruct (Hap eq_refl)|reflexivity]).
    rewrite Hs. rewrite <- Hg. set (g := comp (rs_negE w1 p) 0). set (c := eps * rr X k) in *. clearbody c g. field. lra.
  - rewrite L1, L2. cbn [nth]. reflexivity.
Qed.

(** The field that a step leaves is given by the particles that are stored after it, however the loop got there. *)
Lemma step_gauss st32 ks q0 s q w pop w1 s1 pop1 : do_calls exact form load bcs lu project true ks (s0, q0) = Ok (s, q) -> Fit u L X w pop -> Served L u a b w pop ->
  stepf st32 u (w, s) = Ok (w1, s1) -> Fit u L X w1 pop1 -> Gauss w1 pop1.
Proof.
  intros Hcalls HF HS E HF1 p k Hk. destruct (run_step st32 ks q0 s q w pop Hcalls HF HS) as (w' & s' & pop' & E' & HF' & HG & _).
  rewrite E in E'. injection E' as <- <-. pose proof (HG p Hk) as G. cbv zeta in G. fold k in G. rewrite G. f_equal. unfold enclosed. f_equal. apply map_ext. intros sn.
  rewrite (stores_inj _ _ _ (proj2 (ft_stored _ _ _ _ _ HF1 sn)) (proj2 (ft_stored _ _ _ _ _ HF' sn))). reflexivity.
Qed.
(** Weight and radius of the particles within the outer radius of cell [k]. *)
Definition inner (k : nat) (l : list particle) : list (R * R) :=
  map (fun p => (pw p, comp (px p) 0)) (List.filter (fun p => Rltb (comp (px p) 0) (at_ X (S k))) l).
Lemma share_inner k l : (S k < length X)%nat -> Rsum (map (fun p => pw p * share X k (comp (px p) 0)) l) = Rsum (map (fun wx : R * R => fst wx * share X k (snd wx)) (inner k l)).
Proof using HX.
  intros Hk. unfold inner. rewrite map_map. pose proof (HX k Hk) as Hlt. induction l as [|p l IH]; [reflexivity|]. cbn [map List.filter]. rewrite Rsum_cons, IH.
  destruct (Rltb (comp (px p) 0) (at_ X (S k))) eqn:E.
  - cbn [map]. rewrite Rsum_cons. reflexivity.
  - apply Rltb_false in E. assert (Hs : share X k (comp (px p) 0) = 0).
    { unfold share. rewrite Rmax_left; [apply Rmin_right; lra|]. apply Rmult_le_reg_r with (at_ X (S k) - at_ X k); [lra|]. unfold Rdiv. rewrite Rmult_assoc, Rinv_l by lra. lra. }
    rewrite Hs. ring.
Qed.

(** C67: the field in a cell does not depend on the particles beyond its outer radius: if two runs have, after any step of either, the same weights and radii within it for each
    species, in whatever order, the field in the cell is the same, although the particles outside, the earlier use of the solvers and the number of steps may differ. *)
Theorem C67_shell st32 ks q0 s q w pop w1 s1 pop1 ks' q0' s' q' w' pop' w1' s1' pop1' :
  do_calls exact form load bcs lu project true ks (s0, q0) = Ok (s, q) -> Fit u L X w pop -> Served L u a b w pop -> stepf st32 u (w, s) = Ok (w1, s1) -> Fit u L X w1 pop1 ->
  do_calls exact form load bcs lu project true ks' (s0, q0') = Ok (s', q') -> Fit u L X w' pop' -> Served L u a b w' pop' -> stepf st32 u (w', s') = Ok (w1', s1') -> Fit u L X w1' pop1' ->
  forall p p', let k := loc (comp (px p) 0) in loc (comp (px p') 0) = k -> (S k < length X)%nat ->
    (forall sn, sn ∈ u_names u -> inner k (pop1 sn) ≡ₚ inner k (pop1' sn)) -> comp (rs_negE w1 p) 0 = comp (rs_negE w1' p') 0.
Proof.
  intros A1 A2 A3 A4 A5 B1 B2 B3 B4 B5 p p' k Hk' Hk Hin.
  pose proof (step_gauss st32 ks q0 s q w pop w1 s1 pop1 A1 A2 A3 A4 A5 p Hk) as G. pose proof (step_gauss st32 ks' q0' s' q' w' pop' w1' s1' pop1' B1 B2 B3 B4 B5 p') as G'. cbv zeta in G, G'.
  rewrite Hk' in G'. specialize (G' Hk). fold k in G.
  assert (He' : enclosed X (u_charge u) (u_names u) pop1 k = enclosed X (u_charge u) (u_names u) pop1' k).
  { unfold enclosed. f_equal. apply map_ext_in. intros sn Hsn. f_equal. rewrite !share_inner by exact Hk. apply Rsum_perm, fmap_Permutation, Hin. apply elem_of_list_In. exact Hsn. }
  assert (Hpos : 0 < eps * rr X k) by (apply Rmult_lt_0_compat; [exact He|apply rr_pos; assumption]).
  rewrite He', <- G' in G. apply Rmult_eq_reg_l in G; lra.
Qed.

(** C67: beyond all particles the field is that of their total charge, and within all of them there is none. *)
Theorem C67_far st32 ks q0 s q w pop w1 s1 pop1 : do_calls exact form load bcs lu project true ks (s0, q0) = Ok (s, q) -> Fit u L X w pop -> Served L u a b w pop ->
  stepf st32 u (w, s) = Ok (w1, s1) -> Fit u L X w1 pop1 -> forall p, let k := loc (comp (px p) 0) in (S k < length X)%nat ->
    ((forall sn r, sn ∈ u_names u -> r ∈ pop1 sn -> comp (px r) 0 <= at_ X k) ->
       eps * rr X k * - comp (rs_negE w1 p) 0 = f * Rsum (map (fun sn => u_charge u sn * Rsum (map pw (pop1 sn))) (u_names u))) /\
    ((forall sn r, sn ∈ u_names u -> r ∈ pop1 sn -> at_ X (S k) <= comp (px r) 0) -> comp (rs_negE w1 p) 0 = 0).
Proof.
  intros A1 A2 A3 A4 A5 p k Hk. pose proof (step_gauss st32 ks q0 s q w pop w1 s1 pop1 A1 A2 A3 A4 A5 p Hk) as G. cbv zeta in G. fold k in G. pose proof (HX k Hk) as Hlt. split; intros H.
  - rewrite G. f_equal. unfold enclosed. f_equal. apply map_ext_in. intros sn Hsn. f_equal. f_equal. apply map_ext_in. intros r Hr. apply elem_of_list_In in Hsn, Hr. specialize (H sn r Hsn Hr).
    assert (Hs : share X k (comp (px r) 0) = 1); [|rewrite Hs; ring].
    assert (1 <= (at_ X (S k) - comp (px r) 0) / (at_ X (S k) - at_ X k)).
    { apply Rmult_le_reg_r with (at_ X (S k) - at_ X k); [lra|]. unfold Rdiv. rewrite Rmult_assoc, Rinv_l by lra. lra. }
    unfold share. rewrite Rmax_right by lra. apply Rmin_left. assumption.
  - assert (Hz : enclosed X (u_charge u) (u_names u) pop1 k = 0).
    { unfold enclosed. transitivity (Rsum (map (fun _ : string => 0) (u_names u))); [|apply Rsum_map_0]. f_equal. apply map_ext_in. intros sn Hsn. rewrite share_inner by exact Hk.
      unfold inner. replace (List.filter (fun p => Rltb (comp (px p) 0) (at_ X (S k))) (pop1 sn)) with (@nil particle); [cbn; ring|]. symmetry.
      apply elem_of_list_In in Hsn. assert (Hall : forall r, In r (pop1 sn) -> Rltb (comp (px r) 0) (at_ X (S k)) = false).
      { intros r Hr. apply elem_of_list_In in Hr. apply Rltb_false. exact (H sn r Hsn Hr). }
      clear -Hall. induction (pop1 sn) as [|r l IH]; [reflexivity|]. cbn [List.filter]. rewrite (Hall r) by (left; reflexivity). apply IH. intros r' Hr'. apply Hall. right. exact Hr'. }
    assert (Hpos : 0 < eps * rr X k) by (apply Rmult_lt_0_compat; [exact He|apply rr_pos; assumption]).
    rewrite Hz, Rmult_0_r in G. apply Rmult_integral in G as [G|G]; lra.
Qed.
End Radial.

(** ** Examples *)

(** The radii 0, 1 and 3 of SolveProps.v (inner end unset, outer potential 7, [eps] = 3), both ends absorb, [f] = 1/20, time step 1.  Two particles of charge and mass one rest at 1/2 (weight 8) and 2
    (weight 4). *)
Definition pa : particle := Particle [1/2] [1/2] [0] 8 0 0 1 0.
Definition pb : particle := Particle [2] [2] [0] 4 0 1 2 0.
Definition p_loc (x : R) : nat := if Rltb x 1 then 0%nat else 1%nat.
Definition p_setup (m : mesh) : setup :=
  Setup ["e"] ["e"] [] (fun _ => 1) (fun _ => 1) (fun _ => 1) 1 1 10 m (fun _ => eg_bcs) 1 (fun _ => None) (fun _ => None) (fun _ => Some true) (fun _ => Some true)
    false 1 1 (fun _ => [0]) 1 None 1 2 None [] (fun _ => 0%Z) (fun _ => None) pa 2 1 eg_vol 3 (p1_line dX dback) eg_C
    (fun _ => Ok (fun _ => [0])) 1 [].
Notation p_eval := (fun (E : list R) (p : particle) => [at_ E (e_de (p_loc (comp (px p) 0)))]).
Notation p_step := (pic_step exact exact e_form e_bcs e_lu e_project true (Some (1/20)) p_eval).
Notation p_loop := (pic_loop exact exact e_form e_bcs e_lu e_project true (Some (1/20)) p_eval).
Definition p_w0 : runst := eg_run_state 2 0 [pa; pb].

Lemma p_increasing : Increasing dX.
Proof. intros [|[|[|i]]] x y Hx Hy; cbn in Hx, Hy; try discriminate; injection Hx as <-; injection Hy as <-; lra. Qed.
Lemma p_LineRun : exists m, LineRun (with_solve (p_setup m) (fun _ => Ok (fun _ => [0]))) dX eg_mk 0 3 (fun c => (1 - c)%nat) (fun c => if (c =? 0)%nat then 2 else 4).
Proof.
  destruct (interval_mesh_ok dX eg_mk p_increasing) as (m & Em & _). exists m.
  split; try reflexivity; cbn [p_setup with_solve u_mesh u_ncell u_names u_charged u_maxc u_bcs u_Eext u_solved u_ext u_fD u_fC u_ndof u_vol u_solve u_pdim u_rnd u_sources u_dE u_fuel default].
  - exact p_increasing.
  - exact Em.
  - intros f Hf. unfold eg_mk. replace (f =? 0)%Z with false by lia. replace (f =? 2)%Z with false by lia. reflexivity.
  - by split.
  - intros sn _. by split.
  - intros sn v bc c p mf f n q c'. unfold eg_bcs. destruct (v =? 1)%Z; [|discriminate]. intros [= <-]. unfold absorb_bc. intros [= <- <-]. split; [|reflexivity].
    unfold same_identity. split; [reflexivity|]. split; [reflexivity|]. exact (absorb_traj p).
  - lia.
  - lia.
  - apply NoDup_singleton.
  - apply NoDup_singleton.
  - intros sn Hsn. exact Hsn.
  - intros sn k _. split; [discriminate|done].
  - exact (p1_dofs dX dback dX_numbering).
  - exact eg_CellSpace.
  - intros [|[|c]] Hc; [reflexivity|reflexivity|lia].
  - intros rho _. eexists. split; [reflexivity|]. done.
  - split; [discriminate|]. split; [reflexivity|]. intros name Hn. inversion Hn.
  - intros dom q Hq. inversion Hq.
Qed.
Lemma p_fit m : Fit (p_setup m) 2 dX p_w0 (eg_pop [pa; pb]).
Proof.
  assert (HS : Reachable 2 (snd (run py_step (sap_init 2) (map Push [pa; pb]))) /\ Stores (snd (run py_step (sap_init 2) (map Push [pa; pb]))) [pa; pb]).
  { split.
    - apply (run_reach 2 (map Push [pa; pb]) (sap_init 2) [OPos 0 0; OPos 1 1]); [constructor|]. cbv -[IZR Rdiv]. reflexivity.
    - split; [cbv -[IZR Rdiv]; reflexivity|]. intros [|[|k]] x Hk; cbn in Hk; try discriminate Hk; injection Hk as <-; cbv -[IZR Rdiv]; reflexivity. }
  split; unfold p_w0; cbn [eg_run_state rs_src ss_saps ss_traj rs_hist rs_negE]; unfold eg_pop.
  - intros sn. destruct (String.eqb sn "e"); [exact HS|]. split; [constructor|]. split; [reflexivity|]. intros k x Hk. discriminate Hk.
  - intros sn p Hp. destruct (String.eqb sn "e"); [|inversion Hp]. apply elem_of_cons in Hp as [->|Hp%elem_of_list_singleton].
    + exists (1/2), 0. split; [reflexivity|]. split; [reflexivity|]. split; [|reflexivity]. exists 0, 1. split; [cbn; lia|]. split; [reflexivity|]. split; [reflexivity|lra].
    + subst p. exists 2, 0. split; [reflexivity|]. split; [reflexivity|]. split; [|reflexivity]. exists 1, 3. split; [cbn; lia|]. split; [reflexivity|]. split; [reflexivity|lra].
  - intros sn Hnil. destruct (String.eqb sn "e"); [discriminate Hnil|]. split; [apply np_new|by apply C47_new_accepts].
  - reflexivity.
  - by left.
  - exact I.
  - reflexivity.
Qed.
Lemma p_loc_ok x : at_ dX 0 <= x <= at_ dX (length dX - 1) -> (S (p_loc x) < length dX)%nat.
Proof. intros _. unfold p_loc. destruct (Rltb x 1); cbn; lia. Qed.
(** The particle is on the line after the step. *)
Lemma p_stays m step negE p x v : px p = [x] -> pu p = [v] -> 0 <= x + (v + - comp (negE p) 0) <= 3 -> stays (p_setup m) 0 3 step negE "e" p = true.
Proof.
  intros Hx Hv Hb. assert (H : landing (p_setup m) step negE "e" p = x + (v + - comp (negE p) 0)).
  { unfold landing, new_velocity, solved_part, external_part. rewrite Hx, Hv. cbn. lra. }
  unfold stays. rewrite H. by rewrite !(proj2 (Rltb_false _ _)) by lra.
Qed.
(** Two steps. *)
Lemma p_chain ks q0 s q s0 : new_solver e_form e_load e_bcs [0; 0; 0] (Some e_F) = Ok s0 -> do_calls exact e_form e_load e_bcs e_lu e_project true ks (s0, q0) = Ok (s, q) ->
  exists m w1 s1 w2 s2 a1 b1 a2 b2, p_step (p_setup m) (p_w0, s) = Ok (w1, s1) /\ p_step (p_setup m) (w1, s1) = Ok (w2, s2) /\
    Stores (ss_saps (rs_src w1) "e") [a1; b1] /\ Stores (ss_saps (rs_src w2) "e") [a2; b2] /\
    px a1 = [1/2] /\ px b1 = [2] /\ - comp (rs_negE w1 a1) 0 = 1/5 /\ - comp (rs_negE w1 b1) 0 = 1/26 /\
    comp (pu a2) 0 = 1/5 /\ comp (px a2) 0 = 7/10 /\ comp (pu b2) 0 = 1/26 /\ comp (px b2) 0 = 53/26.
Proof.
  intros Hnew Hcalls. destruct p_LineRun as [m HR]. exists m.
  pose proof (run_step dX dback e_de 3 7 (1/20) e_lu p_loc dX_increasing e_x0 e_n2 dX_numbering e_eps e_de_ok (fun b _ => e_solves b)
    p_loc_ok (p_setup m) 2 ltac:(lia) eq_refl eg_mk 0 3 _ _ HR eq_refl eq_refl eq_refl [0; 0; 0] e_F s0 eq_refl Hnew exact) as Hstep.
  destruct (Hstep ks q0 s q p_w0 _ Hcalls (p_fit m)) as (w1 & s1 & pop1 & E1 & HF1 & HG & Hm1 & Hh1 & ks' & q0' & q' & Hcalls').
  { split; [|by split]. intros sn Hsn. apply elem_of_list_singleton in Hsn as ->. right. change (eg_pop [pa; pb] "e") with [pa; pb].
    change (rs_negE p_w0) with (fun _ : particle => [0]). cbn [List.filter].
    rewrite (p_stays m _ _ pa (1/2) 0 eq_refl eq_refl) by (cbn; lra). rewrite (p_stays m _ _ pb 2 0 eq_refl eq_refl) by (cbn; lra). split; [cbn; lia|]. left. reflexivity. }
  destruct (Hm1 "e" ltac:(left)) as (mv & nw & Ep & HLd & Hnw). change (eg_pop [pa; pb] "e") with [pa; pb] in HLd. change (rs_negE p_w0) with (fun _ : particle => [0]) in HLd. cbn [List.filter] in HLd.
  rewrite (p_stays m _ _ pa (1/2) 0 eq_refl eq_refl) in HLd by (cbn; lra). rewrite (p_stays m _ _ pb 2 0 eq_refl eq_refl) in HLd by (cbn; lra).
  change (length nw = 0%nat) in Hnw. apply nil_length_inv in Hnw as ->. rewrite app_nil_r in Ep.
  apply Forall2_cons_inv_l in HLd as (a1 & l1 & [La1 La2 La3 _] & HLd & ->). apply Forall2_cons_inv_l in HLd as (b1 & l2 & [Lb1 Lb2 Lb3 _] & HLd & ->). apply Forall2_nil_inv_l in HLd as ->.
  assert (Ha1 : px a1 = [1/2] /\ pu a1 = [0] /\ pw a1 = 8).
  { rewrite La1, La2, La3. unfold landing, new_velocity, solved_part, external_part. cbn. split; [f_equal; lra|]. split; [f_equal; lra|reflexivity]. }
  assert (Hb1 : px b1 = [2] /\ pu b1 = [0] /\ pw b1 = 4).
  { rewrite Lb1, Lb2, Lb3. unfold landing, new_velocity, solved_part, external_part. cbn. split; [f_equal; lra|]. split; [f_equal; lra|reflexivity]. }
  destruct Ha1 as (Xa & Ua & Wa), Hb1 as (Xb & Ub & Wb).
  assert (S00 : share dX 0 (1/2) = 1/2) by (unfold share, at_, dX; cbn [nth]; rewrite Rmax_right, Rmin_right; lra).
  assert (S01 : share dX 0 2 = 0) by (unfold share, at_, dX; cbn [nth]; rewrite Rmax_left, Rmin_right; lra).
  assert (S10 : share dX 1 (1/2) = 1) by (unfold share, at_, dX; cbn [nth]; rewrite Rmax_right, Rmin_left; lra).
  assert (S11 : share dX 1 2 = 1/2) by (unfold share, at_, dX; cbn [nth]; rewrite Rmax_right, Rmin_right; lra).
  assert (Ea : - comp (rs_negE w1 a1) 0 = 1/5).
  { pose proof (HG a1) as H. rewrite Xa in H. cbn [nth] in H. unfold p_loc in H. rewrite (proj2 (Rltb_true (1/2) 1)) in H by lra. specialize (H ltac:(cbn; lia)).
    unfold enclosed in H. cbn [u_names p_setup map Rsum fold_right u_charge] in H. rewrite Ep in H. cbn [map Rsum fold_right] in H. rewrite Xa, Xb, Wa, Wb in H. cbn [nth] in H. rewrite S00, S01 in H.
    unfold rr, at_, dX in H. cbn [nth] in H. lra. }
  assert (Eb : - comp (rs_negE w1 b1) 0 = 1/26).
  { pose proof (HG b1) as H. rewrite Xb in H. cbn [nth] in H. unfold p_loc in H. rewrite (proj2 (Rltb_false 2 1)) in H by lra. specialize (H ltac:(cbn; lia)).
    unfold enclosed in H. cbn [u_names p_setup map Rsum fold_right u_charge] in H. rewrite Ep in H. cbn [map Rsum fold_right] in H. rewrite Xa, Xb, Wa, Wb in H. cbn [nth] in H. rewrite S10, S11 in H.
    unfold rr, at_, dX in H. cbn [nth] in H. lra. }
  destruct (Hstep ks' q0' s1 q' w1 pop1 Hcalls' HF1) as (w2 & s2 & pop2 & E2 & HF2 & _ & Hm2 & _).
  { split; [|split; [exact I|by rewrite (Hh1 eq_refl)]]. intros sn Hsn. apply elem_of_list_singleton in Hsn as ->. right. rewrite Ep. cbn [List.filter].
    rewrite (p_stays m _ _ a1 (1/2) 0 Xa Ua) by (rewrite Ea; lra). rewrite (p_stays m _ _ b1 2 0 Xb Ub) by (rewrite Eb; lra). split; [cbn; lia|]. left. reflexivity. }
  destruct (Hm2 "e" ltac:(left)) as (mv & nw & Ep2 & HLd & Hnw). rewrite Ep in HLd. cbn [List.filter] in HLd.
  rewrite (p_stays m _ _ a1 (1/2) 0 Xa Ua) in HLd by (rewrite Ea; lra). rewrite (p_stays m _ _ b1 2 0 Xb Ub) in HLd by (rewrite Eb; lra).
  change (length nw = 0%nat) in Hnw. apply nil_length_inv in Hnw as ->. rewrite app_nil_r in Ep2.
  apply Forall2_cons_inv_l in HLd as (a2 & l1 & [Ma1 Ma2 Ma3 _] & HLd & ->). apply Forall2_cons_inv_l in HLd as (b2 & l2 & [Mb1 Mb2 Mb3 _] & HLd & ->). apply Forall2_nil_inv_l in HLd as ->.
  exists w1, s1, w2, s2, a1, b1, a2, b2. split; [exact E1|]. split; [exact E2|].
  split; [rewrite <- Ep; apply (ft_stored _ _ _ _ _ HF1)|]. split; [rewrite <- Ep2; apply (ft_stored _ _ _ _ _ HF2)|].
  split; [exact Xa|]. split; [exact Xb|]. split; [exact Ea|]. split; [exact Eb|].
  rewrite Ma1, Ma2, Mb1, Mb2. unfold landing, new_velocity, solved_part, external_part. rewrite Xa, Xb, Ua, Ub. cbn -[IZR] in *. repeat split; lra.
Qed.

(** A solver that was used for another charge before the run. *)
Lemma p_used : exists s0 s q, new_solver e_form e_load e_bcs [0; 0; 0] (Some e_F) = Ok s0 /\
  do_calls exact e_form e_load e_bcs e_lu e_project true [KSolveCharge (Some 2)] (s0, FieldObj [5; 4; 3] None) = Ok (s, q).
Proof.
  destruct e_new as [s0 H0]. exists s0. pose proof (new_inv _ _ _ _ _ _ H0) as (N1 & _ & _ & _). cbn [do_calls]. unfold do_call.
  rewrite (solve_charge exact e_form e_bcs e_lu e_project true s0 (FieldObj [5; 4; 3] None) (Some 2)) by (cbn [fvals]; rewrite N1; reflexivity).
  eexists _, _. split; [exact H0|reflexivity].
Qed.
Example C67_refines_example : exists m s0 s w2 s2, s <> s0 /\ p_loop (p_setup m) 2 (p_w0, s) = Ok (w2, s2) /\
  time_loop exact exact (with_solve (p_setup m) (solver_field exact e_form e_bcs e_lu e_project true (Some (1/20)) p_eval s0)) 2 p_w0 = Ok w2.
Proof.
  destruct p_used as (s0 & s & q & Hnew & Hcalls). destruct (p_chain _ _ _ _ _ Hnew Hcalls) as (m & w1 & s1 & w2 & s2 & a1 & b1 & a2 & b2 & E1 & E2 & _).
  exists m, s0, s, w2, s2. split; [|split].
  - pose proof (new_inv _ _ _ _ _ _ Hnew) as (N1 & N2 & N3 & N4). intros ->. cbn [do_calls] in Hcalls. unfold do_call in Hcalls.
    destruct (e_gauss s0 [] (FieldObj [] None) s0 _ (FieldObj [5; 4; 3] None) 2 Hnew eq_refl eq_refl) as (s' & c & E & S' & HE & Hc & _ & G & _).
    rewrite S' in Hcalls. injection Hcalls as -> _. unfold felt in HE. rewrite N4 in HE. injection HE as <-. rewrite Hc in G. cbn in G. lra.
  - cbn [pic_loop]. rewrite E1, E2. reflexivity.
  - rewrite <- (C67_refines exact exact e_form e_load e_bcs e_lu e_project true (Some (1/20)) p_eval (p_setup m) _ _ s0 _ _ s q 2 p_w0 Hnew Hcalls). cbn [pic_loop]. rewrite E1, E2. reflexivity.
Qed.
(** After a step the field in the inner cell is that of half the inner particle's charge, and in the outer cell that of the inner one's charge and half the outer one's. *)
Example C67_gauss_example : exists m s0 w1 s1 a b, new_solver e_form e_load e_bcs [0; 0; 0] (Some e_F) = Ok s0 /\ p_step (p_setup m) (p_w0, s0) = Ok (w1, s1) /\
  Stores (ss_saps (rs_src w1) "e") [a; b] /\ px a = [1/2] /\ px b = [2] /\
  3 * (1/3) * - comp (rs_negE w1 a) 0 = 1/20 * (8 * (1/2)) /\ 3 * (13/3) * - comp (rs_negE w1 b) 0 = 1/20 * (8 + 4 * (1/2)).
Proof.
  destruct e_new as [s0 Hnew]. destruct (p_chain [] (FieldObj [] None) s0 _ s0 Hnew eq_refl) as (m & w1 & s1 & w2 & s2 & a1 & b1 & a2 & b2 & E1 & E2 & S1 & S2 & X1 & X2 & F1 & F2 & _).
  exists m, s0, w1, s1, a1, b1. rewrite F1, F2. repeat (split; [assumption|]). split; lra.
Qed.
Example C67_run_example : exists m s0 w2 s2 a b, new_solver e_form e_load e_bcs [0; 0; 0] (Some e_F) = Ok s0 /\ p_loop (p_setup m) 2 (p_w0, s0) = Ok (w2, s2) /\
  Stores (ss_saps (rs_src w2) "e") [a; b].
Proof.
  destruct e_new as [s0 Hnew]. destruct (p_chain [] (FieldObj [] None) s0 _ s0 Hnew eq_refl) as (m & w1 & s1 & w2 & s2 & a1 & b1 & a2 & b2 & E1 & E2 & S1 & S2 & _).
  exists m, s0, w2, s2, a2, b2. split; [exact Hnew|]. split; [|exact S2]. cbn [pic_loop]. rewrite E1, E2. reflexivity.
Qed.
(** In the second step the particles are pushed outwards, to 7/10 and 53/26. *)
Example C67_push_example : exists m s0 w1 s1 w2 s2 a b, new_solver e_form e_load e_bcs [0; 0; 0] (Some e_F) = Ok s0 /\
  p_step (p_setup m) (p_w0, s0) = Ok (w1, s1) /\ p_step (p_setup m) (w1, s1) = Ok (w2, s2) /\ Stores (ss_saps (rs_src w2) "e") [a; b] /\
  comp (pu a) 0 = 1/5 /\ comp (px a) 0 = 7/10 /\ comp (pu b) 0 = 1/26 /\ comp (px b) 0 = 53/26.
Proof.
  destruct e_new as [s0 Hnew]. destruct (p_chain [] (FieldObj [] None) s0 _ s0 Hnew eq_refl) as (m & w1 & s1 & w2 & s2 & a1 & b1 & a2 & b2 & E1 & E2 & S1 & S2 & _ & _ & _ & _ & H).
  exists m, s0, w1, s1, w2, s2, a2, b2. repeat (split; [assumption|]). exact H.
Qed.

(** Particles at rest in a species that was stored anew stay where they are in the first step. *)
Definition p_state (l : list particle) : runst := eg_run_state 2 0 l.
Definition p_kept (l : list particle) : Prop := Reachable 2 (snd (run py_step (sap_init 2) (map Push l))) /\ Stores (snd (run py_step (sap_init 2) (map Push l))) l.
Definition p_rest (p : particle) : Prop := exists x, px p = [x] /\ pu p = [0] /\ LineMeshProps.Holds dX (pcell p) x /\ is_deleted p = false /\ 0 <= x <= 3.
Lemma p_fit_list m l : l <> [] -> p_kept l -> Forall p_rest l -> Fit (p_setup m) 2 dX (p_state l) (eg_pop l).
Proof.
  intros Hne HS HR. split; unfold p_state; cbn [eg_run_state rs_src ss_saps ss_traj rs_hist rs_negE]; unfold eg_pop.
  - intros sn. destruct (String.eqb sn "e"); [exact HS|]. split; [constructor|]. split; [reflexivity|]. intros k x Hk. discriminate Hk.
  - intros sn p Hp. destruct (String.eqb sn "e"); [|inversion Hp]. apply elem_of_list_In in Hp. rewrite List.Forall_forall in HR. destruct (HR p Hp) as (x & H1 & H2 & H3 & H4 & _). exists x, 0. done.
  - intros sn Hnil. destruct (String.eqb sn "e"); [destruct (Hne Hnil)|]. split; [apply np_new|by apply C47_new_accepts].
  - reflexivity.
  - by left.
  - exact I.
  - reflexivity.
Qed.
Lemma p_served m l : l <> [] -> Forall p_rest l -> Served 2 (p_setup m) 0 3 (p_state l) (eg_pop l).
Proof.
  intros Hne HR. split; [|by split]. intros sn Hsn. apply elem_of_list_singleton in Hsn as ->. right. change (eg_pop l "e") with l. change (rs_negE (p_state l)) with (fun _ : particle => [0]).
  assert (E : List.filter (stays (p_setup m) 0 3 (rs_count (p_state l) + 1) (fun _ => [0]) "e") l = l).
  { clear Hne. induction HR as [|p l (x & H1 & H2 & _ & _ & H3) _ IH]; [reflexivity|]. cbn [List.filter]. rewrite (p_stays m _ _ p x 0 H1 H2) by (cbn; lra). f_equal. exact IH. }
  change (rs_count (p_state l)) with 0%Z in *. rewrite E. split; [destruct l; [destruct (Hne eq_refl)|cbn; lia]|]. left. reflexivity.
Qed.
Lemma p_first m s0 l : LineRun (with_solve (p_setup m) (fun _ => Ok (fun _ => [0]))) dX eg_mk 0 3 (fun c => (1 - c)%nat) (fun c => if (c =? 0)%nat then 2 else 4) ->
  new_solver e_form e_load e_bcs [0; 0; 0] (Some e_F) = Ok s0 -> l <> [] -> p_kept l -> Forall p_rest l ->
  exists w1 s1 pop1, p_step (p_setup m) (p_state l, s0) = Ok (w1, s1) /\ Fit (p_setup m) 2 dX w1 pop1 /\ Forall2 (fun p q => px q = px p /\ pw q = pw p) l (pop1 "e").
Proof.
  intros HR Hnew Hne HS Hl.
  destruct (run_step dX dback e_de 3 7 (1/20) e_lu p_loc dX_increasing e_x0 e_n2 dX_numbering e_eps e_de_ok (fun b _ => e_solves b)
    p_loc_ok (p_setup m) 2 ltac:(lia) eq_refl eg_mk 0 3 _ _ HR eq_refl eq_refl eq_refl [0; 0; 0] e_F s0 eq_refl Hnew exact [] (FieldObj [] None) s0 _ (p_state l) _ eq_refl
    (p_fit_list m l Hne HS Hl) (p_served m l Hne Hl)) as (w1 & s1 & pop1 & E1 & HF1 & _ & Hm & _).
  exists w1, s1, pop1. split; [exact E1|]. split; [exact HF1|]. destruct (Hm "e" ltac:(left)) as (mv & nw & Ep & HLd & Hnw).
  change (length nw = 0%nat) in Hnw. apply nil_length_inv in Hnw as ->. rewrite app_nil_r in Ep. rewrite Ep.
  change (eg_pop l "e") with l in HLd. change (rs_negE (p_state l)) with (fun _ : particle => [0]) in HLd.
  clear - HLd Hl. revert mv HLd. induction Hl as [|p l (x & H1 & H2 & _ & _ & H3) _ IH]; intros mv HLd; [apply Forall2_nil_inv_l in HLd as ->; constructor|].
  cbn [List.filter] in HLd. rewrite (p_stays m _ _ p x 0 H1 H2) in HLd by (cbn; lra). apply Forall2_cons_inv_l in HLd as (q & mv' & [L1 L2 L3 _] & HLd & ->). constructor; [|exact (IH mv' HLd)].
  split; [|exact L3]. rewrite L1, H1. unfold landing, new_velocity, solved_part, external_part. rewrite H1, H2. cbn. f_equal. lra.
Qed.
Lemma p_rest_a : p_rest pa.
Proof. exists (1/2). split; [reflexivity|]. split; [reflexivity|]. split; [|split; [reflexivity|lra]]. exists 0, 1. split; [cbn; lia|]. split; [reflexivity|]. split; [reflexivity|lra]. Qed.
Definition pc (y : R) : particle := Particle [2] [2] [0] y 0 1 2 0.
Lemma p_rest_c y : p_rest (pc y).
Proof. exists 2. split; [reflexivity|]. split; [reflexivity|]. split; [|split; [reflexivity|lra]]. exists 1, 3. split; [cbn; lia|]. split; [reflexivity|]. split; [reflexivity|lra]. Qed.
Lemma p_kept_two y : p_kept [pa; pc y].
Proof.
  split.
  - apply (run_reach 2 (map Push [pa; pc y]) (sap_init 2) [OPos 0 0; OPos 1 1]); [constructor|]. cbv -[IZR Rdiv]. reflexivity.
  - split; [cbv -[IZR Rdiv]; reflexivity|]. intros [|[|k]] x Hk; cbn in Hk; try discriminate Hk; injection Hk as <-; cbv -[IZR Rdiv]; reflexivity.
Qed.
Lemma p_kept_one p : p_kept [p].
Proof.
  split.
  - apply (run_reach 2 (map Push [p]) (sap_init 2) [OPos 0 0]); [constructor|]. cbv -[IZR Rdiv]. reflexivity.
  - split; [cbv -[IZR Rdiv]; reflexivity|]. intros [|k] x Hk; cbn in Hk; try discriminate Hk; injection Hk as <-; cbv -[IZR Rdiv]; reflexivity.
Qed.
(** Weights 4 and 100 of the outer particle: the same field in the inner cell. *)
Example C67_shell_example : exists m s0 w1 s1 w2 s2, new_solver e_form e_load e_bcs [0; 0; 0] (Some e_F) = Ok s0 /\
  p_step (p_setup m) (p_state [pa; pc 4], s0) = Ok (w1, s1) /\ p_step (p_setup m) (p_state [pa; pc 100], s0) = Ok (w2, s2) /\ comp (rs_negE w1 pa) 0 = comp (rs_negE w2 pa) 0.
Proof.
  destruct p_LineRun as [m HR]. destruct e_new as [s0 Hnew].
  assert (Hl : forall y, Forall p_rest [pa; pc y]) by (intros y; repeat constructor; [exact p_rest_a|apply p_rest_c]).
  assert (Hn : forall y, [pa; pc y] <> []) by discriminate.
  destruct (p_first m s0 _ HR Hnew (Hn 4) (p_kept_two 4) (Hl 4)) as (w1 & s1 & pop1 & E1 & F1 & P1).
  destruct (p_first m s0 _ HR Hnew (Hn 100) (p_kept_two 100) (Hl 100)) as (w2 & s2 & pop2 & E2 & F2 & P2).
  exists m, s0, w1, s1, w2, s2. split; [exact Hnew|]. split; [exact E1|]. split; [exact E2|].
  assert (Hi : forall pop y, Forall2 (fun p q => px q = px p /\ pw q = pw p) [pa; pc y] (pop "e") -> inner dX 0 (pop "e") = [(8, 1/2)]).
  { intros pop y P. apply Forall2_cons_inv_l in P as (qa & l1 & [A1 A2] & P & ->). apply Forall2_cons_inv_l in P as (qb & l2 & [B1 B2] & P & ->). apply Forall2_nil_inv_l in P as ->.
    unfold inner, at_, dX. cbn [List.filter nth]. rewrite A1, B1. cbn [px pa pc nth]. rewrite (proj2 (Rltb_true (1/2) 1)), (proj2 (Rltb_false 2 1)) by lra. cbn [map]. rewrite A1, A2. reflexivity. }
  assert (Hk : p_loc (comp (px pa) 0) = 0%nat) by (unfold p_loc; cbn; rewrite (proj2 (Rltb_true (1/2) 1)) by lra; reflexivity).
  pose proof (C67_shell dX dback e_de 3 7 (1/20) e_lu p_loc dX_increasing e_x0 e_n2 dX_numbering e_eps e_de_ok (fun b _ => e_solves b)
    p_loc_ok (p_setup m) 2 ltac:(lia) eq_refl eg_mk 0 3 _ _ HR eq_refl eq_refl eq_refl [0; 0; 0] e_F s0 eq_refl Hnew exact [] (FieldObj [] None) s0 _ (p_state [pa; pc 4]) _ w1 s1 pop1
    [] (FieldObj [] None) s0 _ (p_state [pa; pc 100]) _ w2 s2 pop2 eq_refl (p_fit_list m _ (Hn 4) (p_kept_two 4) (Hl 4)) (p_served m _ (Hn 4) (Hl 4)) E1 F1
    eq_refl (p_fit_list m _ (Hn 100) (p_kept_two 100) (Hl 100)) (p_served m _ (Hn 100) (Hl 100)) E2 F2 pa pa) as H. cbv zeta in H. rewrite Hk in H. apply H; [reflexivity|cbn; lia|].
  intros sn Hsn. apply elem_of_list_singleton in Hsn as ->. rewrite (Hi pop1 4 P1), (Hi pop2 100 P2). reflexivity.
Qed.
(** The field at 2 of a particle at 1/2 is that of its whole charge; the field at 1/2 of a particle at 2 is zero. *)
Example C67_far_example : exists m s0 w1 s1 w2 s2, new_solver e_form e_load e_bcs [0; 0; 0] (Some e_F) = Ok s0 /\
  p_step (p_setup m) (p_state [pa], s0) = Ok (w1, s1) /\ p_step (p_setup m) (p_state [pc 4], s0) = Ok (w2, s2) /\
  3 * (13/3) * - comp (rs_negE w1 (pc 4)) 0 = 1/20 * 8 /\ comp (rs_negE w2 pa) 0 = 0.
Proof.
  destruct p_LineRun as [m HR]. destruct e_new as [s0 Hnew].
  assert (Ha : Forall p_rest [pa]) by (repeat constructor; exact p_rest_a). assert (Hc : Forall p_rest [pc 4]) by (repeat constructor; apply p_rest_c).
  assert (Hn : forall p : particle, [p] <> []) by discriminate.
  destruct (p_first m s0 _ HR Hnew (Hn _) (p_kept_one _) Ha) as (w1 & s1 & pop1 & E1 & F1 & P1). destruct (p_first m s0 _ HR Hnew (Hn _) (p_kept_one _) Hc) as (w2 & s2 & pop2 & E2 & F2 & P2).
  exists m, s0, w1, s1, w2, s2. split; [exact Hnew|]. split; [exact E1|]. split; [exact E2|].
  pose proof (fun l H w1 s1 pop1 => C67_far dX dback e_de 3 7 (1/20) e_lu p_loc dX_increasing e_x0 e_n2 dX_numbering e_eps e_de_ok (fun b _ => e_solves b)
    p_loc_ok (p_setup m) 2 ltac:(lia) eq_refl eg_mk 0 3 _ _ HR eq_refl eq_refl eq_refl [0; 0; 0] e_F s0 eq_refl Hnew exact [] (FieldObj [] None) s0 _ (p_state [l]) _ w1 s1 pop1 eq_refl
    (p_fit_list m _ (Hn l) (p_kept_one l) H) (p_served m _ (Hn l) H)) as Hf.
  apply Forall2_cons_inv_l in P1 as (qa & l1 & [A1 A2] & P1 & Ep1). apply Forall2_nil_inv_l in P1 as ->. apply Forall2_cons_inv_l in P2 as (qb & l2 & [B1 B2] & P2 & Ep2). apply Forall2_nil_inv_l in P2 as ->.
  split.
  - destruct (Hf pa Ha w1 s1 pop1 E1 F1 (pc 4)) as [H _].
    + unfold p_loc; cbn; destruct (Rltb 2 1); lia.
    + assert (Hk : p_loc (comp (px (pc 4)) 0) = 1%nat) by (unfold p_loc; cbn; rewrite (proj2 (Rltb_false 2 1)) by lra; reflexivity). rewrite Hk in H.
      cbn [u_names p_setup map u_charge] in H. rewrite Ep1 in H. cbn [map Rsum fold_right] in H. rewrite A2 in H. unfold rr, at_, dX in H. cbn [nth pw pa] in H.
      specialize (fun G => H G). assert (G : forall sn r, sn ∈ ["e"] -> r ∈ pop1 sn -> comp (px r) 0 <= 1).
      { intros sn r Hsn Hr. apply elem_of_list_singleton in Hsn as ->. rewrite Ep1 in Hr. apply elem_of_list_singleton in Hr as ->. rewrite A1. cbn. lra. }
      specialize (H G). lra.
  - destruct (Hf (pc 4) Hc w2 s2 pop2 E2 F2 pa) as [_ H].
    + unfold p_loc; cbn; destruct (Rltb (1/2) 1); lia.
    + apply H. assert (Hk : p_loc (comp (px pa) 0) = 0%nat) by (unfold p_loc; cbn; rewrite (proj2 (Rltb_true (1/2) 1)) by lra; reflexivity). rewrite Hk.
      intros sn r Hsn Hr. apply elem_of_list_singleton in Hsn as ->. rewrite Ep2 in Hr. apply elem_of_list_singleton in Hr as ->. rewrite B1. unfold at_, dX. cbn. lra.
Qed.

Print Assumptions C67_refines.
Print Assumptions C67_gauss.
Print Assumptions C67_run.
Print Assumptions C67_push.
Print Assumptions C67_shell.
Print Assumptions C67_far.
