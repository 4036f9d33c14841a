(** C57: whole programs on a rectangle with absorbing sides do not fail. *)
From Coq Require Import String.
From Coq Require Cantor.
From stdpp Require Import strings numbers list list_numbers.
From Verif Require Import SapModel MoverModel SapProofs SapSpec SapRefine StorageProps.
From Verif Require Import Vec VecProofs Rounding BcModel TrackModel TrackGeomProofs TrajModel TrajProofs TrajProps DiagModel DiagProofs DumpProps SumProps HistoryProps.
From Verif Require Import AcceptProps DensityModel DensityProps SourceModel SourceProps UidProps RunModel RunProps FieldProps RunTotalProps MainProps MainTotalProps.
From Verif Require Import Geometry Conforming InsideModel InsideProps TriMeshModel TriMeshProps RectMeshProofs RectMeshProps RectFillProps RankProps RectTrackProofs RectTrackProps.
From Verif Require Import DomainRunProofs.
Local Open Scope R_scope.

(** The cell [c] of the mesh contains the point [x]. *)
Definition RectAt (m : mesh) (c : Z) (x : vec) : Prop := length x = 2%nat /\ exists cr, cells m c = Some cr /\ InCell 2 cr x.
(** The point is in the rectangle. *)
Definition in_rect (x0 x1 y0 y1 : R) (x : vec) : bool :=
  negb (Rltb (co x 0) x0) && negb (Rltb x1 (co x 0)) && (negb (Rltb (co x 1) y0) && negb (Rltb y1 (co x 1))).

(** A run on the mesh of the rectangle from (x0, y0) to (x1, y1) whose four sides absorb the charged particles.  The limit of facet crossings is
    large enough (see C56). *)
Record RectRun (u : setup) (num : nat * nat -> nat) (nx ny : nat) (x0 x1 y0 y1 : R) (dg : option diagonal) (ix0 ix1 iy0 iy1 : Z) (d : nat -> nat) (vl : nat -> R) : Prop := {
  rr_cells : (1 <= nx)%nat /\ (1 <= ny)%nat;
  rr_sides : x0 < x1 /\ y0 < y1;
  rr_num : Numbering num (rect_tris nx ny (default RightDiag dg));
  rr_mesh : xyz_rect_mesh num nx ny x0 x1 y0 y1 dg ix0 ix1 iy0 iy1 = Ok (u_mesh u);
  rr_ncell : u_ncell u = (nx * ny * match dg with Some Crossed_ => 4 | _ => 2 end)%nat;
  rr_bcs : forall sn v, sn ∈ u_charged u -> v ∈ [ix0; ix1; iy0; iy1] -> v <> 0%Z /\ u_bcs u sn v = Some absorb_bc;
  rr_maxc : (3 * Z.of_nat (nx + ny) - 3 <= u_maxc u)%Z;
  rr_set : Setting u 2 (RectAt (u_mesh u)) d vl
}.

Lemma in_rect_iff x0 x1 y0 y1 x : in_rect x0 x1 y0 y1 x = true <-> InRect x0 x1 y0 y1 x.
Proof.
  unfold in_rect, InRect. rewrite !andb_true_iff, !negb_true_iff, !Rltb_false. lra.
Qed.
Lemma gtris_count nx ny dg : length (rect_gtris nx ny dg) = (nx * ny * match dg with Crossed_ => 4 | _ => 2 end)%nat.
Proof.
  unfold rect_gtris. assert (H : forall l, length (concat (map (fun k => square_tris dg (k mod nx) (k / nx)) l)) = (length l * match dg with Crossed_ => 4 | _ => 2 end)%nat).
  { induction l as [|k l IH]; [reflexivity|]. cbn [map concat length]. rewrite app_length, IH. destruct dg; cbn [square_tris]; try (destruct (is_right _ _ _)); cbn [length]; lia. }
  rewrite H, seq_length. reflexivity.
Qed.

Section RectRuns.
Context (u : setup) (L : Z) (HL : (1 <= L)%Z) (num : nat * nat -> nat) (nx ny : nat) (x0 x1 y0 y1 : R) (dg : option diagonal) (ix0 ix1 iy0 iy1 : Z) (d : nat -> nat) (vl : nat -> R).
Context (HR : RectRun u num nx ny x0 x1 y0 y1 dg ix0 ix1 iy0 iy1 d vl).
Local Notation At := (RectAt (u_mesh u)).
Local Notation inside_rect := (in_rect x0 x1 y0 y1).

Lemma rect_dom : DomRun u 2 At inside_rect d vl.
Proof using HR.
  destruct HR as [[Hnx Hny] [Hx Hy] Hnum E Hn Hb Hmax HS]. split; [| |exact HS].
  - intros c x (Lx & cr & Hc & HI). pose proof (grid_cell nx ny (default RightDiag dg) _ num _ (u_mesh u) c cr (pos_len nx ny x0 x1 y0 y1)
      (rect_oriented nx ny x0 x1 y0 y1 _ Hnx Hny Hx Hy) Hnum E Hc) as (k & ga & gb & gd & _ & _ & _ & -> & Ek & _).
    apply lookup_lt_Some in Ek. rewrite gtris_count in Ek. rewrite Hn. split; [apply Zle_0_nat|]. apply inj_lt. destruct dg as [[]|]; exact Ek.
  - intros sn i time p c Hsn L1 L2 (_ & cr & Hc & HI).
    destruct (C56_rectangle (u_bcs u sn) (fun c _ _ _ => Ok c) Charged num nx ny x0 x1 y0 y1 dg ix0 ix1 iy0 iy1 (u_mesh u) (u_maxc u) i time (u_dt u) p c cr
      Hnx Hny Hx Hy Hnum E (fun v Hv => Hb sn v Hsn Hv)) as (q & c' & Et & S1 & S2 & _ & Rin & Rout); try assumption.
    { intros [sc us] i' p' t'. by exists us. }
    exists q, c'. split; [exact Et|]. split; [exact S1|]. split; [exact S2|]. destruct (inside_rect (px p)) eqn:Ein.
    + apply in_rect_iff in Ein. destruct (Rin Ein) as (B & cr' & Hc' & HI'). split; [exact B|]. split; [exact L1|]. by exists cr'.
    + destruct Rout as (B & _); [|exact B]. intros HI'. apply in_rect_iff in HI'. congruence.
Qed.

(** C57: a step of the program on a rectangle with absorbing sides succeeds, for any field and any velocities, and leads to a state of the same
    kind, if no charged species dies out in it, none is fed whose last particle leaves while the segment length divides the number of those that
    remain, and there is room for the output.  The particles that remain are those whose new position is in the rectangle; they keep their order. *)
Theorem C57_progress st32 w pop : u_L u = L -> DFit u L 2 At w pop -> DServed L u 2 inside_rect w pop ->
  exists w' pop', time_step exact st32 u w = Ok w' /\ DFit u L 2 At w' pop' /\
    (forall sn, if bool_decide (sn ∈ u_charged u)
      then exists moved new, pop' sn = moved ++ new /\
        Forall2 (VLanded u 2 (rs_count w') (rs_negE w) sn) (List.filter (remains u 2 inside_rect (rs_count w') (rs_negE w) sn) (pop sn)) moved /\
        length new = emitted u sn (rs_count w') /\ Forall (FromSource exact u sn (rs_count w')) new
      else pop' sn = pop sn) /\
    match rs_hist w, rs_hist w' with
    | None, None => True
    | Some h, Some h' => length (h_rows h') = length (h_rows h) /\ h_counter h' = (h_counter h + if (rs_count w' mod u_hist_skip u =? 0)%Z then 1 else 0)%Z
    | _, _ => False
    end.
Proof using HR HL. exact (dom_progress u L HL 2 At inside_rect d vl rect_dom st32 w pop). Qed.

(** C57: otherwise it fails, because of the storage and not because of the mesh. *)
Theorem C57_blocked_refuted st32 w pop sn xs z : DFit u L 2 At w pop -> sn ∈ u_charged u -> pop sn = xs ++ [z] ->
  remains u 2 inside_rect (rs_count w + 1) (rs_negE w) sn z = false ->
  (Z.of_nat (length (List.filter (remains u 2 inside_rect (rs_count w + 1) (rs_negE w) sn) (pop sn))) mod L = 0)%Z ->
  (0 < emitted u sn (rs_count w + 1))%nat -> exists e, time_step exact st32 u w = Raise e.
Proof using HR HL. exact (dom_blocked u L HL 2 At inside_rect d vl rect_dom st32 w pop sn xs z). Qed.

(** C57: a run of any length succeeds as long as the states that it meets are served. *)
Theorem C57_run_total st32 n : u_L u = L -> forall w pop, DFit u L 2 At w pop ->
  (forall m w1 pop1, (m < n)%nat -> time_loop exact st32 u m w = Ok w1 -> DFit u L 2 At w1 pop1 -> DServed L u 2 inside_rect w1 pop1) ->
  exists w' pop', time_loop exact st32 u n w = Ok w' /\ DFit u L 2 At w' pop'.
Proof using HR HL. exact (dom_run_total u L HL 2 At inside_rect d vl rect_dom st32 n). Qed.
End RectRuns.

(** C57: the whole program succeeds if its initial particles are in the rectangle, no charged species dies out on the way or is refused its new
    particles, there are never 2^53 particles, and the history has a row for every sample. *)
Theorem C57_completes u num nx ny x0 x1 y0 y1 dg ix0 ix1 iy0 iy1 d vl st32 file ini n np w : (1 <= u_L u)%Z ->
  RectRun u num nx ny x0 x1 y0 y1 dg ix0 ix1 iy0 iy1 d vl -> DStart u 2 np w ->
  u_out_interval u = None /\ file = false \/ u_out_interval u <> None /\ file = true ->
  (forall e, e ∈ default [] ini -> exists sn ps, e = Listed sn ps /\ sn ∈ u_names u /\ Forall (Placed 2 (RectAt (u_mesh u))) ps) ->
  (0 < u_hist_skip u)%Z -> (forall m, np = Some m -> (Z.of_nat n / u_hist_skip u < m)%Z) ->
  (forall m w1 w2 pop, (m <= n)%nat -> initialization exact st32 u file ini w = Ok w1 -> time_loop exact st32 u m w1 = Ok w2 ->
     DFit u (u_L u) 2 (RectAt (u_mesh u)) w2 pop ->
     (Z.of_nat (sum_list_with (fun sn => length (pop sn) + emitted u sn (rs_count w2 + 1))%nat (u_names u)) < 2 ^ 53)%Z /\
     ((m < n)%nat -> forall sn, sn ∈ u_charged u -> DFeedable (u_L u) u 2 (in_rect x0 x1 y0 y1) w2 pop sn)) ->
  (Z.of_nat (population (u_names u) (initial_of ini)) < 2 ^ 53)%Z ->
  exists w', main_run exact st32 u file ini n w = Ok w'.
Proof.
  intros HL HR. apply (dom_completes u HL 2 (RectAt (u_mesh u)) (in_rect x0 x1 y0 y1) d vl). by eapply rect_dom.
Qed.

(** ** Example *)

(** The unit square, divided by its diagonal into the cells 0 (below) and 1 (above), whose sides absorb; a source puts one particle into the cell 1
    at every step; no field.  The particle [sa] moves by (1/2, 0) from (1/4, 1/2) into the cell 0, [sb] by (0, 1/2) from (1/4, 3/4) out of the
    square, and [sc] rests at (1/4, 1/2). *)
Definition sq_in (y : vec) : bool := match y with [a; b] => negb (Rltb a 0) && negb (Rltb b a) && negb (Rltb 1 b) | _ => false end.
Definition sq_region : region := Region 2 [SrcCell 1 (1/2) [1/4; 3/4] (1/8) sq_in].
Definition sq_params : params := SourceModel.Params "e" 1 [0; 0] 1 1.
Definition sa : particle := Particle [1/4; 1/2] [1/4; 1/2] [1/2; 0] 1 0 1 1 0.
Definition sb : particle := Particle [1/4; 3/4] [1/4; 3/4] [0; 1/2] 1 0 1 2 0.
Definition sc : particle := Particle [1/4; 1/2] [1/4; 1/2] [0; 0] 1 0 1 3 0.
Definition sq_D : fspace := FSpace (fun c => if (c =? 0)%Z then [0; 1; 3]%nat else [0; 2; 3]%nat)
  (fun c x => if (c =? 0)%Z then [1 - nth 0 x 0; nth 0 x 0 - nth 1 x 0; nth 1 x 0] else [1 - nth 1 x 0; nth 1 x 0 - nth 0 x 0; nth 0 x 0]).
Definition sq_C : fspace := FSpace (fun c => [Z.to_nat c]) (fun _ _ => [1]).
Definition sq_setup (m : mesh) : setup :=
  Setup ["e"] ["e"] [] (fun _ => -1) (fun _ => -1) (fun _ => 1) 2 1 10 m (fun _ _ => Some absorb_bc) 2 (fun _ => None) (fun _ => None) (fun _ => Some true) (fun _ => Some true)
    false 2 1 (fun _ => [0; 0]) 1 (Some [(sq_region, sq_params)]) 1 2 None [] (fun _ => 0%Z) (fun _ => None) sa 2 2 (fun _ => Some (1/2)) 4 sq_D sq_C
    (fun _ => Ok (fun _ => [0; 0])) 1 [].
Definition sq_state (ps : list particle) : runst :=
  RunSt 0 0 [0; 0] (SrcSt (fun sn => if String.eqb sn "e" then snd (run py_step (sap_init 2) (map Push ps)) else sap_init 2) 4 0 None)
    (out_init 2 ["e"%string] (fun sn => if String.eqb sn "e" then snd (run py_step (sap_init 2) (map Push ps)) else sap_init 2)) [] (fun _ => []) (fun _ => []) (fun _ => [0; 0]) None.
Definition sq_pop (ps : list particle) (sn : string) : list particle := if String.eqb sn "e" then ps else [].
Definition SqRun (m : mesh) : Prop := RectRun (sq_setup m) Cantor.to_nat 1 1 0 1 0 1 (Some RightDiag) 1 2 3 4 (fun c => c) (fun _ => 1/2).

(** The two cells. *)
Lemma sq_cells m : xyz_rect_mesh Cantor.to_nat 1 1 0 1 0 1 (Some RightDiag) 1 2 3 4 = Ok m ->
  forall a b, (RectAt m 0 [a; b] <-> 0 <= b <= a /\ a <= 1) /\ (RectAt m 1 [a; b] <-> 0 <= a <= b /\ b <= 1).
Proof.
  intros E. destruct (C55_rectangle Cantor.to_nat 1 1 0 1 0 1 (Some RightDiag) 1 2 3 4) as (m' & E' & Hg & HC & _); [lia|lia|lra|lra|apply cantor_numbering|].
  rewrite E in E'. injection E' as <-.
  assert (exists cr0 cr1, cells m 0%Z = Some cr0 /\ cells m 1%Z = Some cr1 /\
    verts cr0 = [[0 + INR 0 * (1 - 0) / INR 1; 0 + INR 0 * (1 - 0) / INR 1]; [0 + INR 1 * (1 - 0) / INR 1; 0 + INR 0 * (1 - 0) / INR 1]; [0 + INR 1 * (1 - 0) / INR 1; 0 + INR 1 * (1 - 0) / INR 1]] /\
    verts cr1 = [[0 + INR 0 * (1 - 0) / INR 1; 0 + INR 0 * (1 - 0) / INR 1]; [0 + INR 0 * (1 - 0) / INR 1; 0 + INR 1 * (1 - 0) / INR 1]; [0 + INR 1 * (1 - 0) / INR 1; 0 + INR 1 * (1 - 0) / INR 1]])
    as (cr0 & cr1 & H0 & H1 & V0 & V1).
  { unfold xyz_rect_mesh, tri_mesh in E. injection E as <-. do 2 eexists. split; [reflexivity|]. split; [reflexivity|]. cbn [verts]. split; reflexivity. }
  assert (V0' : verts cr0 = [[0; 0]; [1; 0]; [1; 1]]) by (rewrite V0; cbn [INR]; repeat f_equal; field).
  assert (V1' : verts cr1 = [[0; 0]; [0; 1]; [1; 1]]) by (rewrite V1; cbn [INR]; repeat f_equal; field).
  clear V0 V1. pose proof (cf_simplex _ HC _ _ H0) as S0. pose proof (cf_simplex _ HC _ _ H1) as S1. rewrite Hg in S0, S1.
  intros a b.
  assert (I0 : InCell 2 cr0 [a; b] <-> Hull 2 (verts cr0) [a; b]) by (split; [by apply in_cell_hull|by apply hull_in_cell]).
  assert (I1 : InCell 2 cr1 [a; b] <-> Hull 2 (verts cr1) [a; b]) by (split; [by apply in_cell_hull|by apply hull_in_cell]).
  rewrite V0', hull3 in I0. rewrite V1', hull3 in I1.
  split; split.
  - intros (_ & cr & Hc & HI). rewrite H0 in Hc. injection Hc as <-. apply I0 in HI as (s & t & u & Hs & Ht & Hu & Hsum & Hx).
    pose proof (Hx 0%nat ltac:(lia)) as X0. pose proof (Hx 1%nat ltac:(lia)) as X1. unfold co in X0, X1. cbn [nth] in X0, X1. lra.
  - intros Hab. split; [reflexivity|]. exists cr0. split; [exact H0|]. apply I0. exists (1 - a), (a - b), b. split_and!; try lra.
    intros [|[|i]] Hi; [| |lia]; unfold co; cbn [nth]; lra.
  - intros (_ & cr & Hc & HI). rewrite H1 in Hc. injection Hc as <-. apply I1 in HI as (s & t & u & Hs & Ht & Hu & Hsum & Hx).
    pose proof (Hx 0%nat ltac:(lia)) as X0. pose proof (Hx 1%nat ltac:(lia)) as X1. unfold co in X0, X1. cbn [nth] in X0, X1. lra.
  - intros Hab. split; [reflexivity|]. exists cr1. split; [exact H1|]. apply I1. exists (1 - b), (b - a), a. split_and!; try lra.
    intros [|[|i]] Hi; [| |lia]; unfold co; cbn [nth]; lra.
Qed.

Lemma sq_run : exists m, SqRun m.
Proof.
  destruct (C55_rectangle Cantor.to_nat 1 1 0 1 0 1 (Some RightDiag) 1 2 3 4) as (m & E & _); [lia|lia|lra|lra|apply cantor_numbering|].
  exists m. pose proof (sq_cells m E) as HA.
  split; [lia|lra|apply cantor_numbering|exact E|reflexivity| |cbn; lia|].
  - intros sn v _ Hv. split; [|reflexivity]. rewrite !elem_of_cons, elem_of_nil in Hv. lia.
  - split; cbn [sq_setup u_mesh u_ncell u_names u_charged u_maxc u_bcs u_Eext u_solved u_ext u_fD u_fC u_ndof u_vol u_solve u_pdim u_rnd u_sources u_dE u_fuel u_out_interval u_nv u_hist_skip u_hist_names default];
      try reflexivity; try exact I.
    + intros sn v bc c p mf f n q c' [= <-]. unfold absorb_bc. intros [= <- <-]. split; [|reflexivity].
      unfold same_identity. split; [reflexivity|]. split; [reflexivity|]. exact (absorb_traj p).
    + lia.
    + apply NoDup_singleton.
    + apply NoDup_singleton.
    + intros sn Hsn. exact Hsn.
    + intros sn k _. split; [discriminate|done].
    + assert (HN : forall k : nat, (0 < k < 3)%nat -> NoDup [0; k; 3]%nat /\ forall i, i ∈ [0; k; 3]%nat -> (i < 4)%nat).
      { intros k Hk. split; [|intros i Hi; rewrite !elem_of_cons, elem_of_nil in Hi; lia]. repeat (apply NoDup_cons_2; [rewrite ?elem_of_cons, elem_of_nil; lia|]). apply NoDup_nil_2. }
      intros [|[|c]] Hc; [| |lia]; [change (fs_dofs _ _) with [0; 1; 3]%nat|change (fs_dofs _ _) with [0; 2; 3]%nat]; (split; [apply HN; lia|]); (split; [apply HN; lia|]); reflexivity.
    + intros c Hc. cbn [sq_C fs_dofs]. rewrite Nat2Z.id. split; [reflexivity|]. split; [exact Hc|]. intros c' _ ->. reflexivity.
    + intros rho _. eexists. split; [reflexivity|]. done.
    + split; [discriminate|]. split; [reflexivity|]. intros name Hn. inversion Hn.
    + intros dom q Hq. apply elem_of_list_singleton in Hq. injection Hq as -> ->. cbn [sq_params sq_region s_interval s_species s_percell s_drift r_gdim r_cells].
      split; [lia|]. split; [left|]. split; [lia|]. split; [reflexivity|]. split; [reflexivity|].
      intros c Hc. apply elem_of_list_singleton in Hc as ->. cbn [c_in c_index c_mid]. split; [|split].
      * intros [|x [|y [|]]]; try discriminate. cbn [sq_in]. rewrite !andb_true_iff, !negb_true_iff, !Rltb_false. intros H. split; [reflexivity|]. apply (HA x y). lra.
      * split; [reflexivity|]. apply (HA (1/4) (3/4)). lra.
      * intros k. exists 0%nat. split; [lia|]. unfold tried. cbn. unfold exact. rewrite !(proj2 (Rltb_false _ _)) by lra. reflexivity.
Qed.

Lemma sq_placed m : SqRun m -> Placed 2 (RectAt (u_mesh (sq_setup m))) sa /\ Placed 2 (RectAt (u_mesh (sq_setup m))) sb /\ Placed 2 (RectAt (u_mesh (sq_setup m))) sc.
Proof.
  intros HR. pose proof (sq_cells m (rr_mesh _ _ _ _ _ _ _ _ _ _ _ _ _ _ _ HR)) as HA.
  split_and!; (split; [reflexivity|]); (split; [reflexivity|]); (split; [|reflexivity]); apply HA; lra.
Qed.
Lemma sq_fit m ps : SqRun m -> ps = [sa; sb; sc] \/ ps = [sa; sc; sb] -> DFit (sq_setup m) 2 2 (RectAt (u_mesh (sq_setup m))) (sq_state ps) (sq_pop ps).
Proof.
  intros HR Hps. destruct (sq_placed m HR) as (Pa & Pb & Pc).
  assert (HS : Reachable 2 (snd (run py_step (sap_init 2) (map Push ps))) /\ Stores (snd (run py_step (sap_init 2) (map Push ps))) ps).
  { split.
    - destruct Hps as [->| ->].
      + apply (run_reach 2 (map Push [sa; sb; sc]) (sap_init 2) [OPos 0 0; OPos 1 1; OPos 0 2]); [constructor|]. cbv -[IZR Rdiv]. reflexivity.
      + apply (run_reach 2 (map Push [sa; sc; sb]) (sap_init 2) [OPos 0 0; OPos 1 1; OPos 0 2]); [constructor|]. cbv -[IZR Rdiv]. reflexivity.
    - destruct Hps as [->| ->]; (split; [cbv -[IZR Rdiv]; reflexivity|]);
        intros [|[|[|k]]] x Hk; cbn in Hk; try discriminate Hk; injection Hk as <-; cbv -[IZR Rdiv]; reflexivity. }
  split; cbn [sq_state rs_src ss_saps ss_traj rs_hist rs_negE]; unfold sq_pop.
  - intros sn. destruct (String.eqb sn "e"); [exact HS|]. split; [constructor|]. split; [reflexivity|]. intros k x Hk. discriminate Hk.
  - intros sn p Hp. destruct (String.eqb sn "e"); [|inversion Hp].
    destruct Hps as [->| ->]; rewrite !elem_of_cons, elem_of_nil in Hp; destruct Hp as [->|[->|[->|[]]]]; assumption.
  - intros sn Hnil. destruct (String.eqb sn "e").
    + destruct Hps as [->| ->]; discriminate Hnil.
    + split; [apply np_new|by apply C47_new_accepts].
  - reflexivity.
  - by left.
  - exact I.
  - reflexivity.
Qed.
Lemma sq_land m step sn p x y v w : px p = [x; y] -> pu p = [v; w] ->
  vland (sq_setup m) 2 step (fun _ => [0; 0]) sn p = [x + v; y + w] /\
  remains (sq_setup m) 2 (in_rect 0 1 0 1) step (fun _ => [0; 0]) sn p = in_rect 0 1 0 1 [x + v; y + w].
Proof.
  intros Hx Hv. assert (H : vland (sq_setup m) 2 step (fun _ => [0; 0]) sn p = [x + v; y + w]).
  { unfold vland, vnew, solved_part, external_part. rewrite Hv, Hx. cbn. f_equal; [|f_equal]; lra. }
  split; [exact H|]. unfold remains. by rewrite H.
Qed.
Lemma sq_stays m step : remains (sq_setup m) 2 (in_rect 0 1 0 1) step (fun _ => [0; 0]) "e" sa = true /\
  remains (sq_setup m) 2 (in_rect 0 1 0 1) step (fun _ => [0; 0]) "e" sb = false /\ remains (sq_setup m) 2 (in_rect 0 1 0 1) step (fun _ => [0; 0]) "e" sc = true.
Proof.
  rewrite (proj2 (sq_land m step "e" sa _ _ _ _ eq_refl eq_refl)), (proj2 (sq_land m step "e" sb _ _ _ _ eq_refl eq_refl)), (proj2 (sq_land m step "e" sc _ _ _ _ eq_refl eq_refl)).
  split_and!.
  - apply in_rect_iff. unfold InRect, co. cbn [nth]. lra.
  - apply not_true_is_false. rewrite in_rect_iff. unfold InRect, co. cbn [nth]. lra.
  - apply in_rect_iff. unfold InRect, co. cbn [nth]. lra.
Qed.

(** A step from a state that holds them in this order. *)
Lemma sq_step m st32 w pop : SqRun m -> DFit (sq_setup m) 2 2 (RectAt (u_mesh (sq_setup m))) w pop -> pop "e" = [sa; sb; sc] -> rs_negE w = (fun _ => [0; 0]) -> rs_hist w = None ->
  DFeedable 2 (sq_setup m) 2 (in_rect 0 1 0 1) w pop "e" /\
  exists w1 pop1 q1 q3 r, time_step exact st32 (sq_setup m) w = Ok w1 /\ DFit (sq_setup m) 2 2 (RectAt (u_mesh (sq_setup m))) w1 pop1 /\ pop1 "e" = [q1; q3; r] /\
    px q1 = [3/4; 1/2] /\ pcell q1 = 0%Z /\ puid q1 = 1%Z /\ px q3 = [1/4; 1/2] /\ pcell q3 = 1%Z /\ puid q3 = 3%Z /\ pcell r = 1%Z /\ pw r = 1/2.
Proof.
  intros HR HF Ep HE Hh. pose proof (sq_cells m (rr_mesh _ _ _ _ _ _ _ _ _ _ _ _ _ _ _ HR)) as HA.
  destruct (sq_stays m (rs_count w + 1)) as (Ra & Rb & Rc).
  assert (HFd : DFeedable 2 (sq_setup m) 2 (in_rect 0 1 0 1) w pop "e").
  { right. rewrite Ep, HE. cbn [List.filter]. rewrite Ra, Rb, Rc. split; [cbn; lia|]. right. right. exists [sa; sb], sc. by split. }
  split; [exact HFd|].
  destruct (C57_progress _ 2 ltac:(lia) _ _ _ _ _ _ _ _ _ _ _ _ _ _ HR st32 w pop eq_refl HF) as (w1 & pop1 & E1 & HF1 & Hp1 & _).
  { split; [|split; [exact I|by rewrite Hh]]. intros sn Hsn. apply elem_of_list_singleton in Hsn as ->. exact HFd. }
  pose proof (step_parts _ _ _ _ _ E1) as (_ & _ & _ & _ & _ & _ & _ & _ & _ & _ & _ & _ & _ & _ & _ & _ & Hc1 & _).
  specialize (Hp1 "e"). rewrite bool_decide_eq_true_2 in Hp1 by left. rewrite Ep, HE, Hc1 in Hp1. cbn [List.filter] in Hp1. rewrite Ra, Rb, Rc in Hp1.
  destruct Hp1 as (mv & nw & Ep1 & HLd & Hn & Hnew).
  assert (Hem : emitted (sq_setup m) "e" (rs_count w + 1) = 1%nat). { unfold emitted. cbn. rewrite Z.mod_1_r. reflexivity. }
  rewrite Hem in Hn. clear Hem.
  destruct nw as [|r [|]]; try discriminate Hn. destruct mv as [|q1 [|q3 [|]]]; [by inversion HLd|by inversion HLd as [|? ? ? ? ? H]; inversion H| |
    by inversion HLd as [|? ? ? ? ? H]; inversion H as [|? ? ? ? ? H']; inversion H'].
  inversion_clear HLd as [|? ? ? ? [A1 A2 A3 A4] HLd2]. inversion_clear HLd2 as [|? ? ? ? [B1 B2 B3 B4] _].
  rewrite (proj1 (sq_land m _ "e" sa _ _ _ _ eq_refl eq_refl)) in A1. rewrite (proj1 (sq_land m _ "e" sc _ _ _ _ eq_refl eq_refl)) in B1.
  rewrite list.Forall_cons in Hnew. destruct Hnew as [(dom & q & c & ip & uid & Hd & _ & Hc & HM) _].
  apply elem_of_list_singleton in Hd. injection Hd as -> ->. apply elem_of_list_singleton in Hc as ->.
  assert (Hcell : forall q x y, q ∈ pop1 "e" -> px q = [x; y] -> (x <> y)%R -> (y < x -> pcell q = 0%Z) /\ (x < y -> pcell q = 1%Z)).
  { clear - HF1 HA HR. intros q x y Hq Hx Hne. destruct (df_placed _ _ _ _ _ _ HF1 "e" q Hq) as (_ & _ & Hat & _). rewrite Hx in Hat.
    pose proof (dr_cell _ _ _ _ _ _ (rect_dom _ _ _ _ _ _ _ _ _ _ _ _ _ _ _ HR) _ _ Hat) as Hr. cbn in Hr.
    assert (pcell q = 0 \/ pcell q = 1)%Z as [Ec|Ec] by lia; rewrite Ec in *; apply HA in Hat; (split; [intros Hlt|intros Hlt]); try reflexivity; exfalso; lra. }
  exists w1, pop1, q1, q3, r. split; [exact E1|]. split; [exact HF1|]. split; [exact Ep1|].
  assert (X1 : px q1 = [3/4; 1/2]) by (rewrite A1; repeat f_equal; lra). assert (X3 : px q3 = [1/4; 1/2]) by (rewrite B1; repeat f_equal; lra).
  split; [exact X1|]. split; [apply (Hcell q1 (3/4) (1/2)); [rewrite Ep1; left|exact X1|lra|lra]|]. split; [exact A4|].
  split; [exact X3|]. split; [apply (Hcell q3 (1/4) (1/2)); [rewrite Ep1; right; left|exact X3|lra|lra]|]. split; [exact B4|].
  split; [apply (m_cell _ _ _ _ _ _ _ _ _ _ HM)|]. rewrite (m_weight _ _ _ _ _ _ _ _ _ _ HM). unfold source_weight. cbn. unfold exact. lra.
Qed.

(** With segments of two particles, the step succeeds if [sc] is stored last and fails if [sb], which leaves, is stored last; the program with the
    particles [sa], [sb], [sc] runs for a step. *)
Example C57_example st32 : exists m, SqRun m /\
  (exists w1 q1 q3 r, time_step exact st32 (sq_setup m) (sq_state [sa; sb; sc]) = Ok w1 /\ Stores (ss_saps (rs_src w1) "e") [q1; q3; r] /\
    px q1 = [3/4; 1/2] /\ pcell q1 = 0%Z /\ puid q1 = 1%Z /\ px q3 = [1/4; 1/2] /\ pcell q3 = 1%Z /\ puid q3 = 3%Z /\ pcell r = 1%Z /\ pw r = 1/2) /\
  (exists e, time_step exact st32 (sq_setup m) (sq_state [sa; sc; sb]) = Raise e) /\
  (exists w', main_run exact st32 (sq_setup m) false (Some [Listed "e" [sa; sb; sc]]) 1 (sq_state []) = Ok w').
Proof.
  destruct sq_run as [m HR]. exists m. split; [exact HR|]. split; [|split].
  - destruct (sq_step m st32 _ _ HR (sq_fit m _ HR ltac:(by left)) eq_refl eq_refl eq_refl) as (_ & w1 & pop1 & q1 & q3 & r & E1 & HF1 & Ep1 & H).
    exists w1, q1, q3, r. split; [exact E1|]. split; [rewrite <- Ep1; apply (df_stored _ _ _ _ _ _ HF1)|exact H].
  - destruct (sq_stays m 1) as (Ra & Rb & Rc).
    apply (C57_blocked_refuted _ 2 ltac:(lia) _ _ _ _ _ _ _ _ _ _ _ _ _ _ HR st32 _ _ "e" [sa; sc] sb (sq_fit m [sa; sc; sb] HR ltac:(by right))).
    + left.
    + reflexivity.
    + exact Rb.
    + change (rs_count _ + 1)%Z with 1%Z. change (rs_negE _) with (fun _ : particle => [0; 0]). change (sq_pop [sa; sc; sb] "e") with [sa; sc; sb]. cbn [List.filter]. rewrite Ra, Rb, Rc. reflexivity.
    + change (emitted _ _ _) with 1%nat. lia.
  - set (u := sq_setup m). destruct (sq_placed m HR) as (Pa & Pb & Pc). set (ini := Some [Listed "e" [sa; sb; sc]]).
    assert (HL : (1 <= u_L u)%Z) by (cbn; lia).
    assert (HS : DStart u 2 None (sq_state [])).
    { split; try reflexivity. intros sn. cbn. by destruct (String.eqb sn "e"). }
    assert (Hini : forall e, e ∈ default [] ini -> exists sn ps, e = Listed sn ps /\ sn ∈ u_names u /\ Forall (Placed 2 (RectAt (u_mesh u))) ps).
    { intros e He. apply elem_of_list_singleton in He as ->. eexists _, _. split; [reflexivity|]. split; [left|]. rewrite list.Forall_forall. intros p Hp.
      rewrite !elem_of_cons, elem_of_nil in Hp; destruct Hp as [->|[->|[->|[]]]]; assumption. }
    assert (Hfile : u_out_interval u = None /\ false = false \/ u_out_interval u <> None /\ false = true) by (left; done).
    assert (Hpop0 : (Z.of_nat (population (u_names u) (initial_of ini)) < 2 ^ 53)%Z) by (change (population _ _) with 3%nat; lia).
    assert (Heq : forall w p p' sn, DFit u (u_L u) 2 (RectAt (u_mesh u)) w p -> DFit u (u_L u) 2 (RectAt (u_mesh u)) w p' -> p sn = p' sn).
    { intros w p p' sn H H'. exact (stores_inj _ _ _ (proj2 (df_stored _ _ _ _ _ _ H sn)) (proj2 (df_stored _ _ _ _ _ _ H' sn))). }
    destruct (dom_start u HL 2 _ _ _ _ (rect_dom _ _ _ _ _ _ _ _ _ _ _ _ _ _ _ HR) st32 false ini None (sq_state []) HS Hfile Hini Hpop0) as (w0 & E0 & HF0 & Hc0 & Hh0); [done|].
    destruct (rs_hist w0) as [|] eqn:Eh0; [destruct Hh0|].
    assert (HE0 : rs_negE w0 = (fun _ => [0; 0])).
    { unfold initialization, ini in E0. destruct (initial_particles _ _ _ _ _) as [w2|] eqn:Ei; [|discriminate]. destruct (record_run_history _ _ _ _ _ _) as [[st3 h3]|]; [|discriminate].
      injection E0 as <-. cbn [rs_negE]. unfold initial_particles in Ei. destruct (initialize_particles _ _ _ _ _ _ _ _ _ _ _) as [st1|]; [|discriminate].
      destruct (record_trajectories _ _ _ _ _ _) as [st4|]; [|discriminate].
      destruct (density_update _ _ _ _ _ _ _ _ _ _ _) as [[[[saps4 rho] dofs] cells]|]; [|discriminate]. injection Ei as <-. reflexivity. }
    destruct (sq_step m st32 w0 _ HR HF0 eq_refl HE0 Eh0) as (Hf0 & w1 & pop1 & q1 & q3 & r & E1 & HF1 & Ep1 & _).
    apply (C57_completes u _ _ _ _ _ _ _ _ _ _ _ _ _ _ st32 false ini 1 None (sq_state []) HL HR HS Hfile Hini); [cbn; lia|done| |exact Hpop0].
    intros [|[|k]] v1 v2 pop Hk Ev1 Ev2 HF; [| |lia]; rewrite E0 in Ev1; injection Ev1 as <-; cbn [time_loop] in Ev2; fold u in E1; try rewrite E1 in Ev2; injection Ev2 as <-.
    + split; [cbn [u sq_setup u_names sum_list_with]; rewrite (Heq _ _ _ "e" HF HF0), Hc0; change (emitted _ _ (0 + 1)) with 1%nat; change (initial_of ini "e") with [sa; sb; sc]; cbn [length]; lia|].
      intros _ sn Hsn. apply elem_of_list_singleton in Hsn as ->. unfold DFeedable. rewrite (Heq _ _ _ "e" HF HF0). exact Hf0.
    + split; [|lia]. change (u_names u) with ["e"%string]. cbn [sum_list_with]; rewrite (Heq _ _ _ "e" HF HF1), Ep1.
      assert (Hem : emitted (sq_setup m) "e" (rs_count w1 + 1) = 1%nat) by (unfold emitted; cbn; rewrite Z.mod_1_r; reflexivity).
      change (sq_setup m) with u in Hem. fold (sq_setup m). fold u. rewrite Hem. cbn [length]. lia.
Qed.

Print Assumptions C57_progress.
Print Assumptions C57_blocked_refuted.
Print Assumptions C57_run_total.
Print Assumptions C57_completes.
