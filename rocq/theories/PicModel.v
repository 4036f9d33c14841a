(** Model of the time loop together with the solver object that it uses: /repo/examples/sphere1D/sphere1D.py lines 1209-1232 and 1275-1367, in which
    [potentialsolve] keeps its matrix, right-hand side, potential and electric field from one step to the next.  [time_step] (RunModel.v) has a
    function of the charge in the place of the solver; here that function is a call of [solve_for_phi] on the object as the last step left it. *)
From stdpp Require Import strings.
From Verif Require Export RunModel SolveModel.

(** The setting [u] of a run with [g] in the place of its solver (sphere1D.py line 1345 is the only place where the loop uses it). *)
Definition with_solve (u : setup) (g : list R -> res (particle -> vec)) : setup :=
  Setup (u_names u) (u_charged u) (u_neutral u) (u_qom u) (u_charge u) (u_mass u) (u_nv u) (u_dt u) (u_maxc u) (u_mesh u) (u_bcs u) (u_dE u) (u_Eext u) (u_Erec u) (u_solved u) (u_ext u) (u_spherical u) (u_pdim u) (u_pi4 u) (u_rnd u) (u_fuel u) (u_sources u) (u_traj_skip u) (u_L u) (u_out_interval u) (u_atts u) (u_sindex u) (u_column u) (u_junk u) (u_ncell u) (u_gdim u) (u_vol u) (u_ndof u) (u_fD u) (u_fC u) g (u_hist_skip u) (u_hist_names u).

Section Pic.
(** [form], [bcs], [lu], [project] and [constant] as in SolveModel.v; [factor] is [spacechargeFactor] (sphere1D.py line 1345); [eval E p] is the value, at
    the place of particle [p], of the function with the coefficients [E] ([interpolate_field_to_points], Dolfin_Module.py lines 1103-1200). *)
Context (fl st32 : R -> R) (form : matrix) (bcs : list dirichlet) (lu : matrix -> list R -> list R) (project : list R -> list R) (constant : bool).
Context (factor : option R) (eval : list R -> particle -> vec).

(** [potentialsolve.solve_for_phi(assembled_charge=assembledCharge_F, assembled_charge_factor=spacechargeFactor)], sphere1D.py lines 1232 and 1345, for the charge
    [rho], and the field that the movers get from [potentialsolve.neg_electric_field] in the next step (lines 1283-1284).  A solver without an electric field is
    left out (the example gives it one, line 1064): AttributeError stands for it. *)
Definition solver_field (s : solver) (rho : list R) : res (particle -> vec) :=
  let! r := solve_for_phi fl form bcs lu project constant s (Some (FieldObj rho None)) factor in
  match snegE (fst r) with Some E => Ok (eval (fcoeffs E)) | None => Raise AttributeError end.

(** One step, sphere1D.py lines 1277-1367.  The state is that of [time_step] and the solver.  The one call of line 1345 is written twice: once for the field
    and once for the object that it leaves. *)
Definition pic_step (u : setup) (w : runst * solver) : res (runst * solver) :=
  let! w1 := time_step fl st32 (with_solve u (solver_field (snd w))) (fst w) in
  let! r := solve_for_phi fl form bcs lu project constant (snd w) (Some (FieldObj (rs_rho w1) None)) factor in
  Ok (w1, fst r).
(** [for istep in range(ctrl.n_timesteps)], sphere1D.py line 1274. *)
Fixpoint pic_loop (u : setup) (n : nat) (w : runst * solver) : res (runst * solver) :=
  match n with
  | O => Ok w
  | S m => let! w1 := pic_step u w in pic_loop u m w1
  end.
End Pic.
