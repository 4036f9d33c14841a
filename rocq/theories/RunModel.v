(** Model of a whole run: the initialization, the time loop and the end of /repo/examples/sphere1D/sphere1D.py, lines 1192-1397,
    put together from the models of the functions that it calls.

    Simplifications that hold for the whole file:
    - The Python movers and containers are used ([use_cpp_integrators] is not True).
    - The field solver is a function from the assembled charge to the field, which may fail.
    - The writing of fields and densities to files, plots, messages and pauses are left out. *)
From stdpp Require Import strings.
From Verif Require Export Vec SapModel MoverModel TrackModel TrajModel DiagModel DensityModel SourceModel.

(** What does not change during the run: attributes of [Particle_C] (the species, line 206-311; [pmesh_M], [pmesh_bcs],
    [particle_source_dict], [traj_T.skip], [histories]), of [ctrl], and the objects created before the loop. *)
Record setup := Setup {
  u_names : list string;                                     (* species_names *)
  u_charged : list string;                                   (* charged_species *)
  u_neutral : list string;                                   (* neutral_species *)
  u_qom : string -> R;                                       (* qom *)
  u_charge : string -> R;                                    (* charge *)
  u_mass : string -> R;                                      (* mass *)
  u_nv : nat;                                                (* len(velocity_coordinates) *)
  u_dt : R;                                                  (* ctrl.dt *)
  u_maxc : Z;                                                (* ctrl.MAX_FACET_CROSS_COUNT *)
  u_mesh : mesh;                                             (* pmesh_M *)
  u_bcs : string -> Z -> option (bcfun (K:=option traj));    (* pmesh_bcs.bc_function_dict, per species *)
  u_dE : nat;                                                (* number of field components *)
  u_Eext : Z -> option (particle -> vec);                    (* randomExternalElectricField_F at each step as the mover applies it: with the random factor (Particle_Module.py line 1515; MeshFieldModel.v and C59) *)
  u_Erec : Z -> option (particle -> vec);                    (* the same field as trajectory points record it: without the factor (Particle_Module.py lines 2750-2756) *)
  u_solved : string -> option bool;                          (* ctrl.apply_solved_electric_field *)
  u_ext : string -> option bool;                             (* ctrl.apply_random_external_electric_field *)
  u_spherical : bool;                                        (* coordinate_system == 'spherical_r' *)
  u_pdim : nat;                                              (* particle_dimension *)
  u_pi4 : R;                                                 (* 4.0*np_m.pi *)
  u_rnd : nat -> vec;                                        (* np_m.random *)
  u_fuel : nat;                                              (* bound on the tries for one point, see [random_point] *)
  u_sources : option (list (region * params));               (* particle_source_dict *)
  u_traj_skip : Z;                                           (* traj_T.skip *)
  u_L : Z;                                                   (* SEGMENT_LENGTH *)
  u_out_interval : option Z;                                 (* ctrl.particle_output_interval *)
  u_atts : list string;                                      (* ctrl.particle_output_attributes *)
  u_sindex : string -> Z;                                    (* species_index *)
  u_column : string -> option (akind * (particle -> val));   (* columns of particle_dtype *)
  u_junk : particle;                                         (* contents of memory never written, see [seen] *)
  u_ncell : nat;
  u_gdim : nat;
  u_vol : Z -> option R;                                     (* pmesh_M.cell_volume_dict *)
  u_ndof : nat;
  u_fD : fspace;                                             (* space of the nodal densities *)
  u_fC : fspace;                                             (* space of the cell densities *)
  u_solve : list R -> res (particle -> vec);                 (* potentialsolve.solve_for_phi: the negative field *)
  u_hist_skip : Z;                                           (* histories.skip *)
  u_hist_names : list string                                 (* the requested histories *)
}.

(** What the loop changes: [ctrl.timeloop_count], [ctrl.time], the movers' scratch vectors, the particles with the ID counter,
    the random numbers and the trajectories, the output file (the containers in it are replaced by those of the particles when it
    is used), the densities, the field and the history (None: [histories] is None). *)
Record runst := RunSt {
  rs_count : Z;
  rs_time : R;
  rs_scr : vec;
  rs_src : srcst;
  rs_out : outst particle;
  rs_rho : list R;
  rs_dofs : string -> list R;
  rs_cells : string -> list R;
  rs_negE : particle -> vec;
  rs_hist : option hist
}.
Definition with_saps (st : srcst) (saps : string -> sap particle) : srcst := SrcSt saps (ss_uid st) (ss_rng st) (ss_traj st).
Definition with_traj (st : srcst) (T : option traj) : srcst := SrcSt (ss_saps st) (ss_uid st) (ss_rng st) T.

Section Run.
Context (fl st32 : R -> R) (u : setup).

(** [advance_charged_particles_in_E_field(ctrl, neg_E_field, external_E_field)], Particle_Module.py lines 1391-1413: the charged
    species one after the other.  The scratch vectors and the trajectories are passed on. *)
Fixpoint advance_species (step : Z) (time : R) (negE : particle -> vec) (sns : list string) (saps : string -> sap particle)
    (c : tctx (K:=option traj)) : res ((string -> sap particle) * tctx (K:=option traj)) :=
  match sns with
  | [] => Ok (saps, c)
  | sn :: r =>
    let hk := charged_hooks fl sn step time (u_dt u) (u_qom u sn) (u_maxc u) (u_mesh u) (u_bcs u sn) (u_dE u) (Some negE)
                (u_Eext u step) (u_solved u sn) (u_ext u sn) false in
    let! (s1, c1) := guarded_mover (py_ops particle) hk (saps sn) c in
    advance_species step time negE r (set_key saps sn s1) c1
  end.

(** [if count % k == 0]: a zero [k] is a ZeroDivisionError. *)
Definition every {X} (k count : Z) (f : X -> res X) (x : X) : res X :=
  if (k =? 0)%Z then Raise ZeroDivisionError else if (count mod k =? 0)%Z then f x else Ok x.

(** Lines 1287-1290: [record_trajectory_data], which reads the particles through their full indices. *)
Definition record_trajectories (step : Z) (time : R) (negE : particle -> vec) (st : srcst) : res srcst :=
  match ss_traj st with
  | None => Ok st
  | Some T =>
    let get sn i := let! o := get_item (ss_saps st sn) i in Ok (seen (u_junk u) o) in
    let! T1 := record_trajectory_data fl T (u_charged u) (u_neutral u) get (u_dE u) (Some negE) (u_Erec u step) step time in
    Ok (with_traj st (Some T1))
  end.

(** Lines 1295-1296: [add_more_particles(ctrl, neg_E_field)], with [create_maxwellian_particles] as the creation function of
    every source (the external field is not passed). *)
Definition source_list (negE : particle -> vec) (l : list (region * params)) : list (Z * (Z -> R -> srcst -> res srcst)) :=
  map (fun dq => (s_interval (snd dq), fun step time st =>
         create_maxwellian fl (u_names u) (u_spherical u) (u_pdim u) (u_pi4 u) (u_rnd u) (u_fuel u) (u_dE u) (Some negE) None
           step time (fst dq) (snd dq) st)) l.
Definition add_from_sources (step : Z) (time : R) (negE : particle -> vec) (st : srcst) : res srcst :=
  match u_sources u with
  | None => Ok st
  | Some l => add_more_particles (source_list negE l) step time st
  end.

(** [write_particles_to_file(ctrl, close_flag)]: a snapshot of the particles. *)
Definition write_snapshot (close : bool) (step : Z) (time : R) (x : srcst * outst particle) : res (srcst * outst particle) :=
  let '(st, o) := x in
  let! o1 := write_particles fl (u_L u) (u_names u) (u_sindex u) (u_column u) (u_atts u) step time close
               (OutSt (ss_saps st) (o_blen o) (o_buf o) (o_counter o) (o_last o) (o_file o) (o_open o)) in
  Ok (with_saps st (o_saps o1), o1).

(** Lines 1366-1367: [record_history_data]. *)
Definition record_run_history (step : Z) (time : R) (x : srcst * option hist) : res (srcst * option hist) :=
  match snd x with
  | None => Ok x
  | Some h =>
    let! (saps, h1) := record_history fl st32 (u_names u) (number_function (u_junk u))
      (map (history_function (u_junk u) (u_nv u) (u_mass u)) (u_hist_names u)) step time (ss_saps (fst x)) h in
    Ok (with_saps (fst x) saps, Some h1)
  end.

(** One time step, lines 1277-1367. *)
Definition time_step (w : runst) : res runst :=
  (* RUN.0 *)
  let step := (rs_count w + 1)%Z in
  let time := fl (rs_time w + u_dt u) in
  let st := rs_src w in
  (* RUN.1 *)
  let! (saps1, c1) := advance_species step time (rs_negE w) (u_charged u) (ss_saps st) (TCtx (rs_scr w) (ss_traj st)) in
  let st1 := SrcSt saps1 (ss_uid st) (ss_rng st) (usr c1) in
  let! st2 := (match ss_traj st1 with
               | None => Ok st1
               | Some _ => every (u_traj_skip u) step (record_trajectories step time (rs_negE w)) st1
               end) in
  (* RUN.2 *)
  let! st3 := add_from_sources step time (rs_negE w) st2 in
  (* RUN.3, lines 1299-1301 *)
  let! (st4, o4) := (match u_out_interval u with
                     | None => Ok (st3, rs_out w)
                     | Some k => every k step (write_snapshot false step time) (st3, rs_out w)
                     end) in
  (* RUN.4 *)
  let! (saps5, rho, dofs, cells) :=
    density_update fl (u_ncell u) (u_gdim u) (u_vol u) (u_junk u) (u_fD u) (u_fC u) (u_charge u) (u_names u) (u_ndof u) (ss_saps st4) in
  let st5 := with_saps st4 saps5 in
  (* RUN.5 *)
  let! negE := u_solve u rho in
  (* RUN.6 *)
  let! (st6, h6) := (match rs_hist w with
                     | None => Ok (st5, None)
                     | Some _ => every (u_hist_skip u) step (record_run_history step time) (st5, rs_hist w)
                     end) in
  Ok (RunSt step time (scr c1) st6 o4 rho dofs cells negE h6).

(** [for istep in range(ctrl.n_timesteps)], line 1275. *)
Fixpoint time_loop (n : nat) (w : runst) : res runst :=
  match n with
  | O => Ok w
  | S m => let! w1 := time_step w in time_loop m w1
  end.

(** INIT.2.1, lines 1196-1252: the initial particles, their snapshot and trajectory points, the densities and the field.  [file]
    tells if there is an output file; it is opened before (lines 1189-1190).  [initialize_particles] gets no field. *)
Definition initial_particles (file : bool) (ini : list initial) (w : runst) : res runst :=
  let step := rs_count w in
  let time := rs_time w in
  let! st1 := initialize_particles fl (u_names u) (u_spherical u) (u_pdim u) (u_pi4 u) (u_rnd u) (u_fuel u) (u_dE u) ANone ini (rs_src w) in
  let! (st2, o2) := (if file then write_snapshot false step time (st1, rs_out w) else Ok (st1, rs_out w)) in
  let! st3 := record_trajectories step time (rs_negE w) st2 in
  let! (saps4, rho, dofs, cells) :=
    density_update fl (u_ncell u) (u_gdim u) (u_vol u) (u_junk u) (u_fD u) (u_fC u) (u_charge u) (u_names u) (u_ndof u) (ss_saps st3) in
  let! negE := u_solve u rho in
  Ok (RunSt step time (rs_scr w) (with_saps st3 saps4) o2 rho dofs cells negE (rs_hist w)).

(** INIT.2, lines 1189-1263; the state [w] is that after the field solve without particles of INIT.1.  ([initialize_particle_integration]
    at line 1267 is modelled in SpeciesModel.v.) *)
Definition initialization (file : bool) (ini : option (list initial)) (w : runst) : res runst :=
  let o := rs_out w in
  let w1 := RunSt (rs_count w) (rs_time w) (rs_scr w) (rs_src w) (if file then open_file o else o) (rs_rho w) (rs_dofs w) (rs_cells w)
              (rs_negE w) (rs_hist w) in
  let! w2 := (match ini with None => Ok w1 | Some l => initial_particles file l w1 end) in
  let! (st3, h3) := record_run_history (rs_count w2) (rs_time w2) (rs_src w2, rs_hist w2) in
  Ok (RunSt (rs_count w2) (rs_time w2) (rs_scr w2) st3 (rs_out w2) (rs_rho w2) (rs_dofs w2) (rs_cells w2) (rs_negE w2) h3).

(** FIN.1 and FIN.2, lines 1385-1397: the last snapshot, which closes the file, and the last points of the trajectories. *)
Definition finish (file : bool) (w : runst) : res runst :=
  let! (st1, o1) := (if file then write_snapshot true (rs_count w) (rs_time w) (rs_src w, rs_out w) else Ok (rs_src w, rs_out w)) in
  let! st2 := record_trajectories (rs_count w) (rs_time w) (rs_negE w) st1 in
  Ok (RunSt (rs_count w) (rs_time w) (rs_scr w) st2 o1 (rs_rho w) (rs_dofs w) (rs_cells w) (rs_negE w) (rs_hist w)).

(** The program from line 1189 to line 1397, with [n] time steps. *)
Definition main_run (file : bool) (ini : option (list initial)) (n : nat) (w : runst) : res runst :=
  let! w1 := initialization file ini w in
  let! w2 := time_loop n w1 in
  finish file w2.
End Run.
