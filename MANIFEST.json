{
 "claims": [
  {
   "property": "C01",
   "status": "proved",
   "theorems": [
    "C01_push_keeps_place"
   ],
   "note": ""
  },
  {
   "property": "C02",
   "status": "proved",
   "theorems": [
    "C02_storage_grows_as_needed"
   ],
   "note": ""
  },
  {
   "property": "C03",
   "status": "proved",
   "theorems": [
    "C03_out_loop_visits_all"
   ],
   "note": ""
  },
  {
   "property": "C04",
   "status": "proved",
   "theorems": [
    "C04_pass_keeps_survivors",
    "C04_pass_is_sequential",
    "C04_cpp_pass_is_sequential"
   ],
   "note": "Holds also when nothing survives (count 0); C07 tells what is wrong with the state left in that case."
  },
  {
   "property": "C05",
   "status": "proved",
   "theorems": [
    "C05_history_refines_list"
   ],
   "note": "A history ends at the first exception; continuing after a caught exception is not modelled."
  },
  {
   "property": "C06",
   "status": "proved",
   "theorems": [
    "C06_push_refused_exactly",
    "C06_push_or_assert",
    "C06_push_fails_after_full_loop",
    "C06_push_after_pass"
   ],
   "note": "The failing cases are a defect of the code."
  },
  {
   "property": "C07",
   "status": "proved",
   "theorems": [
    "C07_died_out_species",
    "C07_cpp_died_out_recovers",
    "C07_cpp_length_one_refuted"
   ],
   "note": "The Python behaviour is a defect of the code; the C++ container behaves correctly for segment lengths of at least 2."
  },
  {
   "property": "C08",
   "status": "proved",
   "theorems": [
    "C08_indexed_access"
   ],
   "note": ""
  },
  {
   "property": "C10",
   "status": "proved",
   "theorems": [
    "C10_segment_length_invisible"
   ],
   "note": ""
  },
  {
   "property": "C11",
   "status": "proved",
   "theorems": [
    "C11_uniform_mover_count",
    "C11_uniform_mover_count_iff",
    "C11_cpp_uniform_mover_count"
   ],
   "note": "The wrong count is a defect of the Python code."
  },
  {
   "property": "C09",
   "status": "proved",
   "theorems": [
    "C09_cpp_agrees_with_python",
    "C09_cpp_history_refines_list"
   ],
   "note": "Histories are bounded by the range of the 32-bit counters of the C++ class."
  },
  {
   "property": "C42",
   "status": "proved",
   "theorems": [
    "C42_unchecked_push"
   ],
   "note": "The out-of-bounds write is a defect of the code."
  },
  {
   "property": "C12",
   "status": "proved",
   "theorems": [
    "C12_tracking_ends_in_cell",
    "C12_tracking_errors"
   ],
   "note": "For every arithmetic. Errors other than the mover's own are listed in C12_tracking_errors (an unknown marker, the exit of find_facet)."
  },
  {
   "property": "C13",
   "status": "proved",
   "theorems": [
    "C13_find_facet"
   ],
   "note": "Exact arithmetic."
  },
  {
   "property": "C14",
   "status": "proved",
   "theorems": [
    "C14_no_impossible_errors"
   ],
   "note": "Exact arithmetic; reflection with the charged mover only, see C18."
  },
  {
   "property": "C15",
   "status": "proved",
   "theorems": [
    "C15_crossing_times_and_positions"
   ],
   "note": "Exact arithmetic, with the shipped boundary functions."
  },
  {
   "property": "C17",
   "status": "proved",
   "theorems": [
    "C17_specular_reflection",
    "C17_cpp_same"
   ],
   "note": "Exact arithmetic."
  },
  {
   "property": "C18",
   "status": "proved",
   "theorems": [
    "C18_move_seen_by_callback",
    "C18_stale_reflection_wrong",
    "C18_neutral_reflection_refuted"
   ],
   "note": "The stale vector is a defect of the code."
  },
  {
   "property": "C16",
   "status": "proved",
   "theorems": [
    "C16_movers_preserve_identity"
   ],
   "note": "Holds for every arithmetic and for every boundary function that keeps weight, unique_ID and trajectory flag, in particular the shipped ones."
  },
  {
   "property": "C21",
   "status": "proved",
   "theorems": [
    "C21_pass_reindexes",
    "C21_trajectories_follow",
    "C21_history"
   ],
   "note": ""
  },
  {
   "property": "C22",
   "status": "proved",
   "theorems": [
    "C22_no_overflow",
    "C22_history",
    "C22_through_movers",
    "C22_datum_appends_one",
    "C22_remove_closes",
    "C22_deleted_last_point"
   ],
   "note": ""
  },
  {
   "property": "C23",
   "status": "proved",
   "theorems": [
    "C23_room_for_all",
    "C23_full_charged_silences",
    "C23_full_neutral_fails",
    "C23_same_step"
   ],
   "note": "The early return and the IndexError are defects of the code."
  },
  {
   "property": "C20",
   "status": "proved",
   "theorems": [
    "C20_particle_push",
    "C20_pass_push",
    "C20_flag_failure",
    "C20_neutral_push",
    "C20_energy"
   ],
   "note": "Exact arithmetic. With reflecting boundaries the velocity turns afterwards: C20_energy. One flag combination makes the mover fail: C20_flag_failure, a defect of the code."
  },
  {
   "property": "C41",
   "status": "proved",
   "theorems": [
    "C41_fraction_in_range",
    "C41_double_precision"
   ],
   "note": "For every monotone rounding that is exact on small integers; binary64 is the instance, without overflow and NaN."
  },
  {
   "property": "C24",
   "status": "proved",
   "theorems": [
    "C24_dump_contents",
    "C24_file_history"
   ],
   "note": "Fewer than 2^53 particles; attributes of a number type, each listed once."
  },
  {
   "property": "C43",
   "status": "proved",
   "theorems": [
    "C43_file_closed_only_if"
   ],
   "note": "Leaving the file open is a defect of the code."
  },
  {
   "property": "C25",
   "status": "proved",
   "theorems": [
    "C25_room",
    "C25_configured",
    "C25_history"
   ],
   "note": "Room: for every rounding. Values: in exact arithmetic, for species that did not lose all their particles (see C44). The constructor fails with NameError if max_points is set, a defect of the code."
  },
  {
   "property": "C26",
   "status": "proved",
   "theorems": [
    "C26_interval",
    "C26_every_step",
    "C26_run",
    "C26_configured"
   ],
   "note": ""
  },
  {
   "property": "C44",
   "status": "proved",
   "theorems": [
    "C44_species_number",
    "C44_species_KE",
    "C44_died_out",
    "C44_died_out_number_refuted"
   ],
   "note": "Exact arithmetic. The behaviour for a species that died out is a defect of the code."
  },
  {
   "property": "C45",
   "status": "proved",
   "theorems": [
    "C45_final_sample_lost"
   ],
   "note": "A defect of the code."
  },
  {
   "property": "C27",
   "status": "proved",
   "theorems": [
    "C27_firing",
    "C27_fires",
    "C27_total_weight",
    "C27_weight_rounded",
    "C27_schedule"
   ],
   "note": "The random numbers are an arbitrary stream. That a firing succeeds needs a storage that accepts particles (C47) and a generator that hits every cell (C27_fires). Weight: exact, and within three roundings in double precision without underflow."
  },
  {
   "property": "C28",
   "status": "proved",
   "theorems": [
    "C28_unique",
    "C28_never_reused",
    "C28_wrap_refuted"
   ],
   "note": "Up to 2^32 particles per process; beyond that the int32 attribute wraps (C28_wrap_refuted). Listed particles take their IDs from the counter, as the user modules do."
  },
  {
   "property": "C46",
   "status": "proved",
   "theorems": [
    "C46_first_point",
    "C46_after_loop_refuted"
   ],
   "note": "The behaviour after a diagnostic loop is a defect of the code."
  },
  {
   "property": "C47",
   "status": "proved",
   "theorems": [
    "C47_new_accepts",
    "C47_push_accepts",
    "C47_pass_accepts",
    "C47_mover_accepts",
    "C47_loop_stops_accepting"
   ],
   "note": "The refusal after a loop is a defect of the code; it shows for species that are not advanced after the diagnostics."
  },
  {
   "property": "C48",
   "status": "proved",
   "theorems": [
    "C48_listed",
    "C48_over_region_refuted"
   ],
   "note": "The failure of function_over_region entries is a defect of the code."
  },
  {
   "property": "C31",
   "status": "proved",
   "theorems": [
    "C31_accumulate",
    "C31_cells_conserve",
    "C31_dofs_conserve",
    "C31_order",
    "C31_cpp_version",
    "C31_died_out_refuted"
   ],
   "note": "Exact arithmetic. The degrees of freedom, basis functions and volumes are parameters (DOLFIN's). For species that did not lose all their particles in a pass; those that did keep a density (C31_died_out_refuted), a defect of the storage class. The _CPP version always fails with a NameError, a defect of the code."
  },
  {
   "property": "C32",
   "status": "proved",
   "theorems": [
    "C32_repeated",
    "C32_twice",
    "C32_zeroed"
   ],
   "note": "Exact arithmetic. The wrong total without zeroing is how the code works; the time loop zeroes the fields."
  },
  {
   "property": "C33",
   "status": "proved",
   "theorems": [
    "C33_charge",
    "C33_order",
    "C33_errors",
    "C33_assembled_charge",
    "C33_total_charge"
   ],
   "note": "Exact arithmetic. C33_assembled_charge is the density update of the time loop of examples/sphere1D."
  },
  {
   "property": "C29",
   "status": "proved",
   "theorems": [
    "C29_python",
    "C29_cpp",
    "C29_agree",
    "C29_two_names_refuted"
   ],
   "note": "The different choice for boundaries that share a tag is a defect of the code (C29_two_names_refuted)."
  },
  {
   "property": "C30",
   "status": "proved",
   "theorems": [
    "C30_names",
    "C30_unique",
    "C30_no_for_refuted",
    "C30_effect",
    "C30_defaults"
   ],
   "note": "The first version of this property claimed that names without '_for_' never collide; C30_no_for_refuted is the counterexample."
  },
  {
   "property": "C34",
   "status": "proved",
   "theorems": [
    "C34_table",
    "C34_mutual",
    "C34_cpp_same",
    "C34_three_cells_refuted"
   ],
   "note": "Meshes with at most two cells per facet; with three the Python table is not mutual (C34_three_cells_refuted)."
  },
  {
   "property": "C35",
   "status": "proved",
   "theorems": [
    "C35_vertices",
    "C35_volumes",
    "C35_widths"
   ],
   "note": "Exact arithmetic."
  },
  {
   "property": "C49",
   "status": "proved",
   "theorems": [
    "C49_conforming",
    "C49_tracking",
    "C49_radial",
    "C49_unmarked_end_refuted"
   ],
   "note": "Exact arithmetic. DOLFIN's numbering of interval meshes, normals and point test are stated in LineMeshModel.v. The missing markers of the 1D mesh of UserMesh_C are a defect of the code."
  },
  {
   "property": "C36",
   "status": "proved",
   "theorems": [
    "C36_cells",
    "C36_cells_exact",
    "C36_rectangle_kept",
    "C36_misfit",
    "C36_sphere_radius_lost",
    "C36_sphere_is_slab",
    "C36_source",
    "C36_radial_source"
   ],
   "note": "The spherical region's slab and lost radius are defects of the code. DOLFIN's midpoint, circumradius and contains are parameters."
  },
  {
   "property": "C19",
   "status": "proved",
   "theorems": [
    "C19_find_facet",
    "C19_start_point",
    "C19_xy_start_point",
    "C19_charged",
    "C19_charged_rounded",
    "C19_neutral_xyz",
    "C19_neutral_xyz_reflecting",
    "C19_xy_facet",
    "C19_xy_refuted",
    "C19_accel_only_refuted"
   ],
   "note": "The 2D neutral mover violates the agreement: C19_xy_start_point and C19_xy_facet say exactly what it does, C19_xy_refuted gives two particles (wrong crossing; no facet found). accel_only is ignored in C++ (C19_accel_only_refuted)."
  },
  {
   "property": "C37",
   "status": "proved",
   "theorems": [
    "C37_inside",
    "C37_order",
    "C37_other_dimensions",
    "C37_cell",
    "C37_filter_2d",
    "C37_filter_3d",
    "C37_double",
    "C37_underflow_refuted"
   ],
   "note": "The exact stages orient2dadapt and orient3dadapt are not modelled: C37_double takes the sign of what they return as a hypothesis. Overflow is outside the model. C37_underflow_refuted shows that the spacing condition cannot be dropped altogether."
  },
  {
   "property": "C38",
   "status": "proved",
   "theorems": [
    "C38_views",
    "C38_layout",
    "C38_single_precision_refuted",
    "C38_convert",
    "C38_round_trip",
    "C38_too_long_accepted",
    "C38_push",
    "C38_read_back",
    "C38_failed_push"
   ],
   "note": "pybind11's casts are stated in PstructModel.v; there is no conversion from a dictionary in the code. That a tuple that is too long is accepted is a weakness of the code."
  },
  {
   "property": "C39",
   "status": "proved",
   "theorems": [
    "C39_partition",
    "C39_numbers",
    "C39_tables",
    "C39_fails",
    "C39_movers",
    "C39_each_moved_once",
    "C39_warning_refuted",
    "C39_same_name_refuted"
   ],
   "note": "The false warning, the shared container of species with equal names and the missing C++ movers are findings about the code."
  },
  {
   "property": "C40",
   "status": "proved",
   "theorems": [
    "C40_clock",
    "C40_clock_exact",
    "C40_step",
    "C40_ledger",
    "C40_balance",
    "C40_number",
    "C40_counter",
    "C40_unique_ids",
    "C40_charge_current",
    "C40_progress",
    "C40_run_total",
    "C40_feeding_refuted",
    "C40_blocked_refuted"
   ],
   "note": "The time loop of sphere1D.py for any setup. The success of steps is shown for line meshes in exact arithmetic, with trajectories switched off. That a step fails when a source feeds a species at the wrong moment is a defect of the code (C40_feeding_refuted, C40_blocked_refuted)."
  },
  {
   "property": "C50",
   "status": "proved",
   "theorems": [
    "C50_phases",
    "C50_file",
    "C50_history",
    "C50_trajectories",
    "C50_completes"
   ],
   "note": "C50_history is about exact arithmetic and programs in which no species dies out (C44 and C31 show what happens otherwise); C50_completes is about runs without trajectories (C51_completes about runs with them). That the file stays open when the last step is a step with output is a defect of the code (C43)."
  },
  {
   "property": "C51",
   "status": "proved",
   "theorems": [
    "C51_movers",
    "C51_mover_goes_on",
    "C51_run_unchanged",
    "C51_run_transparent",
    "C51_completes"
   ],
   "note": "C51_run_unchanged (a program that ends with trajectories ends the same without) needs only boundary functions that do not touch the trajectories; the converse, C51_run_transparent, needs the other conditions."
  },
  {
   "property": "C52",
   "status": "proved",
   "theorems": [
    "C52_points",
    "C52_samples",
    "C52_room",
    "C52_times"
   ],
   "note": "The time of a crossing point is only bounded in exact arithmetic (C52_times). The boundary functions must not touch the trajectories and the sources must feed charged species."
  },
  {
   "property": "C53",
   "status": "proved",
   "theorems": [
    "C53_located",
    "C53_outside",
    "C53_no_dictionary_refuted",
    "C53_push_refused_refuted",
    "C53_ready",
    "C53_died_out_refuted"
   ],
   "note": "What DOLFIN's search tree returns is a hypothesis (Search in LocateProps.v). The refuted theorems are defects of the code."
  },
  {
   "property": "C54",
   "status": "proved",
   "theorems": [
    "C54_names",
    "C54_shipped_names",
    "C54_which",
    "C54_files",
    "C54_times",
    "C54_fails",
    "C54_same_id_refuted"
   ],
   "note": "What h5py stores on disk is not modelled: a file is its attributes and groups. The refuted theorem is a defect of the code for IDs that repeat."
  },
  {
   "property": "C55",
   "status": "proved",
   "theorems": [
    "C55_conforming",
    "C55_rectangle",
    "C55_rectangle_filled",
    "C55_rectangle_tracked",
    "C55_ring",
    "C55_ring_crossed"
   ],
   "note": "Exact arithmetic. The vertices, cells and normals of DOLFIN's RectangleMesh and the rule of SubDomain.mark are stated in TriMeshModel.v; the numbering of the facets is arbitrary. That a crossed ring mesh with flat cells is not conforming is a defect of the code."
  },
  {
   "property": "C56",
   "status": "proved",
   "theorems": [
    "C56_ends",
    "C56_ranked",
    "C56_rectangle",
    "C56_too_far"
   ],
   "note": "Exact arithmetic. C56_too_far is a limitation of the code: the limit of 100 crossings in the shipped programs stops a program with a finer mesh whose particles move far in one step."
  },
  {
   "property": "C57",
   "status": "proved",
   "theorems": [
    "C57_progress",
    "C57_blocked_refuted",
    "C57_run_total",
    "C57_completes"
   ],
   "note": "Exact arithmetic. The field solver is a parameter. C57_blocked_refuted is a defect of the code (see C47): a step can fail although there is memory."
  },
  {
   "property": "C58",
   "status": "proved",
   "theorems": [
    "C58_set_values",
    "C58_set_gaussian",
    "C58_multiply",
    "C58_multiply_once",
    "C58_interpolate",
    "C58_interpolate_random",
    "C58_outside",
    "C58_outside_refuted"
   ],
   "note": "The products and the interpolation are in exact arithmetic. DOLFIN's dof map, point location and basis functions are parameters. C58_outside_refuted, the shared dofs in C58_multiply and the failure in C58_set_gaussian are defects of the code."
  },
  {
   "property": "C59",
   "status": "proved",
   "theorems": [
    "C59_located",
    "C59_fields",
    "C59_draws",
    "C59_distinct"
   ],
   "note": "Any rounding. DOLFIN's dof map, point location and basis functions are parameters."
  },
  {
   "property": "C60",
   "status": "proved",
   "theorems": [
    "C60_interpolate",
    "C60_constant",
    "C60_linear_refuted",
    "C60_fields",
    "C60_null",
    "C60_same",
    "C60_record_refuted"
   ],
   "note": "Exact arithmetic. DOLFIN's dof map, point location and basis functions are parameters. The external field that is ignored, C60_linear_refuted, C60_null and C60_record_refuted are defects of the code."
  },
  {
   "property": "C61",
   "status": "proved",
   "theorems": [
    "C61_records",
    "C61_either",
    "C61_exact",
    "C61_no_traj"
   ],
   "note": "Any rounding. C61_records is a defect of the code."
  },
  {
   "property": "C62",
   "status": "proved",
   "theorems": [
    "C62_accel_only",
    "C62_walk"
   ],
   "note": "C62_accel_only for any rounding, C62_walk in exact arithmetic. DOLFIN's dof map, point location and basis functions are parameters. The set-up of random-accel.py is not modelled; it calls a method that the container class no longer has."
  },
  {
   "property": "C63",
   "status": "proved",
   "theorems": [
    "C63_loop",
    "C63_arguments",
    "C63_facet_refuted"
   ],
   "note": "C63_loop and C63_facet_refuted in exact arithmetic, C63_arguments for any rounding. DOLFIN's dof map, point location and basis functions are parameters, as is what a step does besides moving. C63_arguments and C63_facet_refuted are defects of the code."
  },
  {
   "property": "C64",
   "status": "proved",
   "theorems": [
    "C64_adjoint",
    "C64_energy",
    "C64_search_exact",
    "C64_search",
    "C64_search_outside",
    "C64_line"
   ],
   "note": "Exact arithmetic. DOLFIN's dof map, point location and basis functions are parameters, for C64_line the linear Lagrange functions."
  },
  {
   "property": "C65",
   "status": "proved",
   "theorems": [
    "C65_history",
    "C65_background_lost",
    "C65_reuse",
    "C65_stale",
    "C65_repeat",
    "C65_wellposed",
    "C65_gauss",
    "C65_constant_source",
    "C65_particles"
   ],
   "note": "C65_history, C65_background_lost, C65_reuse and C65_stale for any assembled matrix, source, boundary conditions, solver and projection, and any rounding of the charge; the others in exact arithmetic (C65_gauss: any rounding of the charge). df_m.solve is a parameter that returns a solution if there is one; integrals are exact. C65_background_lost, C65_reuse, C65_stale, C65_repeat and C65_constant_source are defects of the code."
  },
  {
   "property": "C66",
   "status": "proved",
   "theorems": [
    "C66_tracking",
    "C66_flight",
    "C66_radial",
    "C66_neutral_refuted"
   ],
   "note": "Exact arithmetic. The trajectory recorder is any one that does not fail and leaves the scratch array alone. C66_neutral_refuted shows that the same does not hold for the neutral mover."
  },
  {
   "property": "C67",
   "status": "proved",
   "theorems": [
    "C67_refines",
    "C67_gauss",
    "C67_run",
    "C67_push",
    "C67_shell",
    "C67_far"
   ],
   "note": "C67_refines for any rounding, matrix, boundary conditions, linear solver and projection; the others in exact arithmetic on the radial mesh with absorbing ends, with df_m.solve a parameter that returns a solution and the evaluation of the piecewise constant field at a particle given by a function that finds its cell. The shared sum of charges that solve_for_phi scales in place is rebuilt in every step, so the scaling of C65_repeat does not show up in a run."
  }
 ]
}