# Formal model of the DT particle code

The object of study is the pinned source in `/repo` (Python, with C++ containers
and movers in `/repo/cpp`). Nothing is executed: the model is written by reading
the source, and every definition cites the file and lines that it models.

Build: `coq_makefile -f _CoqProject -o Makefile && make -j4` in `/verif/rocq`
(Coq 8.16.1, libraries std++ and Flocq).

## Method

- Shallow executable Gallina functions that follow the source branch by branch.
- Exceptions, failed assertions, out-of-range indexing, `sys.exit` and C++
  undefined behaviour are result values (`res`, `Ok`/`Raise` in `Base.v`), never
  default values.
- Uninitialised memory (`np.empty`, fresh C++ arrays) is an explicit value
  (`None` in a segment).
- `*Model.v` and `SapCpp.v` hold the model. `*Proofs.v` hold lemmas. `*Props.v`
  hold, for each property, a small specification that is independent of the
  model's helpers, the theorem, a concrete example and `Print Assumptions`.
- A property that the code violates is stated as an exact description of what the
  code does, with a concrete counterexample (`..._refuted`).
- Loops over containers and meshes are proved by induction with an invariant;
  histories of operations by induction over the list of operations.

## What is modelled, file by file

| model file | code | properties |
|---|---|---|
| `SapModel.v` | `SegmentedArrayPair_Module.py`, the whole class: constructor, push_back, indexing, the three loop starters, `get_next_segment`, `get_next_out_segment`, the counters | C01-C03, C05, C06, C08, C10 |
| `SapCpp.v` | `cpp/SegmentedArrayPair.h`, the same operations with 32-bit unsigned arithmetic and unchecked indexing | C07, C09, C11, C42 |
| `MoverModel.v` | the segment loops shared by the movers of `Particle_Module.py` (charged 1416-1853, neutral 1880-2145, uniform field 1244-1388) and of `cpp/advance_*.cpp`, parametric in what is done to one particle | C04, C07, C11 |
| `Vec.v`, `Rounding.v` | arithmetic: real numbers with a rounding function `fl`; `exact` is the identity, `b64` is Flocq's binary64 | all parts below |
| `TrackModel.v` | `Dolfin_Module.py` `find_facet` 626-894 and the cell-tracking loops of both movers, with the bit flags, callbacks and failure messages | C12-C16, C20, C41, C56 |
| `BcModel.v` | the callbacks that the repository ships (`UserParticles_*.py`, `cpp/UPBFs_*.h`: absorb, reflect, no-op), `cpp/Pstruct.h` `reflect_from_surface` | C17, C18 |
| `TrajModel.v` | `Trajectory_Module.py` and `record_trajectory_*` 2430-2542, field selection, per-particle hooks of both movers | C16, C18, C20-C23, C46 |
| `DiagModel.v` | number, kinetic energy, `write_particles_to_file` 3151-3258, `History_Module`/`Trajectory` sizing, `record_history_data` 2821-2864 | C24-C26, C43-C45 |
| `SourceModel.v` | `initialize_particles` 450-508, `create_from_list` 597-643, `add_more_particles` 693-719, `create_maxwellian_particles` 2897-3082 | C27, C28, C47, C48 |
| `DensityModel.v` | `accumulate_number_density` 892-992, `accumulate_charge_density` 2869-2891, the `Field_C` functions they use | C31-C33 |
| `BcTableModel.v` | `ParticleMeshBoundaryConditions_C` 3263-3370, its C++ counterpart, the naming scheme of callbacks | C29, C30 |
| `MeshModel.v` | `compute_cell_neighbors_dict` and the C++ neighbour array | C34 |
| `LineMeshModel.v` | the 1D and spherical-radial meshes of `UserMesh_*` and `compute_cell_volume_dict` | C35, C49, C66 |
| `TriMeshModel.v` | the 2D meshes of `UserMesh_C` and `UserMesh2DCirc_C` | C55 |
| `RegionModel.v` | `CellSet_C` 1766-1865, `RectangularRegion_C` 1871-1953, `SphericalRegion_C` 1956-1994 | C36 |
| `InsideModel.v` | `cpp/dolfin_functions.cpp` 608-726 (`is_inside_vertices`), `cpp/predicates.cpp` 674-714 (`exactinit`: two of the constants), 1650-1684, 2323-2365 (`_orient2d`, `_orient3d`, not their exact stages), 2386-2394 | C37 |
| `CppTrackModel.v` | `cpp/dolfin_functions.cpp` 75-470 (`find_facet`), the tracking of one particle in `cpp/advance_charged_species_in_E_field_{cartesian_x,cartesian_xy,spherical_r}.cpp` and `cpp/advance_neutral_species_{cartesian_xy,cartesian_xyz}.cpp`, the scratch arrays of `cpp/particle.h` 60-65 | C19 |
| `SpeciesModel.v` | `Particle_C.__init__` 131-300, `initialize_particle_integration` 511-594, the species loops of the movers, `cpp/particle_solib.cpp` 79-99 (which C++ movers exist) | C39 |
| `PstructModel.v` | `cpp/Pstruct.h` (the four record types, their conversions and registration with numpy), `push_back` of a tuple or list and `get_as_*` of `cpp/SegmentedArrayPair.h`, with pybind11's casts to double and int | C38 |
| `LocateModel.v` | `compute_mesh_cell_indices` 816-850, `Dolfin_Module.py` `compute_cell_index` 433-474, `is_inside_cell` 560-593 | C53 |
| `TrajFileModel.v` | `RecordedData_Module.py` `write_trajectories_to_files` 586-681, the selection of components in `Particle_Module.py` 2399-2421, 2508-2536, 2768-2779, 2803-2809, the attribute names 173-277, 549-561, end of `sphere1D.py` 1400-1401 | C54 |
| `MeshFieldModel.v` | `Dolfin_Module.py` `Field_C` 963-1077 (`set_values`, `multiply_values`, `set_gaussian_values`), 1104-1202 (both `interpolate_*_to_points`), and in `advance_charged_species_in_E_field` 1416-1853 the fields of a segment (1475-1521) with the arrays that are used again for the next one | C58, C59 |
| `CppFieldModel.v` | `cpp/dolfin_functions.cpp` 496-605 (`interpolate_field_to_points`), the segment loop of `cpp/advance_charged_species_in_E_field_{cartesian_x,cartesian_xy,spherical_r}.cpp` with its field arrays and the recording of crossings | C60 |
| `OldMoverModel.v` | `Particle_Module.py` 1016-1388 (`move_particles_in_electrostatic_field`), 1391-1413 (`advance_charged_particles_in_E_field`), the steps of `examples/random-accel/random-accel.py` 243-250 | C61, C62 |
| `CppStepModel.v` | `Particle_Module.py` 1391-1413 (`advance_charged_particles_in_E_field` with C++ movers), the charged particles in the time loop of `examples/sphere1D/sphere1D.py` 1275-1367 with either kind of mover (the rest of a step is a parameter) | C63 |
| `DeltaModel.v` | `Dolfin_Module.py` 1205-1248 (`integrate_delta_function`; DOLFIN's `PointSource` as described there), the scalar space of a field as 1104-1154 sees it | C64 |
| `SolveModel.v` | `Dolfin_Module.py` 1406-1745 (`PoissonSolve_C`; the sharing of `function` and `function_values`, 927-928 and 1737), `UserMesh_y_Fields_Spherical1D_Module.py` 389-485 (`UserPoissonSolve1DS_C`: form, source, boundary conditions, gradient on linear elements) | C65 |
| `RunModel.v` | the program of `examples/sphere1D/sphere1D.py` 1189-1397 (initial particles, time loop, last snapshot) and the species loop `advance_charged_particles_in_E_field` 1391-1413, built from the models above | C40, C50, C51, C52, C57 |
| `PicModel.v` | the same time loop with the solver object of `SolveModel.v` carried from step to step in the place of a function of the charge (`sphere1D.py` 1209-1232, 1274-1367; the evaluation of the electric field at a particle is a parameter) | C67 |

The tracking theorems (C14, C15) ask for a *conforming* mesh (`Conforming.v`):
cells are intersections of half-spaces with unit outward normals, and the two
sides of a shared facet agree. C49 and C55 show which of the interval, rectangle and ring
meshes that the code builds are conforming, so that the theorems apply to them without a
hypothesis; C56 shows for the rectangle which limit of facet crossings is enough for all moves,
and C57 uses this for whole programs.

## Trusted base

1. The Coq 8.16.1 kernel (`coqc`, including the `vm_compute` conversion).
2. The axioms below, all from the standard library. No axiom is added by this
   development.
3. The reading of the source. The tie between the model and `/repo` is the
   citation at each definition.

### Axioms per theorem, as printed by `Print Assumptions`

<!-- axioms begin -->

**No axioms (closed under the global context)** — 60 theorems:
- `StorageProps.v`: C01_push_keeps_place, C02_storage_grows_as_needed, C03_out_loop_visits_all, C04_pass_keeps_survivors, C04_pass_is_sequential, C05_history_refines_list, C06_push_refused_exactly, C06_push_or_assert, C06_push_fails_after_full_loop, C06_push_after_pass, C07_died_out_species, C08_indexed_access, C10_segment_length_invisible, C11_uniform_mover_count, C11_uniform_mover_count_iff
- `CppPassProps.v`: C04_cpp_pass_is_sequential
- `CppProps.v`: C07_cpp_died_out_recovers, C07_cpp_length_one_refuted, C11_cpp_uniform_mover_count, C09_cpp_agrees_with_python, C09_cpp_history_refines_list, C42_unchecked_push
- `TrajRecProps.v`: C22_datum_appends_one
- `SourceProps.v`: C27_schedule
- `AcceptProps.v`: C46_first_point, C46_after_loop_refuted, C47_new_accepts, C47_push_accepts, C47_pass_accepts, C47_mover_accepts, C47_loop_stops_accepting
- `DensityProps.v`: C31_cpp_version
- `BcTableProps.v`: C29_python, C29_cpp, C29_agree, C29_two_names_refuted, C30_names, C30_unique, C30_no_for_refuted, C30_effect, C30_defaults
- `MeshProps.v`: C34_table, C34_mutual, C34_cpp_same, C34_three_cells_refuted
- `PstructProps.v`: C38_views, C38_layout, C38_single_precision_refuted, C38_convert, C38_round_trip, C38_too_long_accepted, C38_push, C38_read_back, C38_failed_push
- `LocateProps.v`: C53_located, C53_outside, C53_no_dictionary_refuted, C53_push_refused_refuted, C53_died_out_refuted
- `TrajFileProps.v`: C54_names

**`ClassicalDedekindReals.sig_forall_dec`** — 20 theorems:
- `TrajRecProps.v`: C22_no_overflow, C22_history, C22_remove_closes, C23_room_for_all, C23_full_charged_silences, C23_full_neutral_fails, C23_same_step
- `TrajRunProps.v`: C26_run
- `DensityProps.v`: C33_errors
- `CppTrackProps.v`: C19_start_point, C19_xy_start_point
- `LocateProps.v`: C53_ready
- `TrajFileProps.v`: C54_shipped_names
- `MeshFieldProps.v`: C58_set_values
- `CppFieldProps.v`: C60_interpolate, C60_record_refuted
- `SolveProps.v`: C65_history, C65_background_lost, C65_reuse, C65_stale

**`ClassicalDedekindReals.sig_forall_dec`, `FunctionalExtensionality.functional_extensionality_dep`** — 149 theorems:
- `TrackProps.v`: C12_tracking_ends_in_cell, C12_tracking_errors
- `FindFacetProps.v`: C13_find_facet
- `TrackGeomProps.v`: C14_no_impossible_errors, C15_crossing_times_and_positions
- `ReflectProps.v`: C17_specular_reflection, C17_cpp_same, C18_move_seen_by_callback, C18_stale_reflection_wrong, C18_neutral_reflection_refuted
- `TrajProps.v`: C16_movers_preserve_identity, C21_pass_reindexes, C21_trajectories_follow, C21_history
- `TrajRecProps.v`: C22_through_movers, C22_deleted_last_point
- `FieldProps.v`: C20_particle_push, C20_pass_push, C20_flag_failure, C20_neutral_push, C20_energy
- `RoundProps.v`: C41_fraction_in_range
- `DumpProps.v`: C24_dump_contents, C24_file_history, C43_file_closed_only_if
- `HistoryProps.v`: C25_room, C25_configured, C25_history, C26_interval, C26_every_step
- `TrajRunProps.v`: C26_configured, C45_final_sample_lost
- `SumProps.v`: C44_species_number, C44_species_KE, C44_died_out, C44_died_out_number_refuted
- `SourceProps.v`: C27_firing, C27_fires
- `UidProps.v`: C28_unique, C28_never_reused, C28_wrap_refuted, C48_listed, C48_over_region_refuted
- `DensityProps.v`: C31_accumulate, C31_cells_conserve, C31_dofs_conserve, C31_order, C31_died_out_refuted, C32_repeated, C32_twice, C32_zeroed, C33_charge, C33_order, C33_assembled_charge, C33_total_charge
- `LineMeshProps.v`: C49_conforming, C49_tracking, C49_unmarked_end_refuted
- `RegionProps.v`: C36_cells, C36_cells_exact, C36_rectangle_kept, C36_misfit, C36_sphere_radius_lost, C36_sphere_is_slab, C36_source
- `CppTrackProps.v`: C19_find_facet, C19_charged, C19_charged_rounded, C19_neutral_xyz, C19_neutral_xyz_reflecting, C19_xy_facet, C19_xy_refuted, C19_accel_only_refuted
- `InsideProps.v`: C37_inside, C37_order, C37_other_dimensions, C37_cell
- `SpeciesProps.v`: C39_partition, C39_numbers, C39_tables, C39_fails, C39_movers, C39_each_moved_once, C39_warning_refuted, C39_same_name_refuted
- `RunProps.v`: C40_clock, C40_clock_exact, C40_step, C40_ledger, C40_balance, C40_number, C40_counter, C40_unique_ids, C40_charge_current, C40_feeding_refuted
- `RunTotalProps.v`: C40_progress, C40_run_total, C40_blocked_refuted
- `MainProps.v`: C50_phases, C50_file, C50_history, C50_trajectories
- `MainTotalProps.v`: C50_completes
- `TransparentProps.v`: C51_movers, C51_run_unchanged
- `HarmlessProps.v`: C51_mover_goes_on, C51_run_transparent, C51_completes
- `PointRunProps.v`: C52_points, C52_samples, C52_room, C52_times
- `TrajFileRunProps.v`: C54_which, C54_files, C54_times, C54_fails, C54_same_id_refuted
- `RankProps.v`: C56_ends, C56_ranked
- `MeshFieldProps.v`: C58_set_gaussian, C58_multiply, C58_multiply_once, C58_interpolate, C58_outside, C58_outside_refuted
- `CppFieldProps.v`: C60_constant, C60_linear_refuted, C60_fields, C60_null
- `CppStepProps.v`: C63_arguments, C63_facet_refuted
- `DeltaProps.v`: C64_adjoint, C64_energy, C64_search_exact, C64_search, C64_search_outside, C64_line
- `SolveProps.v`: C65_repeat, C65_wellposed, C65_gauss, C65_constant_source, C65_particles
- `RadialReflectProps.v`: C66_tracking, C66_flight, C66_neutral_refuted
- `PicProps.v`: C67_refines, C67_gauss, C67_run, C67_push, C67_shell, C67_far

**`ClassicalDedekindReals.sig_forall_dec`, `ClassicalDedekindReals.sig_not_dec`, `FunctionalExtensionality.functional_extensionality_dep`** — 25 theorems:
- `SourceProps.v`: C27_total_weight
- `LineMeshProps.v`: C35_volumes
- `TriMeshProps.v`: C55_conforming
- `RectMeshProps.v`: C55_rectangle, C55_rectangle_tracked
- `RectFillProps.v`: C55_rectangle_filled
- `RectTrackProps.v`: C56_rectangle, C56_too_far
- `RectRunProps.v`: C57_progress, C57_blocked_refuted, C57_run_total, C57_completes
- `MeshFieldProps.v`: C58_interpolate_random
- `BatchProps.v`: C59_located, C59_fields, C59_draws, C59_distinct
- `CppFieldProps.v`: C60_same
- `OldMoverProps.v`: C61_records, C61_either, C61_exact, C61_no_traj
- `AccelProps.v`: C62_accel_only, C62_walk
- `CppStepProps.v`: C63_loop

**`ClassicalDedekindReals.sig_forall_dec`, `ClassicalDedekindReals.sig_not_dec`, `Classical_Prop.classic`, `FunctionalExtensionality.functional_extensionality_dep`** — 13 theorems:
- `RoundProps.v`: C41_double_precision
- `SourceProps.v`: C27_weight_rounded
- `LineMeshProps.v`: C35_vertices, C35_widths, C49_radial
- `RegionProps.v`: C36_radial_source
- `OrientProps.v`: C37_filter_2d, C37_filter_3d, C37_double, C37_underflow_refuted
- `CircMeshProps.v`: C55_ring
- `CircMoreProps.v`: C55_ring_crossed
- `RadialReflectProps.v`: C66_radial

<!-- axioms end -->

## Simplifications

Each is repeated at the definition it concerns.

- **Numbers.** Real numbers with a rounding function applied after every
  operation that the theorem at hand rounds. Theorems with a parameter `fl` hold
  for every rounding, those with `Rounding fl` for every monotone idempotent
  rounding that keeps integers (double precision is an instance), those with
  `exact` for exact arithmetic. Not-a-number, infinities and overflow are not
  modelled; `np.dot` adds from left to right; `np.sum` is exact.
- **Integers.** Python integers are `Z`. The int32 fields of the particle record
  wrap (`int32`, C28). The C++ container's `unsigned` wraps (`u32`).
- **DOLFIN.** `cell.contains`, the search tree, midpoints, circumradii, volumes, dof maps and basis
  values are parameters of the model, with the hypotheses stated in each theorem.
  The numbering and normals of DOLFIN's interval meshes are written down in
  `LineMeshModel.v`, those of its rectangle meshes and the rule by which it marks the
  facets of a boundary in `TriMeshModel.v`. The numbers of the facets are arbitrary there.
- **C++ boundary functions.** They read the move vector and do not write it (they
  take it as `const double[]`). Calling a missing one is undefined behaviour.
- **Fields.** In the models of whole runs the electric field at a particle is a function of the
  particle; C59 shows that the arrays per segment of the Python mover amount to that, C60 what
  those of the C++ movers amount to.
- **Trajectories.** A recorded point is the record of the values that the data
  dictionary may select; the selection is made when the files are written
  (`TrajFileModel.v`), not when the point is recorded.
- **Output file.** Groups and datasets only, not the file's attributes. (Trajectory files
  have their attributes.)
- **Random numbers.** An arbitrary stream.
- **Python attributes.** A user class has or has not a callback of a given name;
  an attribute with the value `None` is not modelled. Columns of a history with
  the same name are not identified.
- **Printing.** Messages printed to the terminal are not modelled.

## Not modelled

The code inside DOLFIN (assembly, linear solvers, projection, search and evaluation: what they compute is
described in the model or is a parameter), the solvers for two and three coordinates as far as they differ from the
radial one, plotting, HDF5,
the random-number generator, pybind11 marshalling (except the casts of C38), the input-file classes,
`ParticleMeshSources_C` (unfinished in the source), `examples/` except for the
program of `sphere1D.py` from line 1189 (initial particles, time loop, last snapshot and trajectory
points, trajectory files; its set-up, plots and the files of fields are not modelled; the field
solver is a parameter of the run, for which C67 puts the solver object) and the steps of `random-accel.py` (243-250).
