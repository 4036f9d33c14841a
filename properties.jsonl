{"id": "C01", "title": "Appended particles keep their place", "statement": "Starting from a new segmented array pair, after any number of push_back calls every call has succeeded, the k-th call (k from 0) returned full index k and offset k mod L, get_item(k) returns exactly the k-th pushed record, and get_number_of_items equals the number of calls.", "quantifier": "every segment length L >= 1, every record type and every finite sequence of pushed records", "why_tests_cant": "The segment hand-over happens only at multiples of L; tests push a handful of particles with one L, not every sequence and every L.", "anchors": ["SegmentedArrayPair_Module.py:SegmentedArrayPair_C.push_back", "SegmentedArrayPair_Module.py:SegmentedArrayPair_C.get_item", "SegmentedArrayPair_Module.py:SegmentedArrayPair_C.add_segment", "SegmentedArrayPair_Module.py:SegmentedArrayPair_C.get_number_of_items"]}
{"id": "C02", "title": "Storage grows exactly as needed", "statement": "After n push_back calls on a new pair the out array owns exactly max(1, ceil(n/L)) segments, get_capacity is that many times L and is never smaller than get_number_of_items; the other array of the pair is untouched.", "quantifier": "every L >= 1 and every n and every sequence of records", "why_tests_cant": "An off-by-one at a segment boundary appears only at particular (n, L) pairs.", "anchors": ["SegmentedArrayPair_Module.py:SegmentedArrayPair_C.push_back", "SegmentedArrayPair_Module.py:SegmentedArrayPair_C.get_capacity", "SegmentedArrayPair_Module.py:SegmentedArrayPair_C.get_number_of_segments"]}
{"id": "C03", "title": "A loop over the out array visits every stored item once, in order", "statement": "From any state reached by the public operations with at least one stored item, init_out_loop followed by get_next_segment('out') until None yields slices whose concatenation is exactly the stored items in order, every slice except the last has L items, no slice is empty, and the stored items and count are unchanged.", "quantifier": "every reachable storage state with count >= 1, every L >= 1", "why_tests_cant": "Iteration depends on count relative to L and on which array currently plays 'out'; the number of such states is unbounded.", "anchors": ["SegmentedArrayPair_Module.py:SegmentedArrayPair_C.init_out_loop", "SegmentedArrayPair_Module.py:SegmentedArrayPair_C.get_next_segment"]}
{"id": "C04", "title": "A particle pass keeps exactly the survivors, in order", "statement": "A mover pass (init_inout_loop, per-particle update, get_next_out_segment on demand, set_number_of_items) leaves as the new out contents exactly the updated records of the particles that were not deleted, in their original order, and the stored count is the number of those survivors, whenever at least one survives.", "quantifier": "every L >= 1, every stored sequence, every per-particle update that may delete, every number of earlier passes (so every number of already allocated segments)", "why_tests_cant": "In and out cursors run at different speeds; the final count is wrong only for particular survivor counts modulo L.", "anchors": ["Particle_Module.py:Particle_C.advance_charged_species_in_E_field", "Particle_Module.py:Particle_C.advance_neutral_species", "SegmentedArrayPair_Module.py:SegmentedArrayPair_C.init_inout_loop", "SegmentedArrayPair_Module.py:SegmentedArrayPair_C.get_next_out_segment", "SegmentedArrayPair_Module.py:SegmentedArrayPair_C.set_number_of_items"]}
{"id": "C05", "title": "Storage behaves like a list with a cursor over any history", "statement": "For any history of push_back, complete or partial out-loops, get, set, count and mover passes, the Python container produces the same outputs as a plain list of items with one loop cursor; the only possible failures are the ones the plain model predicts, and every failing call is identified exactly.", "quantifier": "every L >= 1 and every finite history of the public operations", "why_tests_cant": "Needs a refinement argument over unbounded histories that mix the operations; unit tests exercise each operation alone.", "anchors": ["SegmentedArrayPair_Module.py:SegmentedArrayPair_C"]}
{"id": "C06", "title": "push_back fails exactly when the loop cursor is out of step", "statement": "In every reachable state push_back either stores the item or raises AssertionError, and it raises exactly when the stored count is a positive multiple of L and the loop cursor is not on the last occupied segment. In particular it fails after a completed out-loop over a full last segment, and after a mover pass that opened a last segment in which nothing survived.", "quantifier": "every L >= 1, every reachable state, every item", "why_tests_cant": "The failing states need a specific count modulo L together with a specific previous loop; they show up as a crash hours into a run with a source and an absorber.", "anchors": ["SegmentedArrayPair_Module.py:SegmentedArrayPair_C.push_back", "Particle_Module.py:Particle_C.add_more_particles"]}
{"id": "C07", "title": "A species that dies out", "statement": "When every particle of a species is deleted in one pass, the Python count becomes 0 but the container is not equivalent to an empty one: the next out-loop yields L stale records and the next push_back raises AssertionError. The C++ container handles the same case correctly for L >= 2.", "quantifier": "every L >= 2 and every stored sequence of at least one particle", "why_tests_cant": "The state is reached only when the last particle of a species is absorbed; the repo's tests never continue from there.", "anchors": ["SegmentedArrayPair_Module.py:SegmentedArrayPair_C.set_number_of_items", "cpp/SegmentedArrayPair.h:set_number_of_items"]}
{"id": "C08", "title": "Indexed read and write", "statement": "Writing item i of the out array (i below the count) and reading it back returns the written record; every other item, the count, and the other array are unchanged; an index at or beyond the capacity raises IndexError instead of touching storage.", "quantifier": "every reachable state, every L >= 1, every pair of indices", "why_tests_cant": "Index arithmetic crosses segment boundaries; aliasing between the two arrays can only be excluded for all pairs of indices by proof.", "anchors": ["SegmentedArrayPair_Module.py:SegmentedArrayPair_C.__getitem__", "SegmentedArrayPair_Module.py:SegmentedArrayPair_C.__setitem__", "SegmentedArrayPair_Module.py:SegmentedArrayPair_C.get_segment_and_offset"]}
{"id": "C09", "title": "The C++ container agrees with the Python one", "statement": "For every history of push_back (structured-array overload), out-loops, get, set and passes that never empties the container, the C++ container gives the same results, the same items and the same assertion failures as the Python container.", "quantifier": "every L >= 1 with fewer than 2^32 slots, every such history", "why_tests_cant": "Agreement of two implementations over unbounded histories.", "anchors": ["cpp/SegmentedArrayPair.h:SegmentedArrayPair", "SegmentedArrayPair_Module.py:SegmentedArrayPair_C"]}
{"id": "C10", "title": "Results do not depend on the segment length", "statement": "The particles that a mover pass leaves, their order and the count are the same for every segment length; storage blocking is invisible.", "quantifier": "every two segment lengths, every particle list and update function", "why_tests_cant": "A relational property over all pairs of segment lengths.", "anchors": ["Particle_Module.py:Particle_C.advance_charged_species_in_E_field", "Particle_Module.py:Particle_C.advance_neutral_species"]}
{"id": "C11", "title": "The uniform-field mover's particle count", "statement": "advance_charged_species_in_uniform_fields in Python reports the right number of particles exactly when the number of survivors is zero or not a multiple of L; for every positive multiple of L it reports L particles too many (the C++ version is right in every case).", "quantifier": "every L >= 1, every stored particle list with any pattern of deleted flags", "why_tests_cant": "Only particle counts that are multiples of 100 expose it.", "anchors": ["Particle_Module.py:Particle_C.advance_charged_species_in_uniform_fields", "cpp/advance_charged_species_in_uniform_fields_cartesian_xyz.cpp"]}
{"id": "C12", "title": "Cell tracking ends in the right cell", "statement": "When the facet-tracking loop of a mover returns normally, the particle either is inside the cell stored in its cell_index or carries the delete flag; the number of facet crossings recorded in the particle is at most MAX_FACET_CROSS_COUNT; the loop always ends, normally or with RuntimeError.", "quantifier": "every mesh, every particle, every boundary-condition callback, every MAX_FACET_CROSS_COUNT", "why_tests_cant": "The loop is driven by geometry and user callbacks; termination and the final-cell guarantee must hold for all of them.", "anchors": ["Particle_Module.py:Particle_C.advance_charged_species_in_E_field", "Particle_Module.py:Particle_C.advance_neutral_species"]}
{"id": "C13", "title": "find_facet returns the facet through which the particle leaves", "statement": "For a start point in a convex cell and a move ending outside it, find_facet returns a facet, a fraction f with 0 <= f < 1 such that the point start + f*move lies on that facet's plane and inside the closed cell, and every earlier point of the move is inside the cell. It returns NO_FACET exactly when the move does not end strictly beyond any facet.", "quantifier": "every convex cell given by facet planes, every start point in it, every move vector (exact arithmetic)", "why_tests_cant": "A geometric for-all over real-valued inputs.", "anchors": ["Dolfin_Module.py:Mesh_C.find_facet", "cpp/dolfin_functions.cpp:find_facet"]}
{"id": "C14", "title": "Tracking never hits its 'should not happen' errors on a conforming mesh", "statement": "In exact arithmetic, on a conforming mesh with absorbing or specularly reflecting boundaries, a particle that starts in its recorded cell never triggers the NO_FACET error nor the same-facet-twice error; the only possible error is exceeding MAX_FACET_CROSS_COUNT.", "quantifier": "every conforming mesh, every particle starting in its cell, every choice of absorbing or reflecting boundary per facet", "why_tests_cant": "The error branches depend on the whole path through the mesh.", "anchors": ["Particle_Module.py:Particle_C.advance_charged_species_in_E_field", "Dolfin_Module.py:Mesh_C.find_facet", "Dolfin_Module.py:Mesh_C.compute_cell_neighbors_dict"]}
{"id": "C15", "title": "Crossing times and crossing positions agree", "statement": "During tracking, the elapsed part and the remaining part of the step always add up to dt, the recorded crossing times never decrease and stay in [t-dt, t], and until a boundary callback changes the particle each recorded crossing position is the straight-line position at the recorded crossing time.", "quantifier": "every particle, move, mesh and number of crossings (exact arithmetic)", "why_tests_cant": "An invariant over an unbounded number of facet crossings.", "anchors": ["Particle_Module.py:Particle_C.advance_charged_species_in_E_field", "Particle_Module.py:Particle_C.advance_neutral_species"]}
{"id": "C16", "title": "Movers preserve particle identity", "statement": "A surviving particle keeps its weight, its unique_ID and its trajectory flag through a pass, and its DELETE flag is clear, for boundary callbacks that absorb or reflect.", "quantifier": "every particle list, mesh, field and number of crossings, every mix of absorbing and reflecting callbacks", "why_tests_cant": "Frame conditions over all runs.", "anchors": ["Particle_Module.py:Particle_C.advance_charged_species_in_E_field", "UserParticles_2D_e.py:UserParticleBoundaryFunctions_C", "UserParticles_1D.py:UserParticleBoundaryFunctions_C"]}
{"id": "C17", "title": "Specular reflection", "statement": "The reflecting boundary callback preserves kinetic energy, reverses exactly the velocity component along the facet normal, leaves the tangential part unchanged, mirrors the end point through the facet plane, puts it on the inner side, and applied twice gives back the original state.", "quantifier": "every dimension 1 to 3, every unit normal, every move and fraction, every velocity (exact arithmetic)", "why_tests_cant": "Algebraic identity over all real vectors.", "anchors": ["UserParticles_2D_e.py:UserParticleBoundaryFunctions_C.bc_at_rmin_for_test_electrons", "UserParticles_1D.py:UserParticleBoundaryFunctions_C.default_bc_at_rmin", "cpp/Pstruct.h:reflect_from_surface"]}
{"id": "C18", "title": "The neutral mover hands the reflecting callback a stale move vector", "statement": "In the Python neutral mover the move vector seen by a reflecting boundary callback is not the current move: whatever move is made, the callback sees the vector left by earlier users of the shared scratch array, so the reflected end point differs from the mirror image (in the charged mover it is the mirror image).", "quantifier": "every particle and move; a witness for the difference", "why_tests_cant": "Depends on hidden aliasing between two objects; the tests use absorbing boundaries for neutrals.", "anchors": ["Particle_Module.py:Particle_C.advance_neutral_species", "UserParticles_2D_e.py:UserParticleBoundaryFunctions_C.__init__"]}
{"id": "C19", "title": "The C++ movers track a particle as the Python ones do, except the 2D neutral mover", "statement": "For the same mesh, field and boundary functions, the C++ find_facet returns the facet, fraction and normal that the Python one returns, and the C++ charged movers (1D, radial, 2D) and the 3D neutral mover give every particle the final record, crossings and effects that the Python mover gives, or both fail. advance_neutral_species_cartesian_xy instead hands find_facet the point (pCoord2[2], x0), which is not the particle's start point unless x0 = y0 = pCoord2[2], so it finds wrong crossings or none. The C++ charged movers ignore accel_only.", "quantifier": "every mesh, particle record, field, boundary function and scratch content, every rounding", "why_tests_cant": "Buffer layout error visible only for moves that cross a facet, and only in 2D.", "anchors": ["cpp/dolfin_functions.cpp:75-470", "cpp/advance_neutral_species_cartesian_xy.cpp:181-192", "cpp/advance_neutral_species_cartesian_xyz.cpp:200-214", "cpp/advance_charged_species_in_E_field_cartesian_x.cpp:310-473", "cpp/advance_charged_species_in_E_field_cartesian_xy.cpp:278-429", "cpp/advance_charged_species_in_E_field_spherical_r.cpp:321-478"]}
{"id": "C20", "title": "Field push", "statement": "A charged-particle pass changes each velocity component by exactly (q/m)*dt times the applied field at the particle's start position, where the applied field is minus the solved negative field, or zero when no field is given, plus the external field; the position then moves by the new velocity times dt, or not at all with accel_only.", "quantifier": "every particle, field, charge-to-mass ratio, dt and flag combination (exact arithmetic)", "why_tests_cant": "The sign conventions and flag combinations must be right for all values.", "anchors": ["Particle_Module.py:Particle_C.advance_charged_species_in_E_field"]}
{"id": "C21", "title": "Trajectory bookkeeping follows the particle", "statement": "After any sequence of mover passes, every live trajectory entry holds the current storage index of exactly the particle it was created for, and every trajectory whose particle was deleted is marked dead and never becomes live again.", "quantifier": "every sequence of passes with any deletions, every set of trajectory particles, every L >= 1", "why_tests_cant": "Indices shift with every deletion; the list is searched and rewritten while the pass is under way.", "anchors": ["Particle_Module.py:Particle_C.update_trajectory_particleId", "Particle_Module.py:Particle_C.remove_trajectory_particleId", "RecordedData_Module.py:Trajectory_C"]}
{"id": "C22", "title": "Trajectories never overflow, and lose points only when full", "statement": "Recording a facet crossing, a periodic sample of a charged particle, or a removal never writes beyond a trajectory's array: its length never exceeds npoints, each successful record appends exactly one point, and points already recorded never change.", "quantifier": "every sequence of recording calls, every npoints", "why_tests_cant": "Bounds over unbounded sequences of recordings.", "anchors": ["Particle_Module.py:Particle_C.record_trajectory_datum", "Particle_Module.py:Particle_C.record_trajectory_data", "Particle_Module.py:Particle_C.remove_trajectory_particleId"]}
{"id": "C23", "title": "One full trajectory silences the others", "statement": "record_trajectory_data stops at the first full charged trajectory: no later trajectory gets its point and the step is not marked as done; a full neutral trajectory raises IndexError instead. When no trajectory is full, every live trajectory gets exactly one point.", "quantifier": "every set of trajectories and lengths", "why_tests_cant": "Needs trajectories of unequal length, which arise only from boundary crossings in long runs.", "anchors": ["Particle_Module.py:Particle_C.record_trajectory_data"]}
{"id": "C24", "title": "Particle dump contents", "statement": "write_particles_to_file writes, for every attribute, exactly the concatenation over species in order of that attribute of every stored particle; its length is the total particle count, and the write buffer is always long enough; a second call for the same step writes nothing.", "quantifier": "every particle population, every buffer state, every sequence of calls", "why_tests_cant": "The buffer growth rule and the species-by-species copy must work for all populations.", "anchors": ["Particle_Module.py:Particle_C.write_particles_to_file", "Particle_Module.py:Particle_C.initialize_particle_output_file"]}
{"id": "C25", "title": "History arrays are long enough", "statement": "In a run of n timesteps that samples at step 0 and at every multiple of the skip interval, the number of history samples never exceeds the allocated number of points; each total is the sum over species, and each per-particle value is the species value divided by max(number,1).", "quantifier": "every n, every skip interval >= 1, every number of species", "why_tests_cant": "Integer-rounding property over all n and skip.", "anchors": ["RecordedData_Module.py:History_C", "Particle_Module.py:Particle_C.record_history_data", "examples/sphere1D/sphere1D.py"]}
{"id": "C26", "title": "Trajectory sampling interval respects max_points", "statement": "The sampling interval chosen from max_points makes the number of periodic samples in a run at most max_points (plus the final one), and the allocated array has room for all periodic samples plus the requested extra points.", "quantifier": "every number of timesteps, max_points >= 1 and extra points", "why_tests_cant": "Integer-rounding property over all parameters.", "anchors": ["RecordedData_Module.py:Trajectory_C.__init__", "examples/sphere1D/sphere1D.py"]}
{"id": "C27", "title": "Sources fire on schedule", "statement": "In a run of n timesteps a source with timestep interval k fires exactly at the multiples of k, so floor(n/k) times; each firing adds number_per_cell particles in each cell of its region, and the total weight added equals density times region volume (divided by 4*pi in spherical coordinates).", "quantifier": "every n, k >= 1, region and number_per_cell >= 1", "why_tests_cant": "Schedule over all run lengths; weight identity over all regions.", "anchors": ["Particle_Module.py:Particle_C.add_more_particles", "Particle_Module.py:Particle_C.create_maxwellian_particles"]}
{"id": "C28", "title": "Unique IDs are unique", "statement": "No two particles created by sources in one process ever get the same unique_ID, over any interleaving of sources and species, and mover passes never duplicate one.", "quantifier": "every interleaving of source calls and mover passes", "why_tests_cant": "Needs induction over histories.", "anchors": ["Particle_Module.py:Particle_C.create_maxwellian_particles", "Particle_Module.py:Particle_C.UNIQUE_ID_COUNTER"]}
{"id": "C29", "title": "Boundary-condition lookup picks the most specific callback", "statement": "For each boundary and species the callback used is bc_at_B_for_S if it exists, else default_bc_at_B, else default_bc, else none. The C++ table makes the same choice when no two boundaries share a tag, and leaves the program exactly when some boundary and species have no callback. When boundaries share a tag, Python uses the name listed last and C++ the alphabetically last one.", "quantifier": "every set of callback names, every boundary and species name", "why_tests_cant": "A decision rule over all name sets.", "anchors": ["Particle_Module.py:ParticleMeshBoundaryConditions_C", "cpp/ParticleMeshBoundaryConditions.h"]}
{"id": "C30", "title": "Callback names can collide", "statement": "The callback name built from a boundary and a species does not determine them: two (boundary, species) pairs share a name exactly when the name can be read both ways, i.e. B' = B_for_U and S = U_for_S', or B' = B_for and S = for_S'. That no name contains '_for_' does not exclude this; it is excluded if no boundary name contains '_for_' or ends in '_for', or no species name contains '_for_' or begins with 'for_'. A function written for one of two such pairs is used for the other too.", "quantifier": "every pair of names", "why_tests_cant": "Needs a string argument over all names.", "anchors": ["Particle_Module.py:ParticleMeshBoundaryConditions_C"]}
{"id": "C31", "title": "Deposited density conserves particle number", "statement": "Starting from zeroed density arrays, after accumulate_number_density the sum over cells of cell density times cell volume equals the total weight of the particles, and the sum over degrees of freedom equals the total weight when the basis functions sum to one; the result does not depend on the order of the particles.", "quantifier": "every particle list, every cell-volume table with nonzero volumes, every basis that sums to one (exact arithmetic)", "why_tests_cant": "Summation identity over all particle lists.", "anchors": ["Particle_Module.py:Particle_C.accumulate_number_density", "Dolfin_Module.py:Field_C.interpolate_delta_function_to_dofs", "Dolfin_Module.py:Field_C.add_weight_to_cell", "Dolfin_Module.py:Field_C.divide_by_cell_volumes"]}
{"id": "C32", "title": "Accumulating twice without zeroing", "statement": "A second accumulate_number_density call on a cell density that was not zeroed divides the first contribution by the cell volume again, so the total is wrong unless the volume is one; with zeroing in between, the call is repeatable.", "quantifier": "every particle list and volume table", "why_tests_cant": "Depends on call history.", "anchors": ["Particle_Module.py:Particle_C.accumulate_number_density", "Dolfin_Module.py:Field_C.divide_by_cell_volumes"]}
{"id": "C33", "title": "Charge density is the charge-weighted sum of number densities", "statement": "After accumulate_charge_density_from_particles on a zeroed field each entry is the sum over species of charge times that species' number density, whatever the species order, and further calls add the same amount again.", "quantifier": "every number of species, charges and densities (exact arithmetic)", "why_tests_cant": "Linear identity over all fields.", "anchors": ["Particle_Module.py:Particle_C.accumulate_charge_density_from_particles", "Dolfin_Module.py:Field_C.multiply_add"]}
{"id": "C34", "title": "Cell neighbours are mutual", "statement": "In the neighbour table, if cell b is the neighbour of cell a across a facet, then a is the neighbour of b across that same facet; the entry is NO_CELL exactly for facets with one attached cell; no cell is its own neighbour.", "quantifier": "every mesh connectivity in which each facet is attached to one or two cells", "why_tests_cant": "Graph property over all meshes.", "anchors": ["Dolfin_Module.py:Mesh_C.compute_cell_neighbors_dict", "cpp/MeshEntityArrays.cpp:compute_cell_neighbors_array"]}
{"id": "C35", "title": "Spherical mesh geometry", "statement": "The vertices of the stretched radial mesh increase strictly from rmin to rmax, the cells do not get narrower with growing radius if the stretch factor is at least 1, and the spherical cell volumes are positive and add up to the volume of the whole shell.", "quantifier": "every rmin < rmax, every number of cells >= 1, every real stretch factor > 0 (>= 1 for the widths), exact arithmetic", "why_tests_cant": "Monotonicity and telescoping for all meshes.", "anchors": ["UserMesh_y_Fields_Spherical1D_Module.py:UserMesh1DS_C.create_mesh", "Dolfin_Module.py:Mesh_C.compute_cell_volume_dict"]}
{"id": "C36", "title": "Source regions contain exactly the right cells", "statement": "A cell set built from a region holds exactly the mesh cells whose midpoint lies in the region widened by 1e-10, in mesh order and without repeats, each with its number, volume, midpoint, radius and point test; construction fails with RuntimeError exactly when there is none and with TypeError when the corners do not fit the dimension. With every monotone rounding no cell whose midpoint lies in the closed rectangle is lost. A source over the set creates particles in exactly these cells, the asked number in each; over the whole radial mesh in spherical coordinates the weight is density*(rmax^3-rmin^3)/3. Found in the code: a spherical region in 2D or 3D is the slab cut out by the first coordinate, and after construction its radius is overwritten by the array of the cells' radii, so that inside() fails.", "quantifier": "every mesh, region, rounding, source and stored state", "why_tests_cant": "For-all over meshes and regions.", "anchors": ["Dolfin_Module.py:CellSet_C", "Dolfin_Module.py:RectangularRegion_C.inside", "Dolfin_Module.py:SphericalRegion_C.inside", "Particle_Module.py:create_maxwellian_particles"]}
{"id": "C37", "title": "The C++ point-in-cell test accepts exactly the points of the cell", "statement": "With exact orientation predicates, is_inside_vertices answers true exactly for the convex combinations of the cell's vertices (degenerate intervals and triangles included), whatever the order of the vertices; it throws only for tetrahedra of zero volume and answers false for every mesh whose topological and geometric dimensions differ. For cells described by outward normals the accepted points are exactly those beyond no facet. In double precision, whenever the first stage of the orient2d/orient3d predicates answers, the answer has the sign of the exact determinant, so the whole test agrees with the exact one, if the coordinates involved are equal or differ by at least 2^-320 and the exact stage is right; without that condition a point outside a tiny triangle is accepted.", "quantifier": "every cell, every order of its vertices, every point; for double precision every cell and point with the stated spacing", "why_tests_cant": "Geometric equivalence over all real inputs; the error bound of the predicates is a statement about all roundings.", "anchors": ["cpp/dolfin_functions.cpp:is_inside_vertices", "cpp/predicates.cpp:_orient2d", "cpp/predicates.cpp:_orient3d", "cpp/predicates.cpp:exactinit", "cpp/predicates.cpp:_collides_segment_point_1d"]}
{"id": "C38", "title": "Particle records survive conversion", "statement": "For each coordinate system: the tuple, list and dictionary of a C++ record show the fields of the numpy record, with the same names and order, which are those of the Python particle_dtype; with double precision the memory layout is that of particle_dtype, and with single precision it is not. Converting a record to a tuple or list and back gives the same record. push_back of a tuple or list succeeds exactly when the first items fit the fields one by one (int or float for a double, int in range for an int) and then stores exactly these values; extra items are silently ignored; otherwise it throws IndexError or RuntimeError for the first item that is missing or does not fit, and the number of items, the items and the effect of later push_backs are as if it had not been called.", "quantifier": "every record, every list or tuple of values, every container state", "why_tests_cant": "Round trips over all values, and all ways in which a conversion can fail half-way.", "anchors": ["cpp/Pstruct.h", "cpp/SegmentedArrayPair.h:push_back,get_as_tuple,get_as_list", "Particle_Module.py:particle_dtype"]}
{"id": "C39", "title": "Charged and neutral species are told apart once and for all", "statement": "For species with distinct names: every species is in exactly one of the charged and neutral lists, in input order, and it is in the charged one exactly when its charge is nonzero; species indices 1..n identify species one to one; the tables hold each species' own values; the constructor fails exactly for an unknown coordinate system, a zero mass or a missing use_cpp choice; every species is given the mover of its kind, where the C++ movers exist, and each time step moves every non-empty species exactly once. The charge of a species whose dynamics is 'neutral' is not ignored, although the warning says so, and two species of the same name share one container.", "quantifier": "every list of distinct species", "why_tests_cant": "For-all over inputs.", "anchors": ["Particle_Module.py:Particle_C.__init__", "Particle_Module.py:initialize_particle_integration", "Particle_Module.py:advance_charged_particles_in_E_field", "Particle_Module.py:advance_neutral_particles"]}
{"id": "C40", "title": "Particle balance over a whole run", "statement": "Over any n steps of the main time loop that do not fail: the step count and time are start plus n steps; every particle of a species is stored afterwards exactly as its mover left it, or was deleted by it, in order, followed by those that the sources due at that step made (cells times particles per cell each); so the final number, and the final total weight, is the initial one plus what sources created minus what movers deleted; no two particles have the same ID; the ID counter advances by the number created; after each step the densities, the charge and the solved field are those of the particles stored then. On a line mesh with absorbing ends a step succeeds, and moves each particle by its new velocity times dt or deletes it if that is past an end, if every charged species keeps a particle or had none and no source feeds a species whose last particle was deleted while the segment length divides the number left; in that case the step fails (a defect).", "quantifier": "every number of steps, every population, every source schedule and deletion pattern, every segment length; line meshes of any size for the success of steps", "why_tests_cant": "Needs induction over the run and composes storage, movers and sources.", "anchors": ["examples/sphere1D/sphere1D.py", "Particle_Module.py:Particle_C.advance_charged_particles_in_E_field", "Particle_Module.py:Particle_C.add_more_particles"]}
{"id": "C41", "title": "Facet fraction stays in [0,1] under rounding", "statement": "In floating-point arithmetic with any monotone rounding (in particular binary64 round-to-nearest), whenever find_facet selects a facet the computed fraction is between 0 and 1, so its 'Bad value for dxFraction' exit is unreachable.", "quantifier": "every rounded distance and projection, every rounding mode, underflow included", "why_tests_cant": "Floating-point corner cases cannot be enumerated.", "anchors": ["Dolfin_Module.py:Mesh_C.find_facet", "cpp/dolfin_functions.cpp:find_facet"]}
{"id": "C42", "title": "Unchecked C++ push_back overloads", "statement": "The tuple and list overloads of the C++ push_back omit the segment-counter assertion of the array overload. After any history they append the item at index get_number_of_items() and leave the other items alone, except that they write outside the segment list (undefined behaviour) exactly when every slot of the out array is taken and the loop cursor has not reached the last segment.", "quantifier": "every history of pushes, reads, writes, loops and mover passes within the 32-bit counter range, every segment length of at least 2, every item", "why_tests_cant": "The out-of-bounds write needs an interrupted loop over a completely full container and may go unnoticed when it happens.", "anchors": ["cpp/SegmentedArrayPair.h:push_back(py::tuple)", "cpp/SegmentedArrayPair.h:push_back(py::list)"]}
{"id": "C43", "title": "The output file is closed only when the last step was not written yet", "statement": "In a run that writes the particles before the loop (if there are initial particles), at every multiple of the output interval, and once after the loop with close_flag=True, the file ends up closed exactly when that last call is for a step not written before: it stays open when the number of steps is a multiple of the interval (and there was a step or an initial write), because write_particles_to_file returns before it reaches the close.", "quantifier": "every number of steps, every interval of at least 1, every population at every step", "why_tests_cant": "The runs in the repository end with the interpreter, which closes the file; the relation between steps and interval decides.", "anchors": ["Particle_Module.py:Particle_C.write_particles_to_file", "examples/sphere1D/sphere1D.py"]}
{"id": "C44", "title": "Diagnostic sums over a species", "statement": "get_species_number returns the sum of the weights, and get_species_KE the sum of m/2 w |u|^2, over exactly the stored particles, and they leave the particles alone; whatever the unused slots of the segments contain. The exception is a species whose particles were all deleted by a pass: there the sums run over one whole segment of stale slots, so a species without particles can have a positive number of physical particles.", "quantifier": "every history of pushes, loops and mover passes, every segment length, every content of unused slots, every mass and number of velocity components", "why_tests_cant": "The sums read whole slices, so they depend on what the slice bounds are in every state, and on the contents of uninitialised memory.", "anchors": ["Particle_Module.py:Particle_C.get_species_number", "Particle_Module.py:Particle_C.get_species_KE"]}
{"id": "C45", "title": "The final trajectory sample can be lost", "statement": "With no extra points, and a number of steps that is not a multiple of the sampling interval, the trajectory arrays are one point too short for the sample taken after the loop: if a charged species has a live trajectory the sample is silently dropped from every trajectory, and if only neutral species have one the run ends with an IndexError.", "quantifier": "every number of steps and interval, every set of trajectories that are empty at the start, all particle motion", "why_tests_cant": "The inputs in the repository use extra_points = 1 or more.", "anchors": ["RecordedData_Module.py:Trajectory_C.__init__", "Particle_Module.py:Particle_C.record_trajectory_data", "examples/sphere1D/sphere1D.py"]}
{"id": "C46", "title": "The first point of a new trajectory shows the new particle", "statement": "When a source creates a particle that is flagged for a trajectory, the first recorded point is that particle, provided the storage accepts further particles; after a diagnostic loop over the particles the point is read from the wrong segment: an IndexError, or the record of another particle.", "quantifier": "every storage state, trajectory state and new particle", "why_tests_cant": "The failure needs a diagnostic between the last mover pass and the source.", "anchors": ["Particle_Module.py:Particle_C.create_maxwellian_particles", "Particle_Module.py:Particle_C.record_trajectory_datum"]}
{"id": "C47", "title": "When the storage accepts further particles", "statement": "A fresh storage accepts any number of further particles; pushing keeps this; after a pass of any mover over particles it holds unless the segment length divides the number of survivors and the last particle was deleted, and then the next push is an AssertionError; after a complete loop over the segments only the free slots of the last segment can be filled and one particle more is an AssertionError.", "quantifier": "every reachable storage state, every number of pushed particles", "why_tests_cant": "Depends on the history of passes and loops and on exact multiples of the segment length.", "anchors": ["SegmentedArrayPair_Module.py:SegmentedArrayPair_C.push_back", "SegmentedArrayPair_Module.py:SegmentedArrayPair_C.init_out_loop"]}
{"id": "C48", "title": "Initial particles", "statement": "initialize_particles stores the listed particles of every species, in order; an entry of type 'function_over_region' whose function is create_maxwellian_particles never works, because the call leaves out the step number.", "quantifier": "every list of entries, every storage state that accepts particles", "why_tests_cant": "The unit tests call the creation function directly, with the right arguments.", "anchors": ["Particle_Module.py:Particle_C.initialize_particles", "Particle_Module.py:Particle_C.create_from_list"]}
{"id": "C49", "title": "Tracking on one-dimensional meshes is complete", "statement": "The tables that Mesh_C makes of a one-dimensional mesh with increasing vertices (neighbours, facet numbers, normals) fit together as the tracking theorems require. On such a mesh with absorbing ends (the radial mesh of UserMesh1DS_C with absorbing boundary functions) and at most as many cells as the allowed number of crossings, tracking never fails: a particle whose end point lies in the mesh ends in a cell that contains it, with as many crossings as cells passed, and a particle whose end point lies outside is deleted. The 1D mesh of UserMesh_C marks no boundary, and there tracking always fails for a particle of the last cell that leaves.", "quantifier": "every increasing list of vertices, every number of cells, every rmin < rmax, every stretch factor > 0, every particle that starts in its cell, charged and neutral mover, exact arithmetic", "why_tests_cant": "Joins the mesh construction and the tracking loop for meshes of every size.", "anchors": ["UserMesh_y_Fields_Spherical1D_Module.py:UserMesh1DS_C.create_mesh", "UserMesh_y_Fields_FE_XYZ_Module.py:UserMesh_C.create_mesh", "Dolfin_Module.py:Mesh_C", "Particle_Module.py:Particle_C.advance_charged_species_in_E_field"]}
{"id": "C50", "title": "What a program leaves behind", "statement": "The program of sphere1D.py from the initial particles to the last snapshot, with any number of time steps: the particle file holds one group for step 0 (if there are initial particles), one for every step at which output is due and one for the last step if it is not among them, numbered from 0, each with the time of its step and the attribute values of exactly the particles stored at the end of that step, and it is closed unless the last step was a step with output; the history array has a row for every step k*skip, with its time and the values of the particles stored then, and never overflows; every live trajectory leads to its own particle and every stored flagged particle has a trajectory, at every step; entries keep their places and recorded points are never lost or changed. On a line mesh with absorbing ends the whole program succeeds as long as no species dies out or is fed at the wrong moment.", "quantifier": "every setup, every number of time steps, every list of initial particles, every program that succeeds; success in exact arithmetic for line meshes", "why_tests_cant": "Joins initialization, movers, sources, density, output, histories and trajectories over runs of any length; the bookkeeping of one phase depends on what the others left in the storage.", "anchors": ["examples/sphere1D/sphere1D.py:1189-1397", "Particle_Module.py:Particle_C.write_particles_to_file", "Particle_Module.py:Particle_C.record_history_data", "Particle_Module.py:Particle_C.record_trajectory_data"]}
{"id": "C51", "title": "Recording trajectories does not disturb the run", "statement": "A mover pass, and the whole program of sphere1D.py, give the same particles in the same storage places, the same output file, histories, densities and field, with trajectories as without; the program with trajectories runs to its end exactly when the one without does, provided the boundary functions do not touch the trajectories, the sources feed charged species and the arrays of neutral species have room for a point of every step and two more.", "quantifier": "every setup, every rounding, every number of time steps, every list of initial particles", "why_tests_cant": "A comparison of all pairs of runs; recording happens inside the movers, the sources and the loop, and can fail when an index is stale, an array is full or the storage cursor was moved by another phase.", "anchors": ["Particle_Module.py:Particle_C.record_trajectory_datum", "Particle_Module.py:Particle_C.record_trajectory_data", "Particle_Module.py:Particle_C.remove_trajectory_particleId", "examples/sphere1D/sphere1D.py:1189-1397"]}
{"id": "C52", "title": "What recorded trajectories show", "statement": "After the program of sphere1D.py with trajectories: every recorded point of a trajectory belongs to the particle with the ID of the trajectory and to one of the steps of the program, and shows the particle either at the end of that step with the time of the step or at the place of a boundary crossing; the points of a trajectory are in the order of the steps, and with exact arithmetic in the order of time, each between the end of the step before and the end of its step. At every step at which trajectories are sampled, at the beginning (if there are initial particles) and at the end, every flagged particle gets a point with the number and time of the step and its position, unless a trajectory array has run out of room; arrays with more than 3 + n*(max_facet_crossings + 2) points never run out of room in n steps.", "quantifier": "every setup, every rounding (every exact program for the times), every number of time steps, every list of initial particles, every program that succeeds", "why_tests_cant": "Points are written from inside the movers, the sources and the loop through stored indices that other particles' deletions rewrite; a wrong index puts a point of one particle into the trajectory of another, and only after particular histories of deletions and storage moves.", "anchors": ["Particle_Module.py:Particle_C.record_trajectory_datum", "Particle_Module.py:Particle_C.record_trajectory_data", "Trajectory_Module.py:Trajectory_C", "examples/sphere1D/sphere1D.py:1189-1397"]}
{"id": "C53", "title": "Every particle is given the number of its cell", "statement": "compute_mesh_cell_indices: if every stored particle lies in some cell of the mesh, the call succeeds, every species holds the same particles in the same order, and each has the number of a cell in which it lies and is otherwise unchanged, so that the movers may start from it; if some particle lies in no cell, the call raises KeyError (the code's own message and exit never happen). It also raises KeyError for any particle if the mesh was built without cell dictionaries, and for a species whose last particle left the mesh and was deleted. After the call a species whose last segment is full refuses new particles.", "quantifier": "every mesh, every search tree that finds cells, every set of species, every history of the storage, every segment length", "why_tests_cant": "The loop goes over all segments of storage with arbitrary history, writes in place, and the failures need particular fill states.", "anchors": ["Particle_Module.py:Particle_C.compute_mesh_cell_indices", "Dolfin_Module.py:Mesh_C.compute_cell_index", "Dolfin_Module.py:Mesh_C.is_inside_cell"]}
{"id": "C54", "title": "Every flagged particle has its own trajectory file", "statement": "write_trajectories_to_files at the end of the program of sphere1D.py: each species and unique ID has its own file name; every flagged particle of the initial lists, even one deleted during the run, has a file traj-<species>-uid<ID>.h5part after the program, with the species' name, mass and charge, one group Step#i per recorded point in their order with the time of the point, and in it one dataset for every name of the data dictionary with the value of that particle in the given format; no other file is written, except for one with the ID 500 from a source; in exact arithmetic the times are in order. It fails for a dictionary without 't' or with something that is no number. Two flagged particles of a species with the same ID share one file, and the points of the first are lost.", "quantifier": "every set-up, every number of steps, every initial list, every history, every dictionary, every rounding", "why_tests_cant": "The files are the last product of a whole run in which particles move between storage places, are deleted and created; tests look at a few trajectories.", "anchors": ["RecordedData_Module.py:Trajectory_C.write_trajectories_to_files", "Particle_Module.py:Particle_C.record_trajectory_datum", "examples/sphere1D/sphere1D.py"]}
{"id": "C55", "title": "The triangle meshes the code builds are sound and their sides are marked", "statement": "The mesh of a rectangle (UserMesh_C in 2D) can be made for all numbers of cells, all five diagonals and any numbering of the facets. Its tables of vertices, normals, facets and neighbours are those of a conforming mesh: unit outward normals, the two sides of a facet agree. The cells fill the rectangle and nothing else and do not overlap. A facet has no neighbour exactly if it lies on one of the four sides; facets between two cells are not marked; the others carry one of the four numbers, and that of their own side if the cells are not smaller than 1e-10. So particles are tracked through it without the errors that cannot be handled. The same holds of the mesh of a part of a ring (UserMesh2DCirc_C) with a positive inner radius, a positive stretch and less than half a turn per row. With the diagonals 'crossed' the ring mesh is made without an error but is conforming exactly if each middle vertex lies on the inner side of the outer facet of its row.", "quantifier": "every number of cells, every rectangle, every ring, every stretch, every diagonal, every numbering of the facets, every point", "why_tests_cant": "Tests look at a few sizes with one diagonal; the overlap of cells in a crossed ring mesh shows only for some ratios of the numbers of cells.", "anchors": ["UserMesh_y_Fields_FE_XYZ_Module.py:UserMesh_C.create_mesh", "UserMesh_y_Fields_FE2D_Module.py:UserMesh2DCirc_C.create_mesh", "Dolfin_Module.py:Mesh_C.compute_cell_neighbors_dict", "Dolfin_Module.py:Mesh_C.compute_cell_facet_normals_dict"]}
{"id": "C56", "title": "In a rectangle with absorbing sides no move fails if the limit of facet crossings is large enough", "statement": "In a conforming mesh whose outer facets absorb, the tracking of a move ends, in exact arithmetic, in one of three ways: the particle is in a cell that contains the end of the move, with unchanged flags; or it is flagged as deleted, without a cell, at a point of an outer facet with the end of the move beyond it; or the limit MAX_FACET_CROSS_COUNT is reached and the program stops. No other error occurs. The stored number of crossings is the number of facets of the walk, and is bounded by any ranking of the cells that decreases along the direction of the move. In the mesh of a rectangle with nx by ny rectangles, any diagonals and any numbering of the facets, the limit 3(nx+ny)-3 is enough for every move of every length in every direction: a particle whose move ends in the rectangle gets a cell that contains the end, any other particle is absorbed exactly where its path leaves the rectangle. But a move within the rectangle over more than MAX_FACET_CROSS_COUNT + 2 rectangles, counted along both axes, always stops the program; the limit of 100 that the shipped programs set is not derived from the mesh.", "quantifier": "every number of cells, every rectangle, every diagonal, every numbering of the facets, every position, every move, every limit", "why_tests_cant": "Tests move particles by a few cells along a few directions; which limit of crossings is enough for all moves, or that none of the errors of tracking can occur, cannot be seen from them.", "anchors": ["Particle_Module.py:Particle_C.advance_charged_particles_in_E_field", "Particle_Module.py:Particle_C.advance_neutral_particles", "Particle_Module.py:Particle_C.MAX_FACET_CROSS_COUNT", "UserMesh_y_Fields_FE_XYZ_Module.py:UserMesh_C.create_mesh", "Dolfin_Module.py:Mesh_C.find_facet"]}
{"id": "C57", "title": "A program on a rectangle with absorbing sides can only fail because of the particle storage and the sizes of its files", "statement": "The time loop of the example program, on the mesh of a rectangle whose four sides absorb the charged species, with the limit of facet crossings at least 3(nx+ny)-3: every step succeeds, in exact arithmetic, for every field and all velocities, if no charged species dies out in it, none gets new particles from a source when its last particle leaves and the segment length divides the number of those that remain, and the output file and the history have room. After the step every species holds, in the same order, those particles whose new position is in the rectangle, with that position, the new velocity, the same weight and ID and a cell that contains the position, followed by the new particles of the sources. The next state is of the same kind, so a run of any length succeeds as long as these conditions hold for the states that it meets, and so does the whole program with its initialization and its end. If the last particle leaves, the segment length divides the number of those that remain and a source is due, the step fails.", "quantifier": "every rectangle, number of cells, diagonal and numbering of the facets, every field, every population, every segment length, every number of steps", "why_tests_cant": "The regression runs of the program follow one population in one mesh for a few steps; that no state of a run can stop the program for a reason other than the named ones is a statement about all of them.", "anchors": ["examples/sphere1D/sphere1D.py", "Particle_Module.py:Particle_C.advance_charged_particles_in_E_field", "Particle_Module.py:Particle_C.add_more_particles", "SegmentedArrayPair_Module.py:SegmentedArrayPair_C.push_back", "UserMesh_y_Fields_FE_XYZ_Module.py:UserMesh_C.create_mesh"]}
{"id": "C58", "title": "Assigning, scaling and interpolating a field gives the values that the finite-element function has", "statement": "set_values gives every degree of freedom (dof) of the subdomain's cells the value and every other one zero, and without subdomain every dof the value. So the field is zero at every point of a cell that shares no dof with the subdomain, but not in a cell that shares one. set_gaussian_values gives a dof of the subdomain the number drawn for the last of the subdomain's cells that has it, one number per cell, and fails if the subdomain has more cells than the field has dofs; without subdomain every dof has its own number. multiply_values on a subdomain multiplies a dof by the multiplier to the power of the number of the subdomain's cells that have it, with or without the option gaussian; it multiplies each dof once exactly if no two of the cells share a dof. interpolate_field_to_points writes, for every particle, the value of the finite-element function at its position into the row with its index, leaves the other rows as they are, and fails if a particle is outside the mesh. The random variant multiplies each vector that is not zero by one new random number and draws none for the others.", "quantifier": "every function space (dofs of the cells, basis functions), every field, subdomain, random sequence, every list of particles and every earlier content of the array", "why_tests_cant": "The unit tests check a few values of one field on one mesh; they never look at dofs that are shared by cells of the subdomain and at rows left over from an earlier, longer segment.", "anchors": ["Dolfin_Module.py:Field_C.set_values", "Dolfin_Module.py:Field_C.multiply_values", "Dolfin_Module.py:Field_C.set_gaussian_values", "Dolfin_Module.py:Field_C.interpolate_field_to_points", "Dolfin_Module.py:Field_C.interpolate_random_field_to_points"]}
{"id": "C59", "title": "The charged mover gives each particle the field at its own position, whatever the segments", "statement": "advance_charged_species_in_E_field interpolates the fields for a whole segment into arrays that it uses again for the next segment. A pass over a species succeeds only if every particle has a position at which the fields that are to be applied have values. It succeeds, with a certain result, exactly if this holds and the pass that treats the particles one by one succeeds with that result, where each particle has the negative of the solved field at its position before the move plus, if the external field is to be applied, that field at its position times a random number of its own. These numbers are taken in the order of the particles, one for each particle with a field other than zero, and do not depend on the segment length or on what the arrays held. If the IDs are distinct, the pass is one of those with fields that are functions of the particle, as the theorems about whole runs (C20, C50-C52, C57) have them.", "quantifier": "every function space, pair of fields, setting of the two switches, population, segment length, earlier content of the arrays, mesh, boundary functions and trajectories", "why_tests_cant": "Tests run with fewer particles than one segment holds, so that the arrays are never used twice; that no row of an earlier segment is ever applied to a particle is a statement about all populations.", "anchors": ["Particle_Module.py:Particle_C.advance_charged_species_in_E_field", "Particle_Module.py:Particle_C.advance_charged_particles_in_E_field", "Dolfin_Module.py:Field_C.interpolate_field_to_points", "Dolfin_Module.py:Field_C.interpolate_random_field_to_points", "SegmentedArrayPair_Module.py:SegmentedArrayPair_C.get_next_segment"]}
{"id": "C60", "title": "The C++ movers give each charged particle the field of its own cell, and nothing of the external field", "statement": "cpp interpolate_field_to_points copies, for each point, the values that the field's degrees of freedom (dofs) have in the point's cell into that point's row of the array and leaves the other rows as they are. For a field that is constant on each cell this fills the array with what the Python function gives; for a piecewise linear field it does not, and it can write behind the array. A pass of a C++ charged mover over a species is the pass over its particles one by one, in which each particle has minus the values of the negative field in its own cell, however the particles lie in the segments. The external field changes nothing in it. So with a field constant on each cell the C++ movers leave the same particles and the same trajectories as the Python mover without an external field, or both fail. With the solved field switched off for the species and an external field present the C++ movers have no defined result. When a crossing is recorded in the plane, the second component of the field in the record is not that of the field.", "quantifier": "every function space and field, external field and flags, every mesh, boundary functions, particles, segment length from 2 to 2^32-1 and every state of the container after fewer than 2^32-2 operations, every earlier content of the arrays", "why_tests_cant": "The C++ tests compare a few particles in fields constant on each cell, in one segment and without an external field, so neither the rows of later segments nor the ignored external field nor the pointer left null are seen.", "anchors": ["cpp/dolfin_functions.cpp:496-605", "cpp/advance_charged_species_in_E_field_cartesian_x.cpp:187-279", "cpp/advance_charged_species_in_E_field_cartesian_x.cpp:398-419", "cpp/advance_charged_species_in_E_field_cartesian_xy.cpp:157-242", "cpp/advance_charged_species_in_E_field_cartesian_xy.cpp:358-379", "cpp/advance_charged_species_in_E_field_spherical_r.cpp:192-242"]}
{"id": "C61", "title": "The older charged mover is the newer one, except that it fails when a recorded particle crosses a marked facet", "statement": "move_particles_in_electrostatic_field, the older mover for charged particles that two of the example programs call, either does exactly what advance_charged_particles_in_E_field with the Python mover does (same particles, trajectories, arrays, random numbers, or the same error), or raises a TypeError. It succeeds, with a certain result, exactly if the newer one does with boundary functions that refuse every particle whose trajectory flag is set. In a step in which no particle has the flag and the boundary functions set it on none, the two succeed together with the same result. Whenever the newer mover completes a species in which a particle with the flag leaves its cell through a marked facet, the older one raises TypeError, also if no trajectories are being kept: its call of record_trajectory_datum has keywords that this function does not take.", "quantifier": "every list of species, population, segment length, fields, switches, mesh, boundary functions, trajectories and value of accel_only", "why_tests_cant": "The unit tests call the newer function; no test of the older one has a recorded particle that reaches a boundary. That the two functions agree otherwise is a statement about all runs.", "anchors": ["Particle_Module.py:1016-1388", "Particle_Module.py:1295-1305", "Particle_Module.py:1391-1413", "Particle_Module.py:2430", "examples/random-accel/random-accel.py:250", "examples/sphere1D/ion-test.py:1164"]}
{"id": "C62", "title": "Steps with accel_only change only velocities, and n of them in a random external field add the right n kicks", "statement": "A step with accel_only over particles that are in their cells always succeeds, in the older and in the newer mover with the same result, and leaves every particle with its position, cell, weight, ID and flag; only the velocities change and the count of crossings becomes zero. After n such steps in a random external field, as examples/random-accel takes them, each particle's velocity has grown by charge over mass times the time-step times the field at the particle times the sum of n random numbers of its own: with M particles in a field other than zero, of which r are before it, those with the indices r, r+M, r+2M, ... in the sequence of draws. n*M numbers are drawn in all. None of this depends on the segment length.", "quantifier": "every number of steps, population, segment length, mesh, function space and field, switches and random sequence", "why_tests_cant": "The example program plots a histogram of the velocities; no test relates the velocity of a particle to the random numbers drawn. That no two particles get the same number, in whatever segments they lie, is a statement about all populations and numbers of steps.", "anchors": ["Particle_Module.py:1016-1388", "Particle_Module.py:1475-1521", "Dolfin_Module.py:1149-1202", "examples/random-accel/random-accel.py:243-250"]}
{"id": "C63", "title": "Whole runs with the C++ movers and with the Python movers agree, except at facets and with fields the C++ movers do not take", "statement": "Take two runs of a time loop with charged species, one with use_cpp_integrators and one without, from containers with the same particles in the same order, the same solved field and no external one, where everything else that a step does (trajectory points, densities, field solve) reads only the particles, the field and the trajectories. If the field is constant on each cell and, at the start of every step of the Python run, DOLFIN's search finds each particle in the cell that its record names, then after any number of steps either both runs have succeeded, with the same particles in the same order in every species, the same trajectories and the same field, or both have failed. (With more than one component of the field this is for runs that keep no trajectories.) With the C++ movers the species loop raises AttributeError when there is no solved field, and TypeError when there is an external field, as soon as one species has a particle. At a point of two cells with different fields, whichever cell the search finds, particles that are recorded in the other cell, where the mover leaves them, get different fields from the Python and from the C++ function.", "quantifier": "every number of steps, list of species, populations, segment lengths, mesh, function space constant on cells, boundary functions, and everything else done in a step", "why_tests_cant": "The unit tests move a handful of particles for a few steps with each kind of mover and compare with stored numbers. That the two kinds agree over whole runs, through deletions and reused space in containers that delete in different ways, is a statement about all runs; particles exactly on facets are not in the tests.", "anchors": ["Particle_Module.py:1391-1413", "cpp/particle_solib.cpp:82-98", "cpp/dolfin_functions.cpp:496-605", "examples/sphere1D/sphere1D.py:1275-1367", "Dolfin_Module.py:1049-1146"]}
{"id": "C64", "title": "Deposited density and interpolated field belong together, with or without a search for the cell", "statement": "Deposit the particles of a species with accumulate_number_density, and interpolate any scalar field of the same function space to the same particles with interpolate_field_to_points. If DOLFIN's search finds each particle in the cell that its record names, the sum over the degrees of freedom of field coefficient times deposited value grows by the sum over the particles of weight times interpolated value; for the charge density that a time step assembles, the sum of potential times charge is the sum over all particles of all species of charge times weight times the potential at the particle. integrate_delta_function, which searches for the cell, deposits the same as interpolate_delta_function_to_dofs, which takes the recorded cell, exactly if both cells give every basis function the same value at the particle; so a discontinuous space can get different densities from particles on facets. It raises RuntimeError exactly for a particle outside the mesh. With linear elements on any mesh of a line and any numbering the two functions always agree, deposit nothing negative from weights that are not negative, and what is deposited has the total weight and the centre of the particles.", "quantifier": "every population, segment length, function space, field, numbering of degrees of freedom, and one-dimensional mesh", "why_tests_cant": "The unit tests compare the density of a few particles with numbers worked out by hand; none relates the density to the interpolated field, and none puts a particle on a facet.", "anchors": ["Dolfin_Module.py:1104-1154", "Dolfin_Module.py:1205-1248", "Dolfin_Module.py:1252-1353", "Particle_Module.py:892-934", "tests/unit/test_ChargeDensity.py:145-147", "examples/sphere1D/sphere1D.py:1301-1320"]}
{"id": "C65", "title": "What solve_for_phi solves, and which field the particles feel after it", "statement": "On any radial mesh (increasing radii from zero or more, any numbering) the equations of UserPoissonSolve1DS_C, with the potential given outside and given or unset inside, have exactly one solution for every charge. After solve_for_phi with a charge, the potential has its boundary values, the field that interpolate_field_to_points evaluates is minus the slope of the potential in each cell, and Gauss's law holds: with the inner potential unset, epsilon times the mean of r**2 in a cell times the field there is the charge on the vertices inside, and for the charge that a time step assembles it is the factor times the charge of all particles farther in, plus a linear share of those in the cell; with either boundary condition it changes from a cell to the next by the charge of the vertex between. The result does not depend on earlier sources and solutions. But: a source set with assemble_source_expression is lost, not added to, when a charge is given; the factor is applied to the caller's charge in place, so k solutions without reassembly multiply it by factor**k; without a charge the last one is used again whatever became of it; after a solution, changes of function_values of the electric field no longer change the field at the particles; and a constant source density is integrated without r**2, so its flux in a cell is the density times the length to the middle of the cell.", "quantifier": "every radial mesh, numbering, charge, factor, boundary values, population of particles, linear solver that returns a solution, and sequence of calls", "why_tests_cant": "The unit tests compare the potential of one mesh and one charge with a number to one decimal place; none solves twice with one solver, gives a source and a charge, or changes the electric field after a solution.", "anchors": ["Dolfin_Module.py:915-943", "Dolfin_Module.py:1406-1745", "UserMesh_y_Fields_Spherical1D_Module.py:389-485", "examples/sphere1D/sphere1D.py:1209-1232", "examples/sphere1D/sphere1D.py:1301-1345", "tests/unit/test_FieldSolve.py:500-640"]}
{"id": "C66", "title": "Reflection at the inner radius and absorption at the outer one", "statement": "On any interval mesh from a to b with n cells whose lower end carries the reflecting boundary function (default_bc_at_rmin) and whose upper end the absorbing one (default_bc_at_rmax), tracking by the charged mover never fails if MAX_FACET_CROSS_COUNT is at least 2n: a move to x >= a ends at x, a move to x < a ends at 2a - x with the velocity reversed, weight and unique id are kept, and the particle is put in a cell that contains the end point with the exact number of crossings recorded, or deleted if that point is beyond b. So a free particle is after k steps at the distance |y - a + k u dt| from the lower end with speed |u|, turns at most once, and is deleted in the first step that takes it beyond b. The radial mesh of the spherical example is such a mesh for every number of cells, pair of radii and positive stretch factor. With the neutral mover this fails: if the move vector left in the shared scratch array is zero or points outwards, every neutral particle of the first cell that passes the reflecting end stops the run with the same-facet error.", "quantifier": "every increasing list of vertices, start point, end point, velocity, number of steps, time step, trajectory recorder that does not fail, and crossing limit of at least twice the number of cells", "why_tests_cant": "The tests run a few particles on one mesh; that no move gets lost, crosses a facet twice or ends in the wrong cell after turning is a statement about all end points and all meshes.", "anchors": ["UserParticles_1D.py:236-339", "Particle_Module.py:1591-1815", "Particle_Module.py:1992-2091", "Dolfin_Module.py:Mesh_C.find_facet", "UserMesh_y_Fields_Spherical1D_Module.py:UserMesh1DS_C", "examples/sphere1D/sphere1D.py:sphere1D"]}
{"id": "C67", "title": "The time loop with its field solver: no memory, Gauss's law in every step, push by the enclosed charge", "statement": "The time loop of the spherical example, with the Poisson solver object that lives through the whole run, gives for every number of steps exactly what the loop gives in which the electric field is a function of the present charge computed by a newly made solver; it also raises the same exception where that one does, whatever the solver was used for before. On every radial mesh with absorbing ends, a run that starts with particles properly stored on the mesh goes on as long as no species dies out, output and history have room and so on (the conditions of C40), and after each of its steps eps times the mean of r**2 times the electric field in a cell is the space charge factor times the charge of the particles that are stored then: all of those farther in and, of those in the cell, the share given by their distance from the outer radius. In the step after that each surviving particle's velocity changes by qom*dt times the sum of that enclosed-charge field and the external field, and its position by the new velocity times dt; its weight and unique id stay, and the particles after them are as many as the sources emit. The field in a cell does not depend on particles beyond the cell's outer radius: two runs that have the same weights and radii within it, in any order, have the same field there. If all particles are farther in, the field is that of their total charge; if all are farther out, it is zero.", "quantifier": "every number of steps, initial population, mesh of radii, dof numbering, species list, source set, earlier use of the solver object, matrix, boundary conditions, linear solver and projection (refinement), and every solver that returns a solution (Gauss)", "why_tests_cant": "The example compares a few numbers of one run with a stored reference; that no step feels charge left over from another step and that the field follows the particles in every step is a statement about all runs.", "anchors": ["examples/sphere1D/sphere1D.py:1209-1232", "examples/sphere1D/sphere1D.py:1274-1367", "Dolfin_Module.py:PoissonSolve_C", "UserMesh_y_Fields_Spherical1D_Module.py:UserPoissonSolve1DS_C", "Particle_Module.py:accumulate_charge_density_from_particles"]}
