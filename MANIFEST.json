{
 "claims": [
  {
   "property": "C01",
   "status": "partial",
   "theorems": [
    "C01_split_then_join_partial",
    "C01_join_then_split_partial",
    "C01_layer_address_partial",
    "C01_local_index",
    "C01_refuted"
   ],
   "note": "Holds for |g| <= 2^24 per axis; beyond it the full statement is false of the code (C01_refuted)."
  },
  {
   "property": "C02",
   "status": "proved",
   "theorems": [
    "C02_linear_of_voxel",
    "C02_voxel_of_linear",
    "C02_refuted_huge_blocks"
   ],
   "note": "vps^3 <= 2^31; above that the int conversion breaks it (C02_refuted_huge_blocks)."
  },
  {
   "property": "C03",
   "status": "proved",
   "theorems": [
    "C03_lookup_stays_inside",
    "C03_lookup_is_nearest"
   ],
   "note": "Containing voxel up to the stated float tolerance at voxel boundaries."
  },
  {
   "property": "C04",
   "status": "proved",
   "theorems": [
    "C04_centre_maps_back",
    "C04_layer_voxel_maps_back"
   ],
   "note": ""
  },
  {
   "property": "C05",
   "status": "proved",
   "theorems": [
    "C05_neighbour_is_global_sum",
    "C05_neighbourhood",
    "C05_offset_between"
   ],
   "note": ""
  },
  {
   "property": "C06",
   "status": "proved",
   "theorems": [
    "C06_complete",
    "C06_each_once",
    "C06_symmetric",
    "C06_distances"
   ],
   "note": ""
  },
  {
   "property": "C58",
   "status": "proved",
   "theorems": [
    "C58_block_index_of_origin"
   ],
   "note": ""
  },
  {
   "property": "C07",
   "status": "proved",
   "theorems": [
    "C07_tsdf_lossless",
    "C07_occupancy_lossless",
    "C07_intensity_lossless"
   ],
   "note": ""
  },
  {
   "property": "C08",
   "status": "partial",
   "theorems": [
    "C08_esdf_lossless_partial",
    "C08_refuted",
    "C08_refuted_far"
   ],
   "note": "False of the code: a negative parent component overwrites the more significant ones. Proved for the parents that survive."
  },
  {
   "property": "C09",
   "status": "proved",
   "theorems": [
    "C09_length_checked",
    "C09_right_length_loads",
    "C09_same_words"
   ],
   "note": ""
  },
  {
   "property": "C10",
   "status": "partial",
   "theorems": [
    "C10_save_load_partial",
    "C10_no_condition",
    "C10_save_LoadLayer_partial",
    "C10_save_subset",
    "C10_refuted_esdf"
   ],
   "note": "Full statement for TSDF, occupancy and intensity layers (C10_no_condition); for ESDF layers it is false because of C08 (C10_refuted_esdf) and proved when the parents survive."
  },
  {
   "property": "C11",
   "status": "proved",
   "theorems": [
    "C11_truncated_never_loads",
    "C11_truncated_never_loads_layer",
    "C11_load_terminates"
   ],
   "note": "The load returns false or aborts on a CHECK."
  },
  {
   "property": "C12",
   "status": "partial",
   "theorems": [
    "C12_finds_layer_partial",
    "C12_LoadLayer_finds_layer_partial",
    "C12_refuted_small_file"
   ],
   "note": "Proved when at least 8192 bytes follow the skipped layers; false otherwise (end-of-file flag, C12_refuted_small_file)."
  },
  {
   "property": "C13",
   "status": "proved",
   "theorems": [
    "C13_prohibit",
    "C13_replace",
    "C13_discard",
    "C13_merge",
    "C13_merge_voxels",
    "C13_incompatible",
    "C13_compatible"
   ],
   "note": ""
  },
  {
   "property": "C14",
   "status": "proved",
   "theorems": [
    "C14_layers_are_maps",
    "C14_calls_defined",
    "C14_get_missing_aborts",
    "C14_listing"
   ],
   "note": "Refinement of pointer-based layers to partial functions, for every call sequence over several layers."
  },
  {
   "property": "C15",
   "status": "proved",
   "theorems": [
    "C15_removes_exactly",
    "C15_idempotent"
   ],
   "note": "Up to the rounding of the squared distance (2^-20 relative), coordinates up to 2^40."
  },
  {
   "property": "C16",
   "status": "partial",
   "theorems": [
    "C16_copy_partial",
    "C16_refuted"
   ],
   "note": "Voxels, geometry and independence proved; the copy loses the has_data and updated flags (C16_refuted)."
  },
  {
   "property": "C17",
   "status": "proved",
   "theorems": [
    "C17_tsdf_merge",
    "C17_tsdf_neutral",
    "C17_tsdf_both_unobserved",
    "C17_tsdf_commutative",
    "C17_exact_neutral_refuted",
    "C17_esdf_merge",
    "C17_occupancy_merge"
   ],
   "note": "Up to float rounding; magnitudes up to 2^40, weights nonnegative."
  },
  {
   "property": "C18",
   "status": "partial",
   "theorems": [
    "C18_merge_layer_partial",
    "C18_no_voxel_lost",
    "C18_refuted_no_data",
    "C18_refuted_layout"
   ],
   "note": "Proved for equal layouts and blocks with has_data; false without the flag (which no integrator sets) and for differing layouts."
  },
  {
   "property": "C47",
   "status": "proved",
   "theorems": [
    "C47_blend_between",
    "C47_zero_weight",
    "C47_same_color",
    "C47_refuted_overflow"
   ],
   "note": "For finite weights whose sum does not overflow; false beyond (C47_refuted_overflow)."
  },
  {
   "property": "C19",
   "status": "proved",
   "theorems": [
    "C19_never_twice",
    "C19_every_index_once",
    "C19_exhaustion_reported",
    "C19_orders_are_permutations",
    "C19_sorted_by_norm"
   ],
   "note": "All schedules of fetch_add and comparison; std::sort by its contract."
  },
  {
   "property": "C20",
   "status": "proved",
   "theorems": [
    "C20_bundles",
    "C20_defined",
    "C20_one_thread",
    "C20_validity"
   ],
   "note": ""
  },
  {
   "property": "C21",
   "status": "proved",
   "theorems": [
    "C21_same_block",
    "C21_existing_used",
    "C21_one_block_per_index",
    "C21_final_layer",
    "C21_no_deadlock"
   ],
   "note": "All schedules, mutex modelled; the layer map is read-only while threads run."
  },
  {
   "property": "C26",
   "status": "proved",
   "theorems": [
    "C26_answers",
    "C26_present_after_insert",
    "C26_displaced_only_by_slot"
   ],
   "note": ""
  },
  {
   "property": "C27",
   "status": "partial",
   "theorems": [
    "C27_reset_empties_partial",
    "C27_absent_until_inserted_partial",
    "C27_hash_zero_refuted"
   ],
   "note": "Proved for every nonzero hash; false for hash 0 after a cheap reset."
  },
  {
   "property": "C28",
   "status": "proved",
   "theorems": [
    "C28_refines",
    "C28_front_is_oldest_of_lowest",
    "C28_drain_sorted",
    "C28_bucket_order",
    "C28_last_bucket"
   ],
   "note": ""
  },
  {
   "property": "C59",
   "status": "proved",
   "theorems": [
    "C59_somebody_is_told",
    "C59_no_invented_element",
    "C59_exactly_one_refuted"
   ],
   "note": "The stronger 'exactly one' is false (C59_exactly_one_refuted) and is not part of the claim."
  },
  {
   "property": "C22",
   "status": "proved",
   "theorems": [
    "C22_bounds",
    "C22_weight_monotone",
    "C22_defined"
   ],
   "note": "Bounds hold for all float arguments; an update with NaN or infinite weights near the surface is undefined in C++ (colour cast) and yields no state."
  },
  {
   "property": "C23",
   "status": "proved",
   "theorems": [
    "C23_clamped",
    "C23_observed",
    "C23_saturation",
    "C23_direction"
   ],
   "note": "For finite clamping bounds on both sides of zero (thresholds strictly between 0 and 1); log() itself is not modelled, the cached log-odds range over all floats."
  },
  {
   "property": "C56",
   "status": "proved",
   "theorems": [
    "C56_serializable",
    "C56_exclusive",
    "C56_no_deadlock"
   ],
   "note": "All schedules of the individual field accesses, mutexes shared by hash."
  },
  {
   "property": "C60",
   "status": "proved",
   "theorems": [
    "C60_weighted_mean",
    "C60_skip"
   ],
   "note": ""
  },
  {
   "property": "C61",
   "status": "proved",
   "theorems": [
    "C61_projective_distance",
    "C61_sign"
   ],
   "note": ""
  },
  {
   "property": "C24",
   "status": "proved",
   "theorems": [
    "C24_ray_chain",
    "C24_nan_ray_refuted"
   ],
   "note": "For finite rays. Rays with a NaN coordinate leave the step counter uninitialised (C24_nan_ray_refuted)."
  },
  {
   "property": "C25",
   "status": "partial",
   "theorems": [
    "C25_ray_reaches_end_partial",
    "C25_constant_x_refuted",
    "C25_constant_y_refuted",
    "C25_border_refuted"
   ],
   "note": "Proved for rays without vanishing component, up to 2000 steps, ending slightly inside a voxel, up to a stated rounding slack; false for rays of constant x (never leave the first voxel), constant y, and ends within 1e-6 of a border."
  },
  {
   "property": "C33",
   "status": "proved",
   "theorems": [
    "C33_cube_appended",
    "C33_edges",
    "C33_nan_refuted"
   ],
   "note": "For corner values without NaN; with a NaN corner an uninitialised vertex is read (C33_nan_refuted)."
  },
  {
   "property": "C34",
   "status": "proved",
   "theorems": [
    "C34_watertight"
   ],
   "note": "For every scalar field on the unbounded grid; the triangles are identified by the grid edges they use (see C37 for their float coordinates)."
  },
  {
   "property": "C35",
   "status": "proved",
   "theorems": [
    "C35_each_cube_once"
   ],
   "note": ""
  },
  {
   "property": "C36",
   "status": "proved",
   "theorems": [
    "C36_usable",
    "C36_cube_reads",
    "C36_skipped_iff",
    "C36_block_mesh"
   ],
   "note": ""
  },
  {
   "property": "C37",
   "status": "proved",
   "theorems": [
    "C37_vertex_on_edge",
    "C37_both_ends_agree",
    "C37_shared_vertex_identical_refuted"
   ],
   "note": "Coordinates and values up to 2^100; bitwise equality of shared vertices is false and not claimed."
  },
  {
   "property": "C38",
   "status": "proved",
   "theorems": [
    "C38_cubes_consistent",
    "C38_concatenate",
    "C38_whole_mesh",
    "C38_concatenate_empty_refuted"
   ],
   "note": ""
  },
  {
   "property": "C39",
   "status": "proved",
   "theorems": [
    "C39_connected",
    "C39_succeeds",
    "C39_attributes",
    "C39_no_normals_refuted"
   ],
   "note": ""
  },
  {
   "property": "C62",
   "status": "partial",
   "theorems": [
    "C62_generate",
    "C62_generate_succeeds",
    "C62_incremental_partial",
    "C62_stale_neighbour_refuted"
   ],
   "note": "Proved given that every block whose surface changed carries the flag; false in general because a block's surface depends on neighbouring blocks, which are not flagged."
  },
  {
   "property": "C29",
   "status": "proved",
   "theorems": [
    "C29_propagation_frame",
    "C29_no_new_voxel",
    "C29_process_open_set",
    "C29_raise_frame"
   ],
   "note": "Any state of the integrator, any mode, after any number of iterations."
  },
  {
   "property": "C30",
   "status": "partial",
   "theorems": [
    "C30_step_partial",
    "C30_sides",
    "C30_step_refuted",
    "C30_sides_full_refuted"
   ],
   "note": "In quasi-Euclidean mode on regular layers each iteration is described exactly and no voxel changes sides. False in general: across the surface a distance can move away from zero and is not the parent's distance plus the step, and in full Euclidean mode a voxel outside the surface can end with distance 0."
  },
  {
   "property": "C32",
   "status": "partial",
   "theorems": [
    "C32_new_idle",
    "C32_batch_partial",
    "C32_no_abort_partial",
    "C32_batch_refuted"
   ],
   "note": "From an idle integrator the batch update ends and does not abort; after addNewRobotPosition it aborts on the stale queue. Full Euclidean mode and termination across sides that touch outside the fixed band are not covered."
  },
  {
   "property": "C63",
   "status": "proved",
   "theorems": [
    "C63_neighbours",
    "C32_batch_partial"
   ],
   "note": "C32_batch_partial shows that the update does end for these inputs; C_batch_input is a concrete case."
  },
  {
   "property": "C64",
   "status": "proved",
   "theorems": [
    "C64_tsdf_copied"
   ],
   "note": ""
  },
  {
   "property": "C65",
   "status": "proved",
   "theorems": [
    "C65_distances_traced"
   ],
   "note": "For a maximum distance up to 2^22 voxels."
  },
  {
   "property": "C43",
   "status": "proved",
   "theorems": [
    "C43_mesh",
    "C43_esdf",
    "C43_independent",
    "C43_band_refuted"
   ],
   "note": "For the TSDF layer, its meshes and its ESDF in the history model of Flags.v. C43_band_refuted: a voxel that enters the fixed band at about the distance it already had by propagation is not marked fixed, and is later reset to the default distance with its parent although its TSDF distance is known. No code path ever clears the map flag."
  },
  {
   "property": "C44",
   "status": "partial",
   "theorems": [
    "C44_answer",
    "C44_answers",
    "C44_symmetric",
    "C44_reflexive_partial",
    "C44_tolerance",
    "C44_reflexive_refuted",
    "C44_answers_refuted"
   ],
   "note": "Exact characterisation, symmetry and totality for equal voxels_per_side. Reflexivity only for finite content: a NaN or infinite value makes a layer differ from itself (refuted). With different voxels_per_side the call reads out of bounds (refuted)."
  },
  {
   "property": "C42",
   "status": "proved",
   "theorems": [
    "C42_shift",
    "C42_succeeds",
    "C42_undo"
   ],
   "note": "Same index offset for all blocks, nothing lost, voxels and flags kept, translation undoes the move up to one float rounding. Success for every non-empty layer with at most 2^40 blocks, indices up to 2^20."
  },
  {
   "property": "C40",
   "status": "proved",
   "theorems": [
    "C40_table",
    "C40_corner",
    "C40_range",
    "C40_float"
   ],
   "note": "Exact identity over the reals, and the float code for every order of summation."
  },
  {
   "property": "C41",
   "status": "proved",
   "theorems": [
    "C41_voxels",
    "C41_distance"
   ],
   "note": "Layers built through the API with at most 2^10 voxels per side, points within 2^16 voxels of the origin; 'surround' up to the stated rounding tolerance."
  },
  {
   "property": "C66",
   "status": "proved",
   "theorems": [
    "C66_nearest"
   ],
   "note": ""
  },
  {
   "property": "C46",
   "status": "partial",
   "theorems": [
    "C46_sphere_partial",
    "C46_fill",
    "C46_clear",
    "C46_exact_refuted",
    "C46_huge_radius_refuted"
   ],
   "note": "Fill and clear are exact relative to the listed voxels; the list is the sphere up to 2.75 voxels. The exact claim is false: a radius of half a voxel lists nothing, and a radius of 2^25 voxels never ends."
  },
  {
   "property": "C48",
   "status": "partial",
   "theorems": [
    "C48_statistics",
    "C48_min_max_partial",
    "C48_variance",
    "C48_handles",
    "C48_tag",
    "C48_samples",
    "C48_rate",
    "C48_max_refuted",
    "C48_rolling_refuted",
    "C48_count_refuted"
   ],
   "note": "Handles, tags and samples hold for every history. Mean, rolling mean and variance hold up to stated rounding bounds. False in general: the maximum is wrong when no sample reaches 2^-1022 (it starts at DBL_MIN), the rolling sum keeps the rounding error of samples that left the window (0 after 2^60 and fifty 1, and GetHz aborts), and the counters overflow at 2^31 samples."
  },
  {
   "property": "C45",
   "status": "partial",
   "theorems": [
    "C45_counts",
    "C45_non_overlapping",
    "C45_max",
    "C45_rmse",
    "C45_rmse_nothing",
    "C45_error_layer",
    "C45_min_is_zero",
    "C45_min_refuted",
    "C45_unobserved_counted"
   ],
   "note": "Counts, maximum, RMSE up to rounding and the error layer hold. The minimum error is 0 for every pair of layers, so that part of the claim is refuted. Voxels observed in neither layer count as non-overlapping in common blocks."
  },
  {
   "property": "C49",
   "status": "partial",
   "theorems": [
    "C49_update",
    "C49_reset",
    "C49_merge_partial",
    "C49_mismatch",
    "C49_bad_length",
    "C49_transfer",
    "C49_merge_refuted",
    "C49_duplicate_aborts"
   ],
   "note": "kUpdate, kReset and refusal of mismatching messages hold. kMerge is refuted: the block built from the message has no has_data flag, so mergeBlock returns at once and listed blocks the layer has stay as they are."
  },
  {
   "property": "C50",
   "status": "partial",
   "theorems": [
    "C50_follow_partial",
    "C50_covers",
    "C50_removal_refuted",
    "C50_relay_refuted"
   ],
   "note": "Equality after every publication holds in all histories without removal of distant blocks and without received maps; with removal the subscriber holds at least the publisher's blocks. Refuted: removed blocks stay with the subscriber, and a server that receives a map does not pass it on. Messages are assumed delivered in order and without loss."
  },
  {
   "property": "C51",
   "status": "proved",
   "theorems": [
    "C51_bounded",
    "C51_order_once",
    "C51_at_most_once",
    "C51_reasons",
    "C51_available"
   ],
   "note": "Any arrivals and any answers of the transform lookup."
  },
  {
   "property": "C52",
   "status": "proved",
   "theorems": [
    "C52_found",
    "C52_fails",
    "C52_forward",
    "C52_nearest_refuted"
   ],
   "note": "Pose algebra of minkindr left out; the interpolation ratio is in floats. C52_nearest_refuted: the first pose within the tolerance is returned, not the nearest."
  },
  {
   "property": "C53",
   "status": "partial",
   "theorems": [
    "C53_writes_partial",
    "C53_weights_partial",
    "C53_refuted"
   ],
   "note": "Proved: exactly which voxels change and how, and that weights stay whole numbers up to 100. Missing: 'each at its own location' is false of the code when the ray crosses a block border (C53_refuted)."
  },
  {
   "property": "C67",
   "status": "proved",
   "theorems": [
    "C67_terminates",
    "C67_found"
   ],
   "note": "Range at most 2^22 voxels."
  },
  {
   "property": "C54",
   "status": "partial",
   "theorems": [
    "C54_nearest",
    "C54_voxel",
    "C54_layer_partial",
    "C54_cover_refuted"
   ],
   "note": "Proved: nearest distance, clamp and colour for every world and point; the visited blocks are exactly those that contain a point of the sampling grid, in their voxels exactly those inside the closed bounds are set and nothing else changes (bounds within 2^100). Missing: the visited blocks need not cover the bounds (C54_cover_refuted)."
  },
  {
   "property": "C68",
   "status": "partial",
   "theorems": [
    "C68_sphere",
    "C68_cube",
    "C68_cube_outside",
    "C68_plane",
    "C68_cylinder_partial",
    "C68_cylinder_refuted"
   ],
   "note": "Proved for spheres, cubes and planes, and for cylinders between the caps with respect to the mantle. Missing: cylinders above, below and near the caps, where the code is wrong (C68_cylinder_refuted)."
  },
  {
   "property": "C69",
   "status": "partial",
   "theorems": [
    "C69_partial",
    "C69_view",
    "C69_refuted"
   ],
   "note": "Proved when no object reports a distance that is not a number. Missing: false for a ray in the plane of a cube face (C69_refuted). The pixel directions (minkindr rotations) are an input."
  },
  {
   "property": "C55",
   "status": "partial",
   "theorems": [
    "C55_message",
    "C55_reach_partial",
    "C55_small_blocks_refuted",
    "C55_documented_resolution_refuted"
   ],
   "note": "Proved for blocks of at least 4 voxels per side with (|index|+2)*voxels per side <= 32768 and finite distances, including exact colours and the state left behind. False for smaller blocks (the server aborts). The error bound is one step of 2/65535 of an edge plus float rounding; the documented finer resolution is refuted."
  },
  {
   "property": "C70",
   "status": "proved",
   "theorems": [
    "C70_viewer_in_sync"
   ],
   "note": "Viewer state is the vertices per block before duplicate removal; colours are covered by C55."
  },
  {
   "property": "C57",
   "status": "proved",
   "theorems": [
    "C57_disjoint",
    "C57_cover",
    "C57_counted",
    "C57_counted_during",
    "C57_success",
    "C57_poses",
    "C57_threshold",
    "C57_no_deadlock",
    "C57_terminates",
    "C57_zero_batch_refuted"
   ],
   "note": "For every schedule. Matching, estimation and fusion are arbitrary functions. Outside the quantifier: a batch size of 0 never ends (C57_zero_batch_refuted)."
  },
  {
   "property": "C31",
   "status": "proved",
   "theorems": [
    "C31_safe",
    "C31_ends",
    "C31_distances",
    "C31_any_order",
    "C31_unique",
    "C31_incremental_refuted"
   ],
   "note": "Batch updates from an empty ESDF. Updating only some blocks after the map changed leaves distances to obstacles that are gone (C31_incremental_refuted)."
  },
  {
   "property": "C71",
   "status": "proved",
   "theorems": [
    "C71_constant",
    "C71_depth",
    "C71_voxel"
   ],
   "note": "Relative error bounds 2^-22 and 2^-21 (plus 2^-90 absolute) against the exact formula."
  },
  {
   "property": "C72",
   "status": "proved",
   "theorems": [
    "C72_facing",
    "C72_normals"
   ],
   "note": "C72_facing is about exact vertex positions inside the edges; C72_normals about the float vertices stored in the mesh."
  },
  {
   "property": "C73",
   "status": "proved",
   "theorems": [
    "C73_ray_ends"
   ],
   "note": "Whether the last voxel visited is the voxel of the other end is C25."
  },
  {
   "property": "C74",
   "status": "proved",
   "theorems": [
    "C74_simple",
    "C74_fast"
   ],
   "note": "Allocation of the storage of one voxel and its update are single steps (their own interleavings are C21 and C56). Completed runs; that runs complete without abort is not part of the statement."
  },
  {
   "property": "C75",
   "status": "proved",
   "theorems": [
    "C75_merged",
    "C75_mean",
    "C75_colors",
    "C75_clearing",
    "C75_weightless_refuted"
   ],
   "note": "Same granularity as C74. C75_weightless_refuted records a defect: a group in which no point counts is not skipped and destroys an observed voxel at the sensor."
  },
  {
   "property": "C76",
   "status": "proved",
   "theorems": [
    "C76_simple",
    "C76_fast",
    "C76_merged"
   ],
   "note": "Same granularity as C74. For the merged integrator the rays of the merged points must fit too (they need not if the bundled points have no weight, C75_weightless_refuted)."
  },
  {
   "property": "C77",
   "status": "proved",
   "theorems": [
    "C77_occupancy",
    "C77_completed",
    "C77_hits",
    "C77_bounds",
    "C77_adjacent_refuted",
    "C77_sensor_refuted"
   ],
   "note": "Pose arithmetic is abstract as in C74. C77_adjacent_refuted and C77_sensor_refuted record defects: a surface point in a voxel next to the sensor's is ignored, and one with exactly the sensor's x coordinate marks the sensor's own voxel as occupied."
  },
  {
   "property": "C78",
   "status": "proved",
   "theorems": [
    "C78_gradient",
    "C78_plane",
    "C78_adaptive",
    "C78_map",
    "C78_failure_refuted"
   ],
   "note": "C78_failure_refuted records a deviation outside the statement: a failed gradient query leaves undivided partial sums in its output."
  },
  {
   "property": "C79",
   "status": "proved",
   "theorems": [
    "C79_distances",
    "C79_gradients",
    "C79_observed",
    "C79_esdf_slice",
    "C79_tsdf_slice",
    "C79_hits",
    "C79_unmarked",
    "C79_border_refuted",
    "C79_integrated_refuted",
    "C79_weights_refuted"
   ],
   "note": "Deviations outside the statement are recorded as refutations: a voxel layer just below a plane beyond the end of its block is left out; integration never marks blocks as having data, so TSDF slices of integrated maps are empty; a weights array shorter than the distances array is overrun."
  },
  {
   "property": "C80",
   "status": "proved",
   "theorems": [
    "C80_rainbow",
    "C80_gray",
    "C80_monotone",
    "C80_hue",
    "C80_ironbow",
    "C80_empty_range_refuted",
    "C80_ids_refuted"
   ],
   "note": "Deviations outside the statement: an empty range (lower end = upper end) makes the lookup undefined; the id colour map is documented to give unique colours but ids 0 and 1065 share one."
  },
  {
   "property": "C81",
   "status": "proved",
   "theorems": [
    "C81_view",
    "C81_float",
    "C81_box",
    "C81_aabb",
    "C81_zero_near_refuted"
   ],
   "note": "C81_view reads the arithmetic as exact; C81_float bounds what rounding can change, for the planes through the corners as stored. The tangents and the transformation of the corners are inputs. C81_zero_near_refuted: with near distance 0 two planes vanish and everything to the left of the camera counts as in view."
  },
  {
   "property": "C82",
   "status": "proved",
   "theorems": [
    "C82_mesh",
    "C82_layer_plain",
    "C82_layer_connected",
    "C82_writer",
    "C82_writer_overrun_refuted",
    "C82_precision_refuted",
    "C82_indices_refuted"
   ],
   "note": "Findings outside the statement: PlyWriter never counts the vertices it writes, so it accepts more than announced and the file is invalid (C82_writer_overrun_refuted); six digits merge vertices a centimetre apart ten kilometres from the origin (C82_precision_refuted); an index count that is not a multiple of three ends in an uncaught exception (C82_indices_refuted). For the connected mesh the normals after averaging are assumed to be numbers."
  },
  {
   "property": "C83",
   "status": "proved",
   "theorems": [
    "C83_tsdf",
    "C83_esdf",
    "C83_other",
    "C83_sdf",
    "C83_centre",
    "C83_occupied_refuted",
    "C83_nan_refuted"
   ],
   "note": "Findings: the occupied voxels of a TSDF include voxels up to one voxel in front of the surface (C83_occupied_refuted); a NaN distance stops the PLY export (C83_nan_refuted). Colour by height and marker fields are not modelled."
  },
  {
   "property": "C84",
   "status": "partial",
   "theorems": [
    "C84_slice_partial",
    "C84_upper_half",
    "C84_slice_refuted"
   ],
   "note": "False in the code for planes in the upper half of a voxel: C84_upper_half proves that the slice then shows the voxels one layer further up, and C84_slice_refuted gives a layer for which the slice is empty although the plane crosses observed voxels. Proved for planes on a boundary and in the lower half. Not covered: planes within 7/100 of a voxel above a boundary (but not on it) and within 8/100 above the middle, where rounding of the centres and the 1e-6 tolerance decide."
  },
  {
   "property": "C85",
   "status": "proved",
   "theorems": [
    "C85_raise",
    "C85_ends"
   ],
   "note": "Quasi-Euclidean mode (the default). For the end of the loop the default distance must be at most twice the maximum distance and stored distances not below minus twice the maximum, since the bucket queue has no bucket for others."
  },
  {
   "property": "C86",
   "status": "partial",
   "theorems": [
    "C86_transform_partial",
    "C86_resample_same",
    "C86_translate_refuted",
    "C86_resample_refuted",
    "C86_naive_refuted"
   ],
   "note": "Proved for every block the code considers, and for resampling into the same geometry. False in the code that all reached blocks are considered: the sampling grid starts half a diagonal below the transformed centre and steps by a whole output block, so its upper end is missed (C86_translate_refuted: a shift by a third of a block loses the part in the next block; C86_resample_refuted: resampling into blocks of twice the size loses everything). naiveTransformLayer looks up the transformed point in the input layer and moves nothing (C86_naive_refuted)."
  },
  {
   "property": "C87",
   "status": "proved",
   "theorems": [
    "C87_robot",
    "C87_clear"
   ],
   "note": "Which voxels the two spheres list is C46. The queued voxels are pushed without being marked as queued (as in the code); a following batch update aborts (C32_batch_refuted)."
  },
  {
   "property": "C88",
   "status": "proved",
   "theorems": [
    "C88_bounds",
    "C88_empty_refuted"
   ],
   "note": "For a layer without blocks the call is undefined behaviour (C88_empty_refuted), so the quantifier excludes it."
  },
  {
   "property": "C89",
   "status": "proved",
   "theorems": [
    "C89_weight",
    "C89_esdf",
    "C89_nearest",
    "C89_map"
   ],
   "note": "C89_nearest also shows that getNearestDistanceAndWeight answers true for allocated but unobserved voxels, unlike the other queries."
  },
  {
   "property": "C90",
   "status": "partial",
   "theorems": [
    "C90_tsdf",
    "C90_esdf_partial",
    "C90_tsdf_first",
    "C90_small_refuted"
   ],
   "note": "Proved in full for the TSDF server. For the ESDF server proved when the ESDF takes at least 8192 bytes in the file and its parents are ones C08 preserves; C90_small_refuted: a small map the server has just saved makes loadMap answer false with the ESDF empty. C90_tsdf_first: the TSDF is loaded even then."
  },
  {
   "property": "C91",
   "status": "proved",
   "theorems": [
    "C91_intake",
    "C91_invalid_ignored",
    "C91_maps_total",
    "C91_maps",
    "C91_zero_range_refuted"
   ],
   "note": "C91_zero_range_refuted: with intensity_max_value 0 (outside the statement) a cloud without colours makes the lookup divide 0 by 0 and cast NaN, which is undefined."
  },
  {
   "property": "C92",
   "status": "proved",
   "theorems": [
    "C92_marker",
    "C92_pointcloud",
    "C92_pointcloud_colors",
    "C92_color_exact",
    "C92_missing",
    "C92_short"
   ],
   "note": "Tolerances are in MeshVis_spec.v (tolerance)."
  },
  {
   "property": "C93",
   "status": "partial",
   "theorems": [
    "C93_esdf_partial",
    "C93_esdf_covers",
    "C93_clear_esdf",
    "C93_tsdf_partial",
    "C93_tsdf_covers",
    "C93_publish_total",
    "C93_clear_refuted",
    "C93_silent_refuted",
    "C93_sphere_refuted",
    "C93_rebuild_refuted",
    "C93_distant_refuted",
    "C93_relay_refuted"
   ],
   "note": "The full claim is false: clear() does not reset TSDF subscribers (C93_clear_refuted), publish_tsdf_map has no effect without publish_esdf_map (C93_silent_refuted), and hallucinated, dropped, rebuilt-away and relayed blocks are not communicated (C93_sphere/distant/rebuild/relay_refuted). Proved exactly for all other histories. Parent directions do not survive messages (C08)."
  },
  {
   "property": "C94",
   "status": "partial",
   "theorems": [
    "C94_viewpoint_partial",
    "C94_exhausted",
    "C94_sphere",
    "C94_box",
    "C94_direction",
    "C94_bounds_refuted",
    "C94_span_refuted",
    "C94_cylinder_refuted"
   ],
   "note": "The full claim is false: the bounds are halved wrongly, so viewpoints can lie outside a world that does not contain the origin (C94_bounds_refuted) and never in the outer half below zero (C94_span_refuted), and near the rims of cylinders they can be too close (C94_cylinder_refuted). Proved exactly for worlds around the origin with spheres and boxes."
  },
  {
   "property": "C95",
   "status": "partial",
   "theorems": [
    "C95_recolor_partial",
    "C95_place_refuted",
    "C95_negative_refuted"
   ],
   "note": "The full claim is false of the code: the lookup takes the 16-bit numbers of the message as metres (C95_place_refuted, C95_negative_refuted). Proved: everything else, with the lookup as the code makes it. Voxels of at least 1/32 m, at least 4 per side."
  },
  {
   "property": "C96",
   "status": "proved",
   "theorems": [
    "C96_image",
    "C96_count",
    "C96_no_pose",
    "C96_zero_refuted"
   ],
   "note": "The rotation is an arbitrary function (minkindr is not modelled). What integration does with each pair is C53 and C67. Outside the claim: a subsampling factor of zero, which is not checked, divides by zero (C96_zero_refuted)."
  },
  {
   "property": "C97",
   "status": "partial",
   "theorems": [
    "C97_rays_partial",
    "C97_odd_refuted",
    "C97_noisy",
    "C97_no_noise",
    "C97_pose_refuted"
   ],
   "note": "The full claim is false of the code for odd image sizes (C97_odd_refuted) and for views from a pose (C97_pose_refuted: x axis against z axis). Proved: the rest. Rotations are arbitrary functions; the focal length (computed with tan) and the random generator are inputs."
  },
  {
   "property": "C98",
   "status": "proved",
   "theorems": [
    "C98_ground",
    "C98_walls"
   ],
   "note": "Distances are the correctly rounded differences; the sign is exact."
  },
  {
   "property": "C99",
   "status": "partial",
   "theorems": [
    "C99_plane_hit",
    "C99_plane_seen",
    "C99_sphere_hit",
    "C99_sphere_seen",
    "C99_box_hit",
    "C99_box_seen",
    "C99_cylinder_hit",
    "C99_cylinder_seen_refuted"
   ],
   "note": "Proved in full for planes, spheres and boxes; for cylinders that hits are on the surface. Missing: that a cylinder in the way is seen, which is false of the code for vertical rays (C99_cylinder_seen_refuted: the code gives up before looking at the caps)."
  },
  {
   "property": "C100",
   "status": "partial",
   "theorems": [
    "C100_memory",
    "C100_grows",
    "C100_mesh_partial",
    "C100_mesh_refuted"
   ],
   "note": "Proved for layers and for mesh layers whose meshes are coloured. Missing: uncoloured meshes, for which the code counts a colour per vertex (C100_mesh_refuted)."
  },
  {
   "property": "C101",
   "status": "proved",
   "theorems": [
    "C101_colour",
    "C101_polygons"
   ],
   "note": "The export with merged vertices goes through the vertex merging of C39."
  },
  {
   "property": "C102",
   "status": "proved",
   "theorems": [
    "C102_poses",
    "C102_runs"
   ],
   "note": "TSDF layers (the type for which the interpolating transformation is modelled). What moving a layer loses is C86."
  },
  {
   "property": "C103",
   "status": "proved",
   "theorems": [
    "C103_esdf",
    "C103_poses"
   ],
   "note": ""
  },
  {
   "property": "C104",
   "status": "proved",
   "theorems": [
    "C104_map"
   ],
   "note": "allocateNewBlockByCoordinates on a block that exists keeps that block (the insertion is refused), as the map does."
  },
  {
   "property": "C105",
   "status": "proved",
   "theorems": [
    "C105_hierarchy"
   ],
   "note": ""
  },
  {
   "property": "C106",
   "status": "proved",
   "theorems": [
    "C106_generate"
   ],
   "note": ""
  },
  {
   "property": "C107",
   "status": "proved",
   "theorems": [
    "C107_surface",
    "C107_connected",
    "C107_distances",
    "C107_refused"
   ],
   "note": ""
  },
  {
   "property": "C108",
   "status": "partial",
   "theorems": [
    "C108_report",
    "C108_recolor_partial",
    "C108_recolor_refuted",
    "C108_truncated_refuted"
   ],
   "note": "The report holds for every map and cloud. Recolouring is proved while no known point is further from the surface than the truncation distance: beyond it the shade does not fit a byte and the conversion is undefined (refuted). Errors are cut at the truncation distance in front of the surface only (refuted for points behind it)."
  },
  {
   "property": "C109",
   "status": "proved",
   "theorems": [
    "C109_mesh_layer",
    "C109_one_block"
   ],
   "note": "A pointer is used where it is obtained; a pointer kept after its mesh was removed is not modelled."
  },
  {
   "property": "C110",
   "status": "proved",
   "theorems": [
    "C110_latest",
    "C110_lines",
    "C110_shared"
   ],
   "note": ""
  },
  {
   "property": "C111",
   "status": "partial",
   "theorems": [
    "C111_spread",
    "C111_color",
    "C111_unique_refuted",
    "C111_no_items_refuted"
   ],
   "note": "Hues are proved distinct and evenly spread. The documented uniqueness of colours is false: ids 423 and 853 of the default map are both pure green (refuted). With zero items per revolution, which the setter accepts, every lookup is undefined (refuted). log2 and exp2 of integers are taken as exact."
  },
  {
   "property": "C112",
   "status": "partial",
   "theorems": [
    "C112_sides_partial",
    "C112_sides_refuted",
    "C112_map",
    "C112_tsdf",
    "C112_esdf",
    "C112_mesh",
    "C112_icp",
    "C112_icp_usable",
    "C112_layers",
    "C112_usable",
    "C112_large_refuted"
   ],
   "note": "Zero voxels per side passes the power-of-two check and stops the program when the layer is made; the check of the smallest int overflows (refuted). With voxels of more than a metre the default fixed band is wider than the default maximum distance (refuted)."
  },
  {
   "property": "C113",
   "status": "proved",
   "theorems": [
    "C113_full",
    "C113_yaw",
    "C113_exact"
   ],
   "note": "Exact reading of the arithmetic. Eigen's decomposition is an argument, its contract a hypothesis on the matrix at hand (met in C113_case, with a mirrored factor). The conversion of the matrix to a quaternion and the tests for validity are left out."
  },
  {
   "property": "C114",
   "status": "proved",
   "theorems": [
    "C114_information",
    "C114_content",
    "C114_weights",
    "C114_run"
   ],
   "note": "The order of the updates is the order in which the mutex is held (C57). The application of the weights to the logarithm of the motion is not modelled."
  }
 ]
}
