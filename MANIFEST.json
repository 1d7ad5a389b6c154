{
 "claims": [
  {
   "property": "C01",
   "status": "proved",
   "theorems": [
    "C01_matching_one_to_one"
   ],
   "note": "also states that stored similarity, score and evaluated flag are those of the pair"
  },
  {
   "property": "C02",
   "status": "proved",
   "theorems": [
    "C02_matching_stable",
    "C02_matching_unique"
   ],
   "note": "uniqueness among functional matchings m : element -> option element"
  },
  {
   "property": "C03",
   "status": "proved",
   "theorems": [
    "C03_thresholds_independent"
   ],
   "note": "no assumption on scene keys"
  },
  {
   "property": "C04",
   "status": "proved",
   "theorems": [
    "C04_threshold_monotone",
    "C04_pairs_persist_refuted"
   ],
   "note": "the stronger claim that pairs persist is refuted by a witness"
  },
  {
   "property": "C05",
   "status": "proved",
   "theorems": [
    "C05_category_association",
    "C05_same_category",
    "C05_key_error"
   ],
   "note": ""
  },
  {
   "property": "C06",
   "status": "proved",
   "theorems": [
    "C06_ap_bounds",
    "C06_compute_ap_bounds",
    "C06_compute_ap_defined"
   ],
   "note": "also: IndexError exactly when there are fewer matches than scores"
  },
  {
   "property": "C07",
   "status": "proved",
   "theorems": [
    "C07_interpolated_is_envelope",
    "C07_auc_returns_envelope",
    "C07_idempotent"
   ],
   "note": ""
  },
  {
   "property": "C08",
   "status": "proved",
   "theorems": [
    "C08_ap_is_area",
    "C08_area_unique",
    "C08_ap_is_sum_over_correct"
   ],
   "note": ""
  },
  {
   "property": "C09",
   "status": "proved",
   "theorems": [
    "C09_perfect",
    "C09_zero_iff_nothing_correct"
   ],
   "note": ""
  },
  {
   "property": "C10",
   "status": "proved",
   "theorems": [
    "C10_order_irrelevant",
    "C10_sort_irrelevant",
    "C10_ties_matter_refuted"
   ],
   "note": ""
  },
  {
   "property": "C11",
   "status": "proved",
   "theorems": [
    "C11_better_ranking",
    "C11_flip_to_correct",
    "C11_swap_forward",
    "C11_delete_false_positive",
    "C11_append_false_positive",
    "C11_correcting_a_detection"
   ],
   "note": ""
  },
  {
   "property": "C12",
   "status": "proved",
   "theorems": [
    "C12_sampled_interpolated",
    "C12_sampled_raw"
   ],
   "note": ""
  },
  {
   "property": "C13",
   "status": "proved",
   "theorems": [
    "C13_shape_score_is_mean_ap",
    "C13_shape_score_bounds",
    "C13_semantics_score_is_mean_ap",
    "C13_semantics_score_bounds"
   ],
   "note": ""
  },
  {
   "property": "C14",
   "status": "proved",
   "theorems": [
    "C14_value",
    "C14_bounds",
    "C14_symmetric",
    "C14_identical",
    "C14_empty",
    "C14_monotone",
    "C14_one_iff"
   ],
   "note": "Coordinates are reals; BallTree.query is a parameter with the contract query_ok (Points/Spec.v), met by exhaustive search (brute_ok)."
  },
  {
   "property": "C15",
   "status": "proved",
   "theorems": [
    "C15_shortcut_sound",
    "C15_boxes_irrelevant",
    "C15_mesh_similarity"
   ],
   "note": "Holds for any threshold, negative ones included."
  },
  {
   "property": "C16",
   "status": "proved",
   "theorems": [
    "C16_pair_value",
    "C16_pair_symmetric",
    "C16_pair_zero",
    "C16_cache_transparent",
    "C16_reported"
   ],
   "note": "The zero case also covers an empty side, where the code returns 0."
  },
  {
   "property": "C17",
   "status": "proved",
   "theorems": [
    "C17_defined",
    "C17_symmetric",
    "C17_colorless_always_zero",
    "C17_positive_thresholds_safe",
    "C17_total_refuted"
   ],
   "note": "C17_total_refuted: at threshold 0 color_rmsssd raises for an element without points."
  },
  {
   "property": "C18",
   "status": "proved",
   "theorems": [
    "C18_constructor",
    "C18_merge_least",
    "C18_merge_order_and_grouping",
    "C18_merge_empty",
    "C18_empty_neutral_refuted"
   ],
   "note": ""
  },
  {
   "property": "C19",
   "status": "proved",
   "theorems": [
    "C19_point_cloud_tight",
    "C19_tight_unique",
    "C19_meshes_tight",
    "C19_empty_mesh_adds_origin",
    "C19_empty_mesh_refuted"
   ],
   "note": ""
  },
  {
   "property": "C20",
   "status": "proved",
   "theorems": [
    "C20_closed",
    "C20_normals",
    "C20_volume"
   ],
   "note": "float32 storage of the vertices is not modelled"
  },
  {
   "property": "C21",
   "status": "proved",
   "theorems": [
    "C21_mesh_volume",
    "C21_never_the_box",
    "C21_mesh_is_box_refuted"
   ],
   "note": "the intended claim (mesh encloses the box) is refuted; the factor is 5/6"
  },
  {
   "property": "C22",
   "status": "proved",
   "theorems": [
    "C22_roundtrip",
    "C22_injective",
    "C22_index_roundtrip"
   ],
   "note": ""
  },
  {
   "property": "C23",
   "status": "proved",
   "theorems": [
    "C23_exact_cover",
    "C23_bounds_tight",
    "C23_rejections",
    "C23_empty_grid_bounds"
   ],
   "note": "Coordinates are reals. Also shown: an empty batch raises ValueError, and so do the bounds of a grid without voxels."
  },
  {
   "property": "C24",
   "status": "proved",
   "theorems": [
    "C24_accumulates",
    "C24_exact_step",
    "C24_rejected_unchanged",
    "C24_accumulates_refuted"
   ],
   "note": "C24_exact_step gives the exact criterion for one batch."
  },
  {
   "property": "C25",
   "status": "proved",
   "theorems": [
    "C25_accepted",
    "C25_axes_interchangeable",
    "C25_roundtrip",
    "C25_from_strings",
    "C25_equality"
   ],
   "note": ""
  },
  {
   "property": "C26",
   "status": "proved",
   "theorems": [
    "C26_from_xml",
    "C26_silent_default",
    "C26_raises_refuted",
    "C26_ne_never_returns"
   ],
   "note": "The documented raise is refuted; what happens instead is stated for every XML input."
  },
  {
   "property": "C27",
   "status": "proved",
   "theorems": [
    "C27_angle_exists_unique",
    "C27_least_angle",
    "C27_symmetry_invariant",
    "C27_symmetric_and_frame_free",
    "C27_zero_iff",
    "C27_spherical",
    "C27_unlisted_refuted"
   ],
   "note": "The matrix logarithm is an argument constrained by lognorm_ok. C27_unlisted_refuted: for a combination the constructor rejects the claim would fail."
  },
  {
   "property": "C28",
   "status": "proved",
   "theorems": [
    "C28_x_axis",
    "C28_y_axis_refuted",
    "C28_z_axis_refuted",
    "C28_x_least_refuted",
    "C28_identical_refuted"
   ],
   "note": "Also shown: the x case is not the least angle over all spins, and at gimbal lock identical rotations get a nonzero error."
  },
  {
   "property": "C29",
   "status": "proved",
   "theorems": [
    "C29_pose_group",
    "C29_pose_action",
    "C29_array_versions"
   ],
   "note": ""
  },
  {
   "property": "C30",
   "status": "proved",
   "theorems": [
    "C30_axis_rotations",
    "C30_angles_add",
    "C30_rotations_closed"
   ],
   "note": ""
  },
  {
   "property": "C31",
   "status": "proved",
   "theorems": [
    "C31_quat_to_matrix",
    "C31_matrix_to_quat",
    "C31_quat_roundtrip"
   ],
   "note": "also: the matrix acts as conjugation by the quaternion, products correspond, and only q and -q share a matrix"
  },
  {
   "property": "C32",
   "status": "proved",
   "theorems": [
    "C32_euler_to_matrix",
    "C32_matrix_roundtrip",
    "C32_euler_roundtrip",
    "C32_quat_roundtrip",
    "C32_gimbal_lock_refuted"
   ],
   "note": "the round trip at +-90 degrees is refuted by a witness"
  },
  {
   "property": "C33",
   "status": "proved",
   "theorems": [
    "C33_code_roundtrip",
    "C33_clipping",
    "C33_order_reversing",
    "C33_quantisation",
    "C33_expansion",
    "C33_expansion_monotone",
    "C33_maps",
    "C33_map_roundtrip",
    "C33_total",
    "C33_documented_refuted"
   ],
   "note": "Holds for every monotone rounding with relative error at most 2^-24 after each operation. C33_documented_refuted: two promises of the docstrings do not hold."
  },
  {
   "property": "C34",
   "status": "proved",
   "theorems": [
    "C34_known_id",
    "C34_unknown_id",
    "C34_keyerror_refuted",
    "C34_name",
    "C34_image",
    "C34_image_rejects",
    "C34_negative_pixel_refuted"
   ],
   "note": "The color image conversion accepts negative pixels, which the id lookup rejects."
  },
  {
   "property": "C35",
   "status": "proved",
   "theorems": [
    "C35_merge",
    "C35_textured_merge",
    "C35_partial_texture_refuted",
    "C35_replace"
   ],
   "note": "Vertex count bounded by 2^32, the index type. Texture coordinates follow when every vertex has one; C35_partial_texture_refuted shows they go wrong otherwise."
  },
  {
   "property": "C36",
   "status": "proved",
   "theorems": [
    "C36_full_or_none",
    "C36_general",
    "C36_partial_refuted"
   ],
   "note": "Every triangle kept when all or none of the vertices are renumbered; exact effect in general; a proper subset breaks triangles."
  },
  {
   "property": "C37",
   "status": "proved",
   "theorems": [
    "C37_quadrants"
   ],
   "note": ""
  },
  {
   "property": "C38",
   "status": "proved",
   "theorems": [
    "C38_long_edges",
    "C38_origin"
   ],
   "note": ""
  },
  {
   "property": "C39",
   "status": "proved",
   "theorems": [
    "C39_face_normals",
    "C39_vertex_normals"
   ],
   "note": ""
  },
  {
   "property": "C40",
   "status": "proved",
   "theorems": [
    "C40_add",
    "C40_roundtrip",
    "C40_roundtrip_from",
    "C40_new_storable",
    "C40_no_vertices",
    "C40_stale_texture_refuted",
    "C40_copy_refuted"
   ],
   "note": "Well-formed means storable (Gltf/Spec.v): at least one vertex and a material listing exactly the textures present; the refuted theorems show what happens otherwise."
  },
  {
   "property": "C41",
   "status": "proved",
   "theorems": [
    "C41_update",
    "C41_errors",
    "C41_update_materials",
    "C41_color_refuted"
   ],
   "note": "Exact effect of updateMaterial; pure red is ignored."
  },
  {
   "property": "C42",
   "status": "proved",
   "theorems": [
    "C42_pack",
    "C42_succeeds",
    "C42_errors",
    "C42_default_offset_refuted"
   ],
   "note": "A view is kept if it states an offset or lies in the first buffer; otherwise see the refuted theorem."
  },
  {
   "property": "C43",
   "status": "proved",
   "theorems": [
    "C43_samples",
    "C43_density",
    "C43_in_box",
    "C43_color_range",
    "C43_uniform"
   ],
   "note": ""
  },
  {
   "property": "C44",
   "status": "proved",
   "theorems": [
    "C44_roundtrip",
    "C44_again",
    "C44_save",
    "C44_load",
    "C44_load_errors",
    "C44_bad_metadata",
    "C44_save_errors",
    "C44_wide_rgb_refuted"
   ],
   "note": "depth is stored as 16-bit inverse depth, so it comes back as the stored value (stored), not exactly; a second save and load is exact; libtiff, picojson text and compression are not modelled"
  },
  {
   "property": "C45",
   "status": "proved",
   "theorems": [
    "C45_face",
    "C45_distinct",
    "C45_onto",
    "C45_outside",
    "C45_cloud",
    "C45_cloud_distinct",
    "C45_errors",
    "C45_any_size_refuted"
   ],
   "note": ""
  },
  {
   "property": "C46",
   "status": "proved",
   "theorems": [
    "C46_constructor",
    "C46_constructor_errors",
    "C46_merge",
    "C46_merge_refuted",
    "C46_merge_empty_refuted",
    "C46_access"
   ],
   "note": ""
  },
  {
   "property": "C47",
   "status": "proved",
   "theorems": [
    "C47_roundtrip",
    "C47_never_overwrites",
    "C47_keeps_files",
    "C47_load_pure",
    "C47_missing_setting",
    "C47_last_id_wins",
    "C47_empty_id",
    "C47_empty_category",
    "C47_gltf_models",
    "C47_relative_refuted"
   ],
   "note": "number, XML, h5 and GLB formats enter through the contract formats_ok; mesh scenes at an absolute path (refuted for relative ones); the error for an existing folder is OSError"
  },
  {
   "property": "C48",
   "status": "proved",
   "theorems": [
    "C48_loaded",
    "C48_accepted",
    "C48_no_file",
    "C48_bad_xml",
    "C48_header",
    "C48_no_elements",
    "C48_element",
    "C48_element_errors",
    "C48_geometry",
    "C48_not_a_rotation"
   ],
   "note": ""
  },
  {
   "property": "C49",
   "status": "proved",
   "theorems": [
    "C49_constructor",
    "C49_moves",
    "C49_twice",
    "C49_identity",
    "C49_unsaveable",
    "C49_settings_refuted"
   ],
   "note": ""
  },
  {
   "property": "C50",
   "status": "proved",
   "theorems": [
    "C50_pairs",
    "C50_converts",
    "C50_own_type",
    "C50_by_voxels",
    "C50_empty_model"
   ],
   "note": "objects are values in the model, so the source scene is unchanged by construction"
  },
  {
   "property": "C51",
   "status": "proved",
   "theorems": [
    "C51_formula",
    "C51_bounds",
    "C51_one_iff",
    "C51_identical",
    "C51_no_floor",
    "C51_default"
   ],
   "note": "Reals; boxes have ordered corners."
  },
  {
   "property": "C52",
   "status": "proved",
   "theorems": [
    "C52_swapped",
    "C52_submission_scored_refuted"
   ],
   "note": "The witness scores one detection against two coinciding elements: below 0.6 one way, above 0.9 the other."
  },
  {
   "property": "C53",
   "status": "proved",
   "theorems": [
    "C53_extracted_stays",
    "C53_archive",
    "C53_mark",
    "C53_files",
    "C53_three_requests",
    "C53_success",
    "C53_all",
    "C53_report",
    "C53_downloaded",
    "C53_extracted",
    "C53_other_names",
    "C53_space"
   ],
   "note": "Steps of the worker processes interleave arbitrarily; a killed run is an interleaving that stops early."
  },
  {
   "property": "C54",
   "status": "proved",
   "theorems": [
    "C54_poisoned",
    "C54_killed",
    "C54_short_answers",
    "C54_recovery_refuted"
   ],
   "note": ""
  },
  {
   "property": "C55",
   "status": "proved",
   "theorems": [
    "C55_same",
    "C55_outcome",
    "C55_collector",
    "C55_runs_uncollected",
    "C55_nested",
    "C55_lost_outcome",
    "C55_always_same_refuted",
    "C55_same_collector_refuted"
   ],
   "note": "the same outcome needs a function that does not look at the collector (the general claim is refuted); a function without __name__ or a failing print loses the outcome"
  },
  {
   "property": "C56",
   "status": "proved",
   "theorems": [
    "C56_caller",
    "C56_evaluator",
    "C56_defaults",
    "C56_mesh_needs_settings",
    "C56_mesh_with_defaults",
    "C56_mesh_always_raises_refuted",
    "C56_shared",
    "C56_follows",
    "C56_stale",
    "C56_default_values"
   ],
   "note": "the TypeError needs an element in one of the scenes; with two empty scenes the defaults are used (refuted)"
  },
  {
   "property": "C57",
   "status": "proved",
   "theorems": [
    "C57_pose_error",
    "C57_identical_poses"
   ],
   "note": "Zero for identical poses is stated for symmetries without a cylindrical axis; C28_identical_refuted shows why."
  },
  {
   "property": "C58",
   "status": "proved",
   "theorems": [
    "C58_axis_angle",
    "C58_axis_angle_axes",
    "C58_enu_camera",
    "C58_maya_camera"
   ],
   "note": ""
  },
  {
   "property": "C59",
   "status": "proved",
   "theorems": [
    "C59_pose_formats"
   ],
   "note": "XML forms are under C47"
  },
  {
   "property": "C60",
   "status": "proved",
   "theorems": [
    "C60_posed_bbox",
    "C60_quick_reject",
    "C60_similarity_bounds",
    "C60_similarity_self"
   ],
   "note": "pymesh volume and boolean operations are parameters with a stated contract"
  },
  {
   "property": "C61",
   "status": "proved",
   "theorems": [
    "C61_voxelizer_covers"
   ],
   "note": ""
  },
  {
   "property": "C62",
   "status": "proved",
   "theorems": [
    "C62_example"
   ],
   "note": ""
  },
  {
   "property": "C63",
   "status": "proved",
   "theorems": [
    "C63_any_indices",
    "C63_mesh_cube_refuted"
   ],
   "note": ""
  },
  {
   "property": "C64",
   "status": "proved",
   "theorems": [
    "C64_textured_cube",
    "C64_other_sizes"
   ],
   "note": ""
  },
  {
   "property": "C65",
   "status": "proved",
   "theorems": [
    "C65_save",
    "C65_built",
    "C65_collision_refuted"
   ],
   "note": ""
  },
  {
   "property": "C66",
   "status": "proved",
   "theorems": [
    "C66_same_material",
    "C66_color_refuted",
    "C66_dual_iff",
    "C66_dual_new",
    "C66_dual_refuted",
    "C66_from_mesh_refuted"
   ],
   "note": ""
  },
  {
   "property": "C67",
   "status": "proved",
   "theorems": [
    "C67_roundtrip",
    "C67_built"
   ],
   "note": "For all text and image formats satisfying json_ok and png_ok (Glb/Spec.v); Glb/Toy.v shows the contracts can be met."
  },
  {
   "property": "C68",
   "status": "proved",
   "theorems": [
    "C67_roundtrip",
    "C68_relative_lost",
    "C68_extension",
    "C68_no_material_refuted",
    "C68_relative_refuted",
    "C68_buffers_refuted",
    "C68_number_refuted"
   ],
   "note": ""
  },
  {
   "property": "C69",
   "status": "proved",
   "theorems": [
    "C43_rigid",
    "C43_same_samplers"
   ],
   "note": ""
  },
  {
   "property": "C70",
   "status": "proved",
   "theorems": [
    "C43_texture_refuted",
    "C43_missing_uv",
    "C43_no_meshes_refuted"
   ],
   "note": ""
  },
  {
   "property": "C71",
   "status": "proved",
   "theorems": [
    "C71_transform",
    "C71_transform_back",
    "C71_register",
    "C71_register_frame",
    "C71_sum",
    "C71_sum_empty",
    "C71_sum_refuted",
    "C71_register_refuted"
   ],
   "note": ""
  },
  {
   "property": "C72",
   "status": "proved",
   "theorems": [
    "C72_thin",
    "C72_thin_errors",
    "C72_thin_refuted"
   ],
   "note": ""
  },
  {
   "property": "C73",
   "status": "proved",
   "theorems": [
    "C73_read",
    "C73_write",
    "C73_roundtrip",
    "C73_comments"
   ],
   "note": ""
  },
  {
   "property": "C74",
   "status": "proved",
   "theorems": [
    "C74_truncated_refuted",
    "C74_missing_refuted",
    "C74_no_vertex_refuted",
    "C74_double_refuted",
    "C74_order_refuted",
    "C74_empty_refuted",
    "C74_misaligned_refuted"
   ],
   "note": "counterexamples; most of them for whole classes of files"
  },
  {
   "property": "C75",
   "status": "proved",
   "theorems": [
    "C75_roundtrip",
    "C75_two_files",
    "C75_errors",
    "C75_suffix_refuted"
   ],
   "note": ""
  },
  {
   "property": "C76",
   "status": "proved",
   "theorems": [
    "C76_continuous",
    "C76_around",
    "C76_above_below"
   ],
   "note": ""
  },
  {
   "property": "C77",
   "status": "proved",
   "theorems": [
    "C77_new",
    "C77_rgbd",
    "C77_rgbdci",
    "C77_multi"
   ],
   "note": ""
  },
  {
   "property": "C78",
   "status": "proved",
   "theorems": [
    "C78_matches",
    "C78_scores",
    "C78_mesh_track",
    "C78_pose_error",
    "C78_pose_cylindrical_refuted",
    "C78_perceptual",
    "C78_perceptual_tilt_refuted"
   ],
   "note": "the mesh track moves the sampled points; for the other tracks the similarities of corresponding objects are assumed equal (they are inputs here)"
  },
  {
   "property": "C79",
   "status": "proved",
   "theorems": [
    "C79_matches",
    "C79_shape",
    "C79_semantics",
    "C79_best",
    "C79_points",
    "C79_pose",
    "C79_mesh",
    "C79_mesh_refuted"
   ],
   "note": "unconditional equality with the best score is refuted for the mesh track; perceptual scores of copies are in C51"
  },
  {
   "property": "C80",
   "status": "proved",
   "theorems": [
    "C80_matches",
    "C80_low",
    "C80_useless",
    "C80_unchanged",
    "C80_correct_refuted"
   ],
   "note": "the order of tied scores is up to argsort, so the scores of the original submission are distinct; the claim that a correct additional detection never hurts is refuted"
  },
  {
   "property": "C81",
   "status": "proved",
   "theorems": [
    "C81_box_report",
    "C81_surface_report",
    "C81_tool_errors",
    "C81_tool_report",
    "C81_partial_report_refuted",
    "C81_voxel_number_refuted"
   ],
   "note": "ProjectScene.load is an argument (modelled and proved about in C47-C49), as are the sampler (C43, C69) and the volumes of the box track (C20, C21)"
  },
  {
   "property": "C82",
   "status": "proved",
   "theorems": [
    "C82_default",
    "C82_vector",
    "C82_same_rotation",
    "C82_matrix",
    "C82_roundtrip",
    "C82_outcomes",
    "C82_number_type_refuted",
    "C82_surreal_roundtrip",
    "C82_from_surreal",
    "C82_from_surreal_keys",
    "C82_surreal_translation_refuted",
    "C82_column"
   ],
   "note": "over the reals; Eigen's conversions are an argument with a contract, which an implementation is shown to meet"
  },
  {
   "property": "C83",
   "status": "proved",
   "theorems": [
    "C83_unitize",
    "C83_unitize_direction",
    "C83_on_left",
    "C83_on_left_reverse",
    "C83_on_left_invariant",
    "C83_on_left_degenerate",
    "C83_on_left_columns_refuted"
   ],
   "note": "over the reals; on_left with the column vectors used elsewhere in the module is refuted"
  },
  {
   "property": "C84",
   "status": "proved",
   "theorems": [
    "C84_view",
    "C84_refused",
    "C84_copy",
    "C84_general_accepts",
    "C84_general",
    "C84_general_copy",
    "C84_columns_refuted",
    "C84_channels_refuted",
    "C84_gaps_refuted",
    "C84_large_refuted",
    "C84_texture",
    "C84_texture_kept",
    "C84_texture_rgba_refuted",
    "C84_from_mesh_color",
    "C84_from_mesh_rgba_refuted",
    "C84_cloud_images",
    "C84_cloud_images_refuted"
   ],
   "note": "the conditions (packed, three channels, no gaps, below 2^31) are needed: without them the claim is refuted; lifetimes of memory are not modelled"
  },
  {
   "property": "C85",
   "status": "proved",
   "theorems": [
    "C85_almost_equal",
    "C85_points",
    "C85_equal",
    "C85_tolerances",
    "C85_symmetric_refuted",
    "C85_transitive_refuted",
    "C85_assertion",
    "C85_comparisons_refuted"
   ],
   "note": "over the reals (finite numbers); symmetry and transitivity with the default tolerances are refuted"
  },
  {
   "property": "C86",
   "status": "proved",
   "theorems": [
    "C86_same_size",
    "C86_objects",
    "C86_ignored",
    "C86_dicts",
    "C86_dicts_raise",
    "C86_reflexive",
    "C86_box_refuted",
    "C86_symmetric_refuted",
    "C86_guard",
    "C86_guard_refuted"
   ],
   "note": "contract: as many meshes are read from a model as it says it has"
  },
  {
   "property": "C87",
   "status": "proved",
   "theorems": [
    "C87_values",
    "C87_origins",
    "C87_translation",
    "C87_rotation",
    "C87_array",
    "C87_default",
    "C87_default_refuted",
    "C87_inverse_refuted",
    "C87_own"
   ],
   "note": "over the reals; memory as cells with identities; sizes of written arrays stay 3x3 and 3"
  },
  {
   "property": "C88",
   "status": "proved",
   "theorems": [
    "C88_visible",
    "C88_default",
    "C88_convert",
    "C88_transform_refuted",
    "C88_default_refuted"
   ],
   "note": "dictionaries by identity; the objects of the scenes are not part of this model"
  },
  {
   "property": "C89",
   "status": "proved",
   "theorems": [
    "C89_rounding",
    "C89_operations",
    "C89_curve",
    "C89_average_precision",
    "C89_sampled",
    "C89_at_most_one_refuted",
    "C89_perfect_is_one_refuted"
   ],
   "note": "IEEE 754 binary64 without overflow; at most 2^48 detections and objects; matched objects are distinct; the bound by 1 is refuted"
  },
  {
   "property": "C90",
   "status": "proved",
   "theorems": [
    "C90_default_thresholds",
    "C90_association",
    "C90_exact_overlap_refuted",
    "C90_recall_samples",
    "C90_recall_sample_refuted"
   ],
   "note": "IEEE 754 binary64 without overflow; counts up to 2^46"
  },
  {
   "property": "C91",
   "status": "proved",
   "theorems": [
    "C91_shape_score",
    "C91_semantics_score",
    "C91_same_as_exact",
    "C91_at_most_one_refuted"
   ],
   "note": "IEEE 754 binary64 without overflow; the similarity of two objects is an argument; the bound by 1 is refuted"
  },
  {
   "property": "C92",
   "status": "proved",
   "theorems": [
    "C92_point",
    "C92_rows",
    "C92_columns",
    "C92_columns_refuted",
    "C92_corners",
    "C92_center",
    "C92_volume",
    "C92_read_only_refuted"
   ],
   "note": "numpy arrays of real numbers; containment of column vectors and the read-only corners are refuted"
  },
  {
   "property": "C93",
   "status": "proved",
   "theorems": [
    "C93_safe",
    "C93_no_leak",
    "C93_separate",
    "C93_exception",
    "C93_construct",
    "C93_merge",
    "C93_textured_merge",
    "C93_class",
    "C93_primitives",
    "C93_second_init",
    "C93_self",
    "C93_leak_refuted",
    "C93_null_refuted",
    "C93_self_refuted"
   ],
   "note": "the geometry is that of C35-C38; leaks, null pointers and aliasing with itself are refuted"
  },
  {
   "property": "C94",
   "status": "proved",
   "theorems": [
    "C94_roundtrip",
    "C94_textured_roundtrip",
    "C94_raises",
    "C94_rows_dropped",
    "C94_uv_dropped",
    "C94_rows_refuted",
    "C94_three_rows_refuted",
    "C94_rotate",
    "C94_transform",
    "C94_move_raises",
    "C94_identity",
    "C94_compose",
    "C94_inverse",
    "C94_rigid",
    "C94_rotate_is_transform",
    "C94_material_refuted",
    "C94_from_mesh",
    "C94_open3d",
    "C94_normals_move",
    "C94_normals_rows"
   ],
   "note": "composition, inverse, distances and normals in real arithmetic; Open3D's compute_vertex_normals gives one normal per vertex by assumption; wrong shapes and the lost material are refuted"
  },
  {
   "property": "C95",
   "status": "proved",
   "theorems": [
    "C95_base64_roundtrip",
    "C95_base64_standard",
    "C95_base64_decode",
    "C95_data_uri",
    "C95_embed",
    "C95_embed_empty_refuted",
    "C95_cut",
    "C95_line_break_refuted",
    "C95_header_refuted",
    "C95_external",
    "C95_names",
    "C95_save_load",
    "C95_root_refuted",
    "C95_backslash_refuted",
    "C95_blank_refuted",
    "C95_fallback_refuted",
    "C95_missing"
   ],
   "note": "wordexp is an argument that leaves plain names alone and cuts at blanks; empty buffers, other headers, the root folder, backslashes and blanks are refuted"
  },
  {
   "property": "C96",
   "status": "proved",
   "theorems": [
    "C96_exact",
    "C96_accepts",
    "C96_lenient_refuted",
    "C96_serialize",
    "C96_roundtrip",
    "C96_stable",
    "C96_number",
    "C96_printable",
    "C96_only_overflow",
    "C96_overflow",
    "C96_fuel",
    "C96_metadata_roundtrip",
    "C96_metadata_reads",
    "C96_metadata_errors",
    "C96_metadata_brace",
    "C96_cut",
    "C96_cut_refuted"
   ],
   "note": "the sign of zero is left out; leading zeros and cut texts are refuted"
  },
  {
   "property": "C97",
   "status": "proved",
   "theorems": [
    "C97_reload",
    "C97_again",
    "C97_unloadable",
    "C97_stride",
    "C97_stride_refuted",
    "C97_lost_refuted",
    "C97_unlit_refuted",
    "C97_parameter_refuted",
    "C97_extras_refuted",
    "C97_primitive_refuted"
   ],
   "note": "the text is a function on doubles here (C98 is the text); C97_again assumes that text and float are idempotent on what they gave; what is lost is refuted"
  },
  {
   "property": "C98",
   "status": "proved",
   "theorems": [
    "C98_exact",
    "C98_first",
    "C98_tail",
    "C98_written",
    "C98_twice",
    "C98_short",
    "C98_close",
    "C98_float",
    "C98_float_exists",
    "C98_range",
    "C98_same_refuted",
    "C98_largest_refuted",
    "C98_latin1_refuted",
    "C98_reload",
    "C98_again",
    "C98_unloadable"
   ],
   "note": "C98_again asks that the numbers of the loaded model are finite too (cameras go through float)"
  },
  {
   "property": "C99",
   "status": "proved",
   "theorems": [
    "C99_means",
    "C99_file",
    "C99_unique",
    "C99_refused",
    "C99_file_refused",
    "C99_sane",
    "C99_lost",
    "C99_optional_refuted",
    "C99_channel_refuted",
    "C99_invalid_refuted"
   ],
   "note": "extras and extensions: values with no null and nothing empty inside, or empty as a whole"
  },
  {
   "property": "C100",
   "status": "proved",
   "theorems": [
    "C100_binary",
    "C100_text",
    "C100_truncated_refuted",
    "C100_integer_refuted",
    "C100_nan_refuted",
    "C100_glued_refuted"
   ],
   "note": "needs that no other property has the FNV hash of vertexx, vertexy or vertexz; the result of strtof is an argument"
  },
  {
   "property": "C101",
   "status": "proved",
   "theorems": [
    "C101_roundtrip",
    "C101_bounds",
    "C101_arrays",
    "C101_constructed",
    "C101_folder",
    "C101_far_refuted",
    "C101_folder_refuted",
    "C101_plain_refuted",
    "C101_empty_refuted"
   ],
   "note": "a .png file comes back as it was encoded; files are shorter than 4 GiB"
  },
  {
   "property": "C102",
   "status": "proved",
   "theorems": [
    "C102_reads",
    "C102_safe",
    "C102_png",
    "C102_writer",
    "C102_palette_refuted",
    "C102_crc_refuted",
    "C102_depth_refuted"
   ],
   "note": "the decompressor is an argument"
  },
  {
   "property": "C103",
   "status": "proved",
   "theorems": [
    "C103_inflates",
    "C103_inflates_raw",
    "C103_bytes",
    "C103_store",
    "C103_safe",
    "C103_png",
    "C103_distance_refuted",
    "C103_ends_refuted"
   ],
   "note": "all three kinds of blocks; codes need not be complete"
  }
 ]
}