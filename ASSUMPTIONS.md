# What `Print Assumptions` lists

For each theorem of MANIFEST.json, grouped by the axioms of Coq's standard library they use.

## Closed under the global context

`C02_premultiply` `C02_transform_mul_assign` `C02_rotation_mul_assign` `C02_quaternion_mul_assign` `C02_displacement_mul_assign` `C03_inverse_variants_agree` `C03_transformInverse_out` `C06_vector_determinant` `C09_float_vector` `C09_toVector` `C09_writeToVector` `C09_round_trip` `C09_rotation_vector` `C24_compound_assignment` `C24_cross_product_out` `C27_round_trip` `C27_wrong_size` `C27_writeToVector` `C30_clip_vector` `C30_clip_matrix` `C31_axis_mask` `C33_frame_any_arithmetic` `C35_no_ub_once_configured` `C35_reset_erases` `C35_default_refuted` `C36_period_refuted` `C39_symmetric` `C40_well_formed` `C40_throws` `C40_refines` `C40_append_only` `C40_throw_unchanged` `C40_vertex_strong_guarantee_refuted` `C40_accessors` `C40_accessor_wrap_refuted` `C40_asserts` `C42_tree` `C42_exact` `C42_inner_failure` `C42_forwards` `C43_inertia_eraser` `C43_add` `C43_default_names` `C43_adapter` `C43_commute` `C44_accepts` `C44_or_throws` `C44_unique_path` `C44_links` `C44_tree_exact` `C44_tree_refuted` `C45_cycle_rejected` `C45_sources_first` `C45_exact` `C45_acyclic_refuted` `C46_document_order` `C46_once` `C46_every_joint` `C46_ends` `C46_loop_refuted` `C47_removed` `C47_dangling_mimic` `C51_ints` `C51_int_text` `C51_attributes` `C51_reading` `C51_add_labels` `C51_require_key` `C51_get_key` `C51_history` `C51_new_curve` `C51_attributes_after_keys_refuted` `C51_interleaved_refuted` `C51_negative_frame_refuted` `C51_labels` `C51_negative_label_refuted` `C51_require_actuatorcurve` `C51_actuators` `C51_put_tangent` `C51_erase_tangent` `C51_erase_atomic_refuted` `C51_require_animation` `C53_clamp` `C53_round_trip` `C53_monotone` `C53_any_time` `C55_presents` `C55_safe` `C55_throws` `C55_texture_refuted` `C55_count_refuted` `C55_indices_refuted` `C58_flags` `C61_names` `C61_stopped` `C61_throws` `C61_compose` `C61_atomic_refuted` `C63_translation` `C63_copies` `C64_text` `C64_edited` `C64_every_joint` `C64_read_back` `C64_names_refuted` `C65_one` `C65_continuous` `C65_throws` `C65_idempotent` `C72_not_equal` `C72_constructors` `C75_parts`

## `ClassicalDedekindReals.sig_forall_dec`, `FunctionalExtensionality.functional_extensionality_dep`

`C52_bounds_needed` `C72_equivalence`

## `ClassicalDedekindReals.sig_forall_dec`, `ClassicalDedekindReals.sig_not_dec`, `FunctionalExtensionality.functional_extensionality_dep`

`C52_segment_function`

## `ClassicalDedekindReals.sig_forall_dec`, `ClassicalDedekindReals.sig_not_dec`, `Classical_Prop.classic`, `FunctionalExtensionality.functional_extensionality_dep`

`C01_transform_mul_assoc` `C01_transform_identity` `C01_transform_mul_is_composition` `C02_premultiply_aliased_refuted` `C02_rotation_product_is_matrix_product` `C02_pose2d_mul_assign_reals` `C02_pose2d_mul_assign_binary32_refuted` `C03_transform_inverse` `C03_transform_inverse_converse` `C03_transformInverse_aliased_refuted` `C03_transformDiff` `C04_rotation_vectors` `C04_transform_action` `C04_transform_position2d` `C04_transform_isometry` `C04_rotation_action` `C04_pose2d_action` `C04_quaternion_action` `C05_transform_closure` `C05_rotation_closure` `C05_constructors_from_angles` `C05_constructors_from_quaternion` `C05_constructor_from_angle_direction` `C06_determinant` `C06_rotation_determinant` `C06_determinant_rigid` `C07_isTransform_iff` `C07_isRotation_iff` `C07_exact` `C07_monotone` `C07_nan_accepted_refuted` `C08_normalizeTransform` `C08_normalizeRotation` `C08_normalize_direction` `C09_round_trip_rigid` `C09_ofVector_always_valid` `C10_elementary_matrices` `C10_from3DRotation` `C10_transform_one_parameter` `C10_rotation_one_parameter` `C10_rotation_constants` `C10_pose2d_heading` `C11_transform_round_trip` `C11_rotation_round_trip` `C11_angles_range` `C11_angles_recovered` `C11_quaternion_from_angles` `C12_quaternion_monoid` `C12_norm_multiplicative` `C12_inverse` `C12_normalize` `C13_homomorphism` `C13_apply` `C13_quaternion_from_transform` `C13_quaternion_recovered` `C13_quaternion_double_cover` `C14_from_angle_axis` `C14_non_unit_axis_refuted` `C14_from_angle_axis_any` `C14_angle_axis_recovered` `C14_quaternion_recovered` `C14_small_angle_axis_refuted` `C14_from_angle_axis_exact` `C14_angle_axis_all` `C14_angle_axis_exact` `C14_quaternion_exact` `C15_position_direction` `C15_throws_iff` `C15_rodrigues` `C15_transformFromRotVec` `C16_exponential` `C16_exponential_one_parameter` `C16_translations` `C16_exp_log_regular` `C16_log_exp_regular` `C16_exp_log_half_turns` `C16_half_turn_refuted` `C16_small_angle_refuted` `C16_exponential_near_rotation` `C16_exp_log_exact` `C16_euler` `C16_exponential_rigid_exact` `C16_log_exp_exact` `C17_throws_iff` `C17_start` `C17_end_regular` `C17_rigid_regular` `C17_half_turn_refuted` `C17_in_place` `C17_in_place_aliased_refuted` `C17_end_exact` `C17_rigid_exact` `C18_pose_monoid` `C18_pose_inverse` `C18_pose_diff` `C18_pose_action` `C19_homomorphism` `C19_pose_recovered` `C19_action` `C20_displacement_homomorphism` `C20_displacement_round_trip` `C20_displacement_algebra` `C21_change_reference_distinct` `C21_change_reference_others` `C21_change_reference_rigid` `C21_change_reference_pose2d` `C21_change_reference_aliased_refuted` `C22_orthogonalSpace_throws` `C22_orthogonalSpace_isTransform` `C22_orthogonalSpace_exact` `C22_orthogonalSpace_refuted` `C22_rotationFromAxes` `C22_rotationFromAxes_rejects` `C23_turns_about_axis` `C23_null_axis_throws` `C23_fixes_rotations_plane` `C23_idempotent_plane` `C23_fixes_rotations_exact` `C23_idempotent_exact` `C23_transform_overloads` `C23_general_axis_refuted` `C23_zero_over_zero_refuted` `C24_gain` `C24_vector_spaces` `C24_pointwise` `C24_dot_product` `C24_cross_product` `C24_cross_product_aliased_refuted` `C25_division` `C25_division_binary32` `C25_normalize` `C25_pose_normalize` `C25_pose_normalize_refuted` `C25_normalize_binary32_refuted` `C25_norms` `C26_pairs` `C26_tolerance_binary32` `C26_quaternion_tolerance_binary32` `C26_displacement_tolerance` `C26_metric` `C26_position_distance` `C26_tolerance` `C26_quaternion_tolerance` `C26_nan` `C27_quaternion_wrong_size_refuted` `C28_modulo2PI` `C28_modulo2PI_congruent` `C28_minus_pi_refuted` `C28_modulo2PI_binary32` `C28_modulo2PI_not_finite` `C29_mean_exact` `C29_mean_unweighted` `C29_mean_permutation` `C29_mean_turns` `C29_mean_rotation` `C29_mean_constant` `C29_mean_scaling_exact` `C29_mean_scaling_refuted` `C30_clip` `C30_clip_binary32` `C30_clip_nan_refuted` `C31_round` `C31_round_binary32` `C31_round_binary32_refuted` `C31_round_out_of_range` `C32_segment_sound` `C32_segment_exact` `C32_segment_small_refuted` `C32_collision_exact` `C32_collision_sound` `C32_separated` `C32_symmetric_visible` `C32_collision_convex` `C32_symmetric_refuted` `C32_small_boxes_refuted` `C32_orientation_refuted` `C32_ellipse_exact` `C32_ellipse_idempotent` `C32_ellipse_outside_refuted` `C32_ellipse_null_axis_refuted` `C33_flag` `C33_bisection` `C33_result_free_exact` `C33_result_free_refuted` `C34_throws` `C34_path_far` `C34_path_exact` `C34_shortest` `C34_turn_sign_exact` `C34_turn_sign_refuted` `C34_touching_refuted` `C34_overflow_refuted` `C35_difference_equation` `C35_superposition` `C35_reconfigure_refuted` `C36_law` `C36_checks` `C36_reset` `C36_absolute_integral_grows` `C36_initialize_atomic_refuted` `C36_nan_refuted` `C36_default` `C37_throws` `C37_parameters` `C37_rigid_exact` `C37_round_trip` `C37_order_refuted` `C37_centres` `C38_pixel_position` `C38_round_trip` `C38_pixel_of_position` `C38_delta` `C38_round_trip_binary32` `C38_round_trip_far_refuted` `C39_action` `C41_box` `C41_box_binary32` `C41_rounded_box` `C41_rounded_zero` `C41_negative` `C41_rounded_exact_refuted` `C41_create_rounded` `C41_arc_vertices_refuted` `C41_create_box` `C48_mechanism` `C48_returns_usual` `C48_frames` `C48_transport` `C48_transport_returns_usual` `C48_unknown` `C48_loop_refuted` `C48_returns_exact` `C48_transport_returns_exact` `C48_whole_turn_refuted` `C49_joint_mass` `C49_joint_centre` `C49_joint_inertia` `C49_alike` `C49_turned_refuted` `C49_moved_refuted` `C49_self_refuted` `C49_fixed` `C49_fixed_physics_partial` `C49_massless` `C49_massless_physics_partial` `C49_eigen` `C49_eigen_refuted` `C50_transform` `C50_angles` `C50_product` `C50_inverse` `C50_group` `C50_neutral` `C50_origin_element` `C52_segment` `C52_curve` `C52_curve_function` `C52_check_all` `C52_nan_refuted` `C54_empty` `C54_translation` `C54_rigid` `C54_rotation` `C54_same_rotation` `C54_equal` `C54_order` `C54_translation_order` `C54_frame` `C54_first_matters` `C55_shapes` `C56_sound` `C56_reload` `C56_safe` `C56_mass` `C57_calls` `C57_safe` `C57_mass` `C57_centre_partial` `C57_names` `C57_behind_fixed_refuted` `C57_explored_refuted` `C57_root_name_refuted` `C57_galilean_refuted` `C58_almath` `C58_qi` `C58_layout` `C58_distinct` `C58_special` `C58_toSpaceSeparated` `C58_flags_refuted` `C58_precision_refuted` `C59_double` `C59_not_finite` `C59_float` `C59_float_refuted` `C59_read` `C59_array3d` `C59_array3d_put` `C59_readers` `C59_kinds` `C59_malformed_refuted` `C59_pose` `C60_links` `C60_axis` `C60_origin` `C60_inertial` `C60_transport` `C62_product` `C62_group` `C62_inverse` `C62_inverse_unit` `C62_defined` `C62_drift_refuted` `C62_accepted` `C62_near` `C62_near_laws` `C62_near_origin_refuted` `C62_angle_axis` `C62_normalize` `C63_homomorphism` `C63_round_trip` `C63_pose2D` `C66_product` `C66_inverse` `C66_back` `C67_isTransform` `C67_rebuilt` `C67_chain_valid` `C67_chain` `C67_points` `C68_rotations` `C68_pose` `C68_kinematics` `C68_accurate` `C69_norm` `C69_distance` `C69_normalize` `C69_products` `C69_range` `C70_product` `C70_mul_assign` `C70_inverse` `C70_odometry` `C71_product` `C71_chain` `C71_normalize` `C71_renormalize` `C71_matrix` `C71_attitude` `C71_rotate` `C71_angle_axis` `C71_inverse` `C72_reals` `C72_binary32` `C72_neutral` `C73_from_polar` `C73_to_polar` `C74_differential` `C74_error` `C74_null` `C74_antisymmetric` `C75_rotation_position` `C75_norm` `C75_position6D` `C76_rm_root` `C76_rm_leaf` `C76_transport` `C76_flip` `C76_define_as_root` `C76_make` `C76_continuous` `C76_remove` `C76_squash` `C76_squash_fixed` `C76_massless` `C76_history` `C76_text` `C77_literals` `C77_integers` `C77_fmod` `C78_filter` `C79_feedback` `C80_fixed_joints` `C80_massless_joints` `C80_centre` `C81_clip` `C81_idempotent` `C81_accurate` `C82_inside` `C82_segments` `C82_steep_refuted` `C83_chain` `C83_transform` `C84_vectors` `C84_back` `C85_axis` `C85_refused`
