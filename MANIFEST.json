{
 "claims": [
  {
   "property": "C01",
   "status": "proved",
   "theorems": [
    "C01_transform_mul_assoc",
    "C01_transform_identity",
    "C01_transform_mul_is_composition"
   ],
   "note": "Over the reals, all transforms."
  },
  {
   "property": "C02",
   "status": "partial",
   "theorems": [
    "C02_premultiply",
    "C02_premultiply_aliased_refuted",
    "C02_transform_mul_assign",
    "C02_rotation_mul_assign",
    "C02_rotation_product_is_matrix_product",
    "C02_quaternion_mul_assign",
    "C02_displacement_mul_assign",
    "C02_pose2d_mul_assign_reals",
    "C02_pose2d_mul_assign_binary32_refuted"
   ],
   "note": "Bitwise for Transform, Rotation, Quaternion and Displacement, in any arithmetic, aliased or not. Pose2D: exact over the reals only; the bitwise statement is false of the code (refuted with binary32 values), because *= and * associate their sums differently. transformPreMultiply agrees with the product for distinct objects; with the same object twice it does not (refuted)."
  },
  {
   "property": "C03",
   "status": "partial",
   "theorems": [
    "C03_transform_inverse",
    "C03_transform_inverse_converse",
    "C03_inverse_variants_agree",
    "C03_transformInverse_out",
    "C03_transformInverse_aliased_refuted",
    "C03_transformDiff"
   ],
   "note": "All of it over the reals for distinct input and output. Finding: transformInverse(T, T) does not invert T (refuted)."
  },
  {
   "property": "C04",
   "status": "proved",
   "theorems": [
    "C04_rotation_vectors",
    "C04_transform_action",
    "C04_transform_position2d",
    "C04_transform_isometry",
    "C04_rotation_action",
    "C04_pose2d_action",
    "C04_quaternion_action"
   ],
   "note": ""
  },
  {
   "property": "C05",
   "status": "proved",
   "theorems": [
    "C05_transform_closure",
    "C05_rotation_closure",
    "C05_constructors_from_angles",
    "C05_constructors_from_quaternion",
    "C05_constructor_from_angle_direction"
   ],
   "note": ""
  },
  {
   "property": "C06",
   "status": "proved",
   "theorems": [
    "C06_determinant",
    "C06_rotation_determinant",
    "C06_determinant_rigid",
    "C06_vector_determinant"
   ],
   "note": ""
  },
  {
   "property": "C07",
   "status": "partial",
   "theorems": [
    "C07_isTransform_iff",
    "C07_isRotation_iff",
    "C07_exact",
    "C07_monotone",
    "C07_nan_accepted_refuted"
   ],
   "note": "Exact characterisation over the reals. Finding: NaN coefficients are accepted whatever the tolerance (refuted in binary32)."
  },
  {
   "property": "C08",
   "status": "proved",
   "theorems": [
    "C08_normalizeTransform",
    "C08_normalizeRotation",
    "C08_normalize_direction"
   ],
   "note": ""
  },
  {
   "property": "C09",
   "status": "proved",
   "theorems": [
    "C09_float_vector",
    "C09_toVector",
    "C09_writeToVector",
    "C09_round_trip",
    "C09_round_trip_rigid",
    "C09_ofVector_always_valid",
    "C09_rotation_vector"
   ],
   "note": ""
  },
  {
   "property": "C10",
   "status": "proved",
   "theorems": [
    "C10_elementary_matrices",
    "C10_from3DRotation",
    "C10_transform_one_parameter",
    "C10_rotation_one_parameter",
    "C10_rotation_constants",
    "C10_pose2d_heading"
   ],
   "note": ""
  },
  {
   "property": "C11",
   "status": "proved",
   "theorems": [
    "C11_transform_round_trip",
    "C11_rotation_round_trip",
    "C11_angles_range",
    "C11_angles_recovered",
    "C11_quaternion_from_angles"
   ],
   "note": ""
  },
  {
   "property": "C12",
   "status": "proved",
   "theorems": [
    "C12_quaternion_monoid",
    "C12_norm_multiplicative",
    "C12_inverse",
    "C12_normalize"
   ],
   "note": ""
  },
  {
   "property": "C13",
   "status": "proved",
   "theorems": [
    "C13_homomorphism",
    "C13_apply",
    "C13_quaternion_from_transform",
    "C13_quaternion_recovered",
    "C13_quaternion_double_cover"
   ],
   "note": ""
  },
  {
   "property": "C14",
   "status": "partial",
   "theorems": [
    "C14_from_angle_axis",
    "C14_non_unit_axis_refuted",
    "C14_from_angle_axis_any",
    "C14_angle_axis_recovered",
    "C14_quaternion_recovered",
    "C14_small_angle_axis_refuted",
    "C14_from_angle_axis_exact",
    "C14_angle_axis_all",
    "C14_angle_axis_exact",
    "C14_quaternion_exact"
   ],
   "note": "Unit axes: proved, and for any axis the exact outcome (C14_from_angle_axis_any). Findings (refuted): the normalisation of the result is discarded, so a non-unit axis gives a non-unit quaternion; for small rotations the returned axis is not normalised. The _exact theorems give the inputs for which each direction holds, both ways."
  },
  {
   "property": "C15",
   "status": "proved",
   "theorems": [
    "C15_position_direction",
    "C15_throws_iff",
    "C15_rodrigues",
    "C15_transformFromRotVec"
   ],
   "note": ""
  },
  {
   "property": "C16",
   "status": "partial",
   "theorems": [
    "C16_exponential",
    "C16_exponential_one_parameter",
    "C16_translations",
    "C16_exp_log_regular",
    "C16_log_exp_regular",
    "C16_exp_log_half_turns",
    "C16_half_turn_refuted",
    "C16_small_angle_refuted",
    "C16_exponential_near_rotation",
    "C16_exp_log_exact",
    "C16_euler",
    "C16_exponential_rigid_exact",
    "C16_log_exp_exact"
   ],
   "note": "Exact, for every rigid transform (C16_euler): which transforms the exponential gives back from their logarithm (C16_exp_log_exact), which velocities the logarithm gives back (C16_log_exp_exact), when the exponential is rigid (C16_exponential_rigid_exact). Findings (refuted): half turns about other axes have a null logarithm, small angles are halved."
  },
  {
   "property": "C17",
   "status": "partial",
   "theorems": [
    "C17_throws_iff",
    "C17_start",
    "C17_end_regular",
    "C17_rigid_regular",
    "C17_half_turn_refuted",
    "C17_in_place",
    "C17_in_place_aliased_refuted",
    "C17_end_exact",
    "C17_rigid_exact"
   ],
   "note": "Start, exception and in-place variants for all transforms; exactly when the end is reached (C17_end_exact) and the result rigid (C17_rigid_exact). Findings (refuted): half turns, and the output aliased to the first argument."
  },
  {
   "property": "C18",
   "status": "proved",
   "theorems": [
    "C18_pose_monoid",
    "C18_pose_inverse",
    "C18_pose_diff",
    "C18_pose_action"
   ],
   "note": ""
  },
  {
   "property": "C19",
   "status": "proved",
   "theorems": [
    "C19_homomorphism",
    "C19_pose_recovered",
    "C19_action"
   ],
   "note": ""
  },
  {
   "property": "C20",
   "status": "proved",
   "theorems": [
    "C20_displacement_homomorphism",
    "C20_displacement_round_trip",
    "C20_displacement_algebra"
   ],
   "note": ""
  },
  {
   "property": "C21",
   "status": "partial",
   "theorems": [
    "C21_change_reference_distinct",
    "C21_change_reference_others",
    "C21_change_reference_rigid",
    "C21_change_reference_pose2d",
    "C21_change_reference_aliased_refuted"
   ],
   "note": "Distinct output and in-place variants: all of it. Finding (refuted): aliased output of the out-of-place variants."
  },
  {
   "property": "C22",
   "status": "partial",
   "theorems": [
    "C22_orthogonalSpace_throws",
    "C22_orthogonalSpace_isTransform",
    "C22_orthogonalSpace_exact",
    "C22_orthogonalSpace_refuted",
    "C22_rotationFromAxes",
    "C22_rotationFromAxes_rejects"
   ],
   "note": "For every non-null vector the frame passes isTransform with the right z axis; the vectors for which it is exactly rigid are characterised (C22_orthogonalSpace_exact). Finding (refuted): not orthogonal for vectors within 1e-4 of the z axis."
  },
  {
   "property": "C23",
   "status": "partial",
   "theorems": [
    "C23_turns_about_axis",
    "C23_null_axis_throws",
    "C23_fixes_rotations_plane",
    "C23_idempotent_plane",
    "C23_fixes_rotations_exact",
    "C23_idempotent_exact",
    "C23_transform_overloads",
    "C23_general_axis_refuted",
    "C23_zero_over_zero_refuted"
   ],
   "note": "Always a rotation about the axis; C23_fixes_rotations_exact and C23_idempotent_exact give exactly the axes and angles for which a rotation about the axis is returned unchanged. Findings (refuted): a wrong coefficient for general axes, 0/0 for an exact quarter turn."
  },
  {
   "property": "C24",
   "status": "partial",
   "theorems": [
    "C24_gain",
    "C24_vector_spaces",
    "C24_pointwise",
    "C24_compound_assignment",
    "C24_dot_product",
    "C24_cross_product",
    "C24_cross_product_out",
    "C24_cross_product_aliased_refuted"
   ],
   "note": "Proved but for one finding (refuted): crossProduct(a, b, out) with out aliased to an input."
  },
  {
   "property": "C25",
   "status": "partial",
   "theorems": [
    "C25_division",
    "C25_division_binary32",
    "C25_normalize",
    "C25_pose_normalize",
    "C25_pose_normalize_refuted",
    "C25_normalize_binary32_refuted",
    "C25_norms"
   ],
   "note": "Proved over the reals and, for division, in binary32. Findings (refuted): Pose2D refuses short vectors; in binary32 squares underflow and overflow."
  },
  {
   "property": "C26",
   "status": "proved",
   "theorems": [
    "C26_pairs",
    "C26_tolerance_binary32",
    "C26_quaternion_tolerance_binary32",
    "C26_displacement_tolerance",
    "C26_metric",
    "C26_position_distance",
    "C26_tolerance",
    "C26_quaternion_tolerance",
    "C26_nan"
   ],
   "note": "Over the reals for all types; in binary32 isNear is exact up to a factor 1 + 2^-24 on eps, for all finite values, and false on NaN."
  },
  {
   "property": "C27",
   "status": "partial",
   "theorems": [
    "C27_round_trip",
    "C27_wrong_size",
    "C27_quaternion_wrong_size_refuted",
    "C27_writeToVector"
   ],
   "note": "Proved, but for one finding (refuted): a Quaternion from a vector of the wrong size is null, not the default."
  },
  {
   "property": "C28",
   "status": "partial",
   "theorems": [
    "C28_modulo2PI",
    "C28_modulo2PI_congruent",
    "C28_minus_pi_refuted",
    "C28_modulo2PI_binary32",
    "C28_modulo2PI_not_finite"
   ],
   "note": "Proved with the closed interval [-pi, pi]; the half-open interval of the documentation is refuted for -pi."
  },
  {
   "property": "C29",
   "status": "partial",
   "theorems": [
    "C29_mean_exact",
    "C29_mean_unweighted",
    "C29_mean_permutation",
    "C29_mean_turns",
    "C29_mean_rotation",
    "C29_mean_constant",
    "C29_mean_scaling_exact",
    "C29_mean_scaling_refuted"
   ],
   "note": "The mean is characterised exactly. Finding (refuted): scaling the weights can turn the mean into an exception; C29_mean_scaling_exact says for which factors the mean is the same, both ways."
  },
  {
   "property": "C30",
   "status": "partial",
   "theorems": [
    "C30_clip",
    "C30_clip_binary32",
    "C30_clip_nan_refuted",
    "C30_clip_vector",
    "C30_clip_matrix"
   ],
   "note": "Proved for all reals and all floats but NaN; NaN is left as it is and reported as changed (refuted)."
  },
  {
   "property": "C31",
   "status": "partial",
   "theorems": [
    "C31_round",
    "C31_round_binary32",
    "C31_round_binary32_refuted",
    "C31_round_out_of_range",
    "C31_axis_mask"
   ],
   "note": "Proved, with the exact set of floats for which roundToInt is not the nearest integer (refuted for these)."
  },
  {
   "property": "C32",
   "status": "partial",
   "theorems": [
    "C32_segment_sound",
    "C32_segment_exact",
    "C32_segment_small_refuted",
    "C32_collision_exact",
    "C32_collision_sound",
    "C32_separated",
    "C32_symmetric_visible",
    "C32_collision_convex",
    "C32_symmetric_refuted",
    "C32_small_boxes_refuted",
    "C32_orientation_refuted",
    "C32_ellipse_exact",
    "C32_ellipse_idempotent",
    "C32_ellipse_outside_refuted",
    "C32_ellipse_null_axis_refuted"
   ],
   "note": "C32_segment_exact and C32_collision_exact say exactly which segments and boxes are reported; soundness without condition, completeness and symmetry above the tolerances of the code, ellipse exactly. Findings (refuted): absolute tolerances, dependence on the order and orientation of the corners, null half axes."
  },
  {
   "property": "C33",
   "status": "partial",
   "theorems": [
    "C33_frame_any_arithmetic",
    "C33_flag",
    "C33_bisection",
    "C33_result_free_exact",
    "C33_result_free_refuted"
   ],
   "note": "Exact description of the bisection; C33_result_free_exact says exactly when the returned move is free of collision. Finding (refuted): otherwise the returned move still collides although reported as corrected."
  },
  {
   "property": "C34",
   "status": "partial",
   "theorems": [
    "C34_throws",
    "C34_path_far",
    "C34_path_exact",
    "C34_shortest",
    "C34_turn_sign_exact",
    "C34_turn_sign_refuted",
    "C34_touching_refuted",
    "C34_overflow_refuted"
   ],
   "note": "Exceptions exactly; C34_path_exact gives the condition under which the three segments reach the target, C34_shortest that it is the shortest of its kind. Findings (refuted): headings of the wrong sign of turn, touching circles, overflow."
  },
  {
   "property": "C35",
   "status": "partial",
   "theorems": [
    "C35_difference_equation",
    "C35_superposition",
    "C35_no_ub_once_configured",
    "C35_reset_erases",
    "C35_default_refuted",
    "C35_reconfigure_refuted"
   ],
   "note": "Proved for configured and reset filters, any history. Findings (refuted): an unconfigured filter reads out of bounds, configuring again keeps the history."
  },
  {
   "property": "C36",
   "status": "partial",
   "theorems": [
    "C36_law",
    "C36_checks",
    "C36_reset",
    "C36_absolute_integral_grows",
    "C36_period_refuted",
    "C36_initialize_atomic_refuted",
    "C36_nan_refuted",
    "C36_default"
   ],
   "note": "The law is proved for any history. Findings (refuted): the period argument is ignored, a failed initialize is not atomic, NaN parameters are accepted."
  },
  {
   "property": "C37",
   "status": "partial",
   "theorems": [
    "C37_throws",
    "C37_parameters",
    "C37_rigid_exact",
    "C37_round_trip",
    "C37_order_refuted",
    "C37_centres"
   ],
   "note": "Half extent, centre, axis and exceptions for all pairs of points; the pairs with an exactly rigid frame are characterised (C37_rigid_exact). Findings (refuted): the two points come back in the opposite order; the frame is not exactly rigid within 1e-4 of the z axis (C22)."
  },
  {
   "property": "C38",
   "status": "partial",
   "theorems": [
    "C38_pixel_position",
    "C38_round_trip",
    "C38_pixel_of_position",
    "C38_delta",
    "C38_round_trip_binary32",
    "C38_round_trip_far_refuted"
   ],
   "note": "Proved over the reals and, within 2^20 pixels, in binary32. Finding (refuted): farther away the round trip fails in binary32."
  },
  {
   "property": "C39",
   "status": "proved",
   "theorems": [
    "C39_symmetric",
    "C39_action"
   ],
   "note": ""
  },
  {
   "property": "C40",
   "status": "partial",
   "theorems": [
    "C40_well_formed",
    "C40_throws",
    "C40_refines",
    "C40_append_only",
    "C40_throw_unchanged",
    "C40_vertex_strong_guarantee_refuted",
    "C40_accessors",
    "C40_accessor_wrap_refuted",
    "C40_asserts"
   ],
   "note": "Invariant, refinement of an abstract machine and exact exceptions, for all sequences of fewer than 2^31 calls. Findings (refuted): vertex(x,y,z) is not atomic; accessors wrap around."
  },
  {
   "property": "C41",
   "status": "partial",
   "theorems": [
    "C41_box",
    "C41_box_binary32",
    "C41_rounded_box",
    "C41_rounded_zero",
    "C41_negative",
    "C41_rounded_exact_refuted",
    "C41_create_rounded",
    "C41_arc_vertices_refuted",
    "C41_create_box"
   ],
   "note": "All numbers of arc vertices. Findings (refuted): 3.14 is used for pi, so points are not exactly on the rounded box; a negative number of arc vertices is undefined behaviour."
  },
  {
   "property": "C42",
   "status": "proved",
   "theorems": [
    "C42_tree",
    "C42_exact",
    "C42_inner_failure",
    "C42_forwards"
   ],
   "note": ""
  },
  {
   "property": "C43",
   "status": "proved",
   "theorems": [
    "C43_inertia_eraser",
    "C43_add",
    "C43_default_names",
    "C43_adapter",
    "C43_commute"
   ],
   "note": ""
  },
  {
   "property": "C44",
   "status": "partial",
   "theorems": [
    "C44_accepts",
    "C44_or_throws",
    "C44_unique_path",
    "C44_links",
    "C44_tree_exact",
    "C44_tree_refuted"
   ],
   "note": "Exact characterisation of the accepted documents. Finding (refuted): loops of joints apart from the root are accepted, so the robot need not be a tree; C44_tree_exact: it is a tree if and only if there is no loop."
  },
  {
   "property": "C45",
   "status": "partial",
   "theorems": [
    "C45_cycle_rejected",
    "C45_sources_first",
    "C45_exact",
    "C45_acyclic_refuted"
   ],
   "note": "Cycles are always refused; exact characterisation of the refused documents. Finding (refuted): acyclic robots can be refused, depending on the order of the document."
  },
  {
   "property": "C46",
   "status": "partial",
   "theorems": [
    "C46_document_order",
    "C46_once",
    "C46_every_joint",
    "C46_ends",
    "C46_loop_refuted"
   ],
   "note": "Proved for any robot, any visitor and after any edits; joints of a loop are never visited (refuted, consequence of C44_tree_refuted)."
  },
  {
   "property": "C47",
   "status": "proved",
   "theorems": [
    "C47_removed",
    "C47_dangling_mimic"
   ],
   "note": ""
  },
  {
   "property": "C48",
   "status": "partial",
   "theorems": [
    "C48_mechanism",
    "C48_returns_usual",
    "C48_frames",
    "C48_transport",
    "C48_transport_returns_usual",
    "C48_unknown",
    "C48_loop_refuted",
    "C48_returns_exact",
    "C48_transport_returns_exact",
    "C48_whole_turn_refuted"
   ],
   "note": "Mechanism, frames and unknown names without condition; C48_returns_exact and C48_transport_returns_exact give the exact condition under which the calls return or abort. Findings (refuted): loops, and poses written in two ways abort."
  },
  {
   "property": "C49",
   "status": "partial",
   "theorems": [
    "C49_joint_mass",
    "C49_joint_centre",
    "C49_joint_inertia",
    "C49_alike",
    "C49_turned_refuted",
    "C49_moved_refuted",
    "C49_self_refuted",
    "C49_fixed",
    "C49_fixed_physics_partial",
    "C49_massless",
    "C49_massless_physics_partial",
    "C49_eigen",
    "C49_eigen_refuted"
   ],
   "note": "Mass always; centre of mass and inertia under the stated conditions, with exact conditions for one joint (C49_joint_inertia). Findings (refuted): the inertia is turned by the inverse rotation; an old offset is kept; a joint from a link to itself loses mass."
  },
  {
   "property": "C50",
   "status": "proved",
   "theorems": [
    "C50_transform",
    "C50_angles",
    "C50_product",
    "C50_inverse",
    "C50_group",
    "C50_neutral",
    "C50_origin_element"
   ],
   "note": ""
  },
  {
   "property": "C51",
   "status": "partial",
   "theorems": [
    "C51_ints",
    "C51_int_text",
    "C51_attributes",
    "C51_reading",
    "C51_add_labels",
    "C51_require_key",
    "C51_get_key",
    "C51_history",
    "C51_new_curve",
    "C51_attributes_after_keys_refuted",
    "C51_interleaved_refuted",
    "C51_negative_frame_refuted",
    "C51_labels",
    "C51_negative_label_refuted",
    "C51_require_actuatorcurve",
    "C51_actuators",
    "C51_put_tangent",
    "C51_erase_tangent",
    "C51_erase_atomic_refuted",
    "C51_require_animation"
   ],
   "note": "Proved for curves that conform, any history. Findings (refuted): attributes after keys, interleaved elements, negative frames, non atomic erase."
  },
  {
   "property": "C52",
   "status": "partial",
   "theorems": [
    "C52_segment",
    "C52_segment_function",
    "C52_bounds_needed",
    "C52_curve",
    "C52_curve_function",
    "C52_check_all",
    "C52_nan_refuted"
   ],
   "note": "Proved. Finding (refuted): with floats a NaN tangent is accepted."
  },
  {
   "property": "C53",
   "status": "proved",
   "theorems": [
    "C53_clamp",
    "C53_round_trip",
    "C53_monotone",
    "C53_any_time"
   ],
   "note": ""
  },
  {
   "property": "C54",
   "status": "proved",
   "theorems": [
    "C54_empty",
    "C54_translation",
    "C54_rigid",
    "C54_rotation",
    "C54_same_rotation",
    "C54_equal",
    "C54_order",
    "C54_translation_order",
    "C54_frame",
    "C54_first_matters"
   ],
   "note": ""
  },
  {
   "property": "C55",
   "status": "partial",
   "theorems": [
    "C55_presents",
    "C55_safe",
    "C55_throws",
    "C55_shapes",
    "C55_texture_refuted",
    "C55_count_refuted",
    "C55_indices_refuted"
   ],
   "note": "Proved for any history, in any arithmetic. Findings (refuted): missing texture check for one overload, overflow of the identifier counter, indices written with six digits."
  },
  {
   "property": "C56",
   "status": "proved",
   "theorems": [
    "C56_sound",
    "C56_reload",
    "C56_safe",
    "C56_mass"
   ],
   "note": ""
  },
  {
   "property": "C57",
   "status": "partial",
   "theorems": [
    "C57_calls",
    "C57_safe",
    "C57_mass",
    "C57_centre_partial",
    "C57_names",
    "C57_behind_fixed_refuted",
    "C57_explored_refuted",
    "C57_root_name_refuted",
    "C57_galilean_refuted"
   ],
   "note": "Calls, safety and mass for any document; acceptance by a names checker exactly. Centre of mass under the hypotheses of C49. Findings (refuted): moving joints behind fixed ones, exploration, made-up names, Galilean frame."
  },
  {
   "property": "C58",
   "status": "partial",
   "theorems": [
    "C58_almath",
    "C58_qi",
    "C58_layout",
    "C58_distinct",
    "C58_special",
    "C58_toSpaceSeparated",
    "C58_flags",
    "C58_flags_refuted",
    "C58_precision_refuted"
   ],
   "note": "Text of every operator<< in terms of the correctly rounded numbers, for all finite coordinates. Findings (refuted): the flags showpos, showpoint and left stay set on the stream; six digits do not determine the value."
  },
  {
   "property": "C59",
   "status": "partial",
   "theorems": [
    "C59_double",
    "C59_not_finite",
    "C59_float",
    "C59_float_refuted",
    "C59_read",
    "C59_array3d",
    "C59_array3d_put",
    "C59_readers",
    "C59_kinds",
    "C59_malformed_refuted",
    "C59_pose"
   ],
   "note": "Doubles written with 17 digits and floats with 9 read back exactly; C59_read gives the language accepted and the value; C59_kinds and all readers of URDF elements. Findings (refuted): eight digits are not enough for a float; a malformed axis or scale is read as the default."
  },
  {
   "property": "C60",
   "status": "proved",
   "theorems": [
    "C60_links",
    "C60_axis",
    "C60_origin",
    "C60_inertial",
    "C60_transport"
   ],
   "note": ""
  },
  {
   "property": "C61",
   "status": "partial",
   "theorems": [
    "C61_names",
    "C61_stopped",
    "C61_throws",
    "C61_compose",
    "C61_atomic_refuted"
   ],
   "note": "Exact set of names changed, composition, when it throws. Finding (refuted): an exception leaves the robot partly changed."
  },
  {
   "property": "C62",
   "status": "partial",
   "theorems": [
    "C62_product",
    "C62_group",
    "C62_inverse",
    "C62_inverse_unit",
    "C62_defined",
    "C62_drift_refuted",
    "C62_accepted",
    "C62_near",
    "C62_near_laws",
    "C62_near_origin_refuted",
    "C62_angle_axis",
    "C62_normalize"
   ],
   "note": "Products, inverses, tolerance and rotations over the reals for all unit transforms, and the exact domain of the operations. Findings (refuted): the product of two accepted transforms may not be accepted, so long products stop the program; the tolerance of isNear grows with the distance to the origin."
  },
  {
   "property": "C63",
   "status": "proved",
   "theorems": [
    "C63_homomorphism",
    "C63_round_trip",
    "C63_pose2D",
    "C63_translation",
    "C63_copies"
   ],
   "note": ""
  },
  {
   "property": "C64",
   "status": "partial",
   "theorems": [
    "C64_text",
    "C64_edited",
    "C64_every_joint",
    "C64_read_back",
    "C64_names_refuted"
   ],
   "note": "Findings (refuted): names are printed without quotes, so two different robots can have the same text."
  },
  {
   "property": "C65",
   "status": "proved",
   "theorems": [
    "C65_one",
    "C65_continuous",
    "C65_throws",
    "C65_idempotent"
   ],
   "note": ""
  },
  {
   "property": "C66",
   "status": "proved",
   "theorems": [
    "C66_product",
    "C66_inverse",
    "C66_back"
   ],
   "note": "IEEE binary32, round to nearest, no fused multiply-add."
  },
  {
   "property": "C67",
   "status": "proved",
   "theorems": [
    "C67_isTransform",
    "C67_rebuilt",
    "C67_chain_valid",
    "C67_chain",
    "C67_points"
   ],
   "note": "Hypothesis `close` : the factors are within d of rigid transforms with the same translation."
  },
  {
   "property": "C68",
   "status": "proved",
   "theorems": [
    "C68_rotations",
    "C68_pose",
    "C68_kinematics",
    "C68_accurate"
   ],
   "note": "The libm functions are any functions within e of cos and sin; C68_accurate shows that some exist."
  },
  {
   "property": "C69",
   "status": "proved",
   "theorems": [
    "C69_norm",
    "C69_distance",
    "C69_normalize",
    "C69_products",
    "C69_range"
   ],
   "note": ""
  },
  {
   "property": "C70",
   "status": "proved",
   "theorems": [
    "C70_product",
    "C70_mul_assign",
    "C70_inverse",
    "C70_odometry"
   ],
   "note": "The libm functions are any functions within e of cos and sin, see C68_accurate."
  },
  {
   "property": "C71",
   "status": "proved",
   "theorems": [
    "C71_product",
    "C71_chain",
    "C71_normalize",
    "C71_renormalize",
    "C71_matrix",
    "C71_attitude",
    "C71_rotate",
    "C71_angle_axis",
    "C71_inverse"
   ],
   "note": "The libm functions are any functions within e of cos and sin, see C68_accurate."
  },
  {
   "property": "C72",
   "status": "proved",
   "theorems": [
    "C72_reals",
    "C72_binary32",
    "C72_equivalence",
    "C72_not_equal",
    "C72_constructors",
    "C72_neutral"
   ],
   "note": ""
  },
  {
   "property": "C73",
   "status": "proved",
   "theorems": [
    "C73_from_polar",
    "C73_to_polar"
   ],
   "note": ""
  },
  {
   "property": "C74",
   "status": "proved",
   "theorems": [
    "C74_differential",
    "C74_error",
    "C74_null",
    "C74_antisymmetric"
   ],
   "note": ""
  },
  {
   "property": "C75",
   "status": "proved",
   "theorems": [
    "C75_rotation_position",
    "C75_parts",
    "C75_norm",
    "C75_position6D"
   ],
   "note": ""
  },
  {
   "property": "C76",
   "status": "proved",
   "theorems": [
    "C76_rm_root",
    "C76_rm_leaf",
    "C76_transport",
    "C76_flip",
    "C76_define_as_root",
    "C76_make",
    "C76_continuous",
    "C76_remove",
    "C76_squash",
    "C76_squash_fixed",
    "C76_massless",
    "C76_history",
    "C76_text"
   ],
   "note": "Hypothesis readable_doc: every joint and link of the document can be read, and a link has at most one inertial element. Reading back exactly needs the numbers written to be finite (fin_edit), since a number that is not finite has no text that is read back."
  },
  {
   "property": "C77",
   "status": "proved",
   "theorems": [
    "C77_literals",
    "C77_integers",
    "C77_fmod"
   ],
   "note": ""
  },
  {
   "property": "C78",
   "status": "proved",
   "theorems": [
    "C78_filter"
   ],
   "note": ""
  },
  {
   "property": "C79",
   "status": "proved",
   "theorems": [
    "C79_feedback"
   ],
   "note": ""
  },
  {
   "property": "C80",
   "status": "proved",
   "theorems": [
    "C80_fixed_joints",
    "C80_massless_joints",
    "C80_centre"
   ],
   "note": "The rounding of the inertia matrices is not bounded; the sum of the masses and, for one merge, the centre are."
  },
  {
   "property": "C81",
   "status": "proved",
   "theorems": [
    "C81_clip",
    "C81_idempotent",
    "C81_accurate"
   ],
   "note": "Half axes below 2^-20 m or above 2^20 m are left out (C32_ellipse_null_axis_refuted shows a null one)."
  },
  {
   "property": "C82",
   "status": "partial",
   "theorems": [
    "C82_inside",
    "C82_segments",
    "C82_steep_refuted"
   ],
   "note": "Segments of coordinates up to 1. C82_steep_refuted: for a nearly vertical first segment crossings are missed, or reported more than a centimetre off."
  },
  {
   "property": "C83",
   "status": "proved",
   "theorems": [
    "C83_chain",
    "C83_transform"
   ],
   "note": "Position errors are bounded by the length of the translations, as in C67."
  },
  {
   "property": "C84",
   "status": "proved",
   "theorems": [
    "C84_vectors",
    "C84_back"
   ],
   "note": "With an output that is not the input; C21_change_reference_aliased_refuted shows what an output that is the input gives."
  },
  {
   "property": "C85",
   "status": "proved",
   "theorems": [
    "C85_axis",
    "C85_refused"
   ],
   "note": "Between 2^-20 and about 10^-5 off a unit length the outcome depends on the last bits and nothing is claimed."
  }
 ]
}