{
 "claims": [
  {
   "property": "C01",
   "status": "proved",
   "theorems": [
    "C01_tensor_is_configs",
    "C01_fk_tensor_is_path_product",
    "C01_fk_is_path_product",
    "C01_fk_of_selected_frames",
    "C01_chain_always_builds"
   ],
   "note": "For trees with distinct moving-joint names (and distinct, newline-free frame names for the named interface); arithmetic over the real numbers."
  },
  {
   "property": "C02",
   "status": "proved",
   "theorems": [
    "C02_batch_rows_independent",
    "C02_batch_is_rowwise"
   ],
   "note": "For every chain value and width (no assumption on names)."
  },
  {
   "property": "C03",
   "status": "proved",
   "theorems": [
    "C03_fk_rigid",
    "C03_joint_axis_unit"
   ],
   "note": "Over the real numbers; offsets rigid and axes unit, which the Joint constructor ensures for every non-zero axis."
  },
  {
   "property": "C04",
   "status": "proved",
   "theorems": [
    "C04_joint_moves_exactly_its_subtree"
   ],
   "note": ""
  },
  {
   "property": "C05",
   "status": "proved",
   "theorems": [
    "C05_revolute_geometry",
    "C05_prismatic_geometry",
    "C05_get_transform"
   ],
   "note": "Over the real numbers, unit axis."
  },
  {
   "property": "C06",
   "status": "proved",
   "theorems": [
    "C06_frame_indexing"
   ],
   "note": ""
  },
  {
   "property": "C07",
   "status": "proved",
   "theorems": [
    "C07_columns",
    "C07_repeated_names_refuted"
   ],
   "note": "With distinct names; refuted for repeated names with a two-joint witness."
  },
  {
   "property": "C08",
   "status": "proved",
   "theorems": [
    "C08_get_joints_default",
    "C08_get_joints_all_actual",
    "C08_get_joints_all_refuted"
   ],
   "note": "Decided: the exclude_fixed=True half holds, the exclude_fixed=False half is refuted and the real behaviour is characterised."
  },
  {
   "property": "C09",
   "status": "proved",
   "theorems": [
    "C09_dict_numbers",
    "C09_dict_batch",
    "C09_vector_forms",
    "C09_unknown_rejected",
    "C09_missing_rejected",
    "C09_zero_fill_refuted"
   ],
   "note": "Interchangeability and rejection proved; the README's zero filling is refuted."
  },
  {
   "property": "C10",
   "status": "proved",
   "theorems": [
    "C10_clamp",
    "C10_clamp_batch"
   ],
   "note": "Values that are not NaN, infinite limits and values included."
  },
  {
   "property": "C11",
   "status": "proved",
   "theorems": [
    "C11_relative_pose",
    "C11_every_frame"
   ],
   "note": "Every frame of the path, any start and end, all batch sizes."
  },
  {
   "property": "C12",
   "status": "proved",
   "theorems": [
    "C12_joint_names",
    "C12_accepted_pairs",
    "C12_unknown_root",
    "C12_newline_names_refuted"
   ],
   "note": "Joint names and accepted pairs of frames for names without a line break; the unrestricted claim is refuted (C12_newline_names_refuted)."
  },
  {
   "property": "C13",
   "status": "proved",
   "theorems": [
    "C13_accepted",
    "C13_numbers_rejected",
    "C13_dict_of_numbers_refuted",
    "C13_shorter_rejected",
    "C13_nested_list_refuted"
   ],
   "note": "Accepted and rejected inputs are characterised; dictionaries of plain numbers and nested lists fail or misread their joints (refuted)."
  },
  {
   "property": "C14",
   "status": "proved",
   "theorems": [
    "C14_jacobian_is_derivative",
    "C14_input_forms",
    "C14_dict_refuted"
   ],
   "note": "for every serial chain over unit axes and rigid offsets and every batch, the columns returned are the derivatives of all sixteen entries of the chain's own end pose, for vector, matrix, list and numpy inputs; the docstring's dictionary input is refuted (RuntimeError)"
  },
  {
   "property": "C15",
   "status": "proved",
   "theorems": [
    "C15_jacobian_with_tool",
    "C15_positions",
    "C15_several_tools_refuted"
   ],
   "note": "with one tool per row or one for all rows the Jacobian is that of the tool pose and the returned pose is that product; positions act as translations; one configuration with several tools is refuted (RuntimeError)"
  },
  {
   "property": "C16",
   "status": "proved",
   "theorems": [
    "C16_backward_is_vjp",
    "C16_ancestor_mask"
   ],
   "note": "the analytical backward pass returns the derivative of the weighted sum of all pose entries with respect to every joint value, for any chain with distinct joint names, unit axes and rigid offsets; the ancestor mask is characterised by paths"
  },
  {
   "property": "C17",
   "status": "proved",
   "theorems": [
    "C17_printed_tree",
    "C17_line_count"
   ],
   "note": ""
  },
  {
   "property": "C18",
   "status": "proved",
   "theorems": [
    "C18_joints_and_child_links",
    "C18_order"
   ],
   "note": ""
  },
  {
   "property": "C19",
   "status": "proved",
   "theorems": [
    "C19_in_SO3",
    "C19_scale_invariant",
    "C19_geometry"
   ],
   "note": "Over the real numbers."
  },
  {
   "property": "C20",
   "status": "proved",
   "theorems": [
    "C20_matrix_to_quaternion",
    "C20_every_branch",
    "C20_branch_choice",
    "C20_back"
   ],
   "note": "Over the real numbers; every branch covered."
  },
  {
   "property": "C21",
   "status": "proved",
   "theorems": [
    "C21_multiply_is_matrix_product",
    "C21_raw_multiply",
    "C21_associative_up_to_sign",
    "C21_unit_element",
    "C21_exact_associativity_refuted",
    "C21_invert",
    "C21_apply",
    "C21_apply_scaled"
   ],
   "note": "Associativity holds up to sign; exact associativity is refuted (standardisation flips a pure quaternion)."
  },
  {
   "property": "C22",
   "status": "proved",
   "theorems": [
    "C22_rotation",
    "C22_routes_agree",
    "C22_small_angles",
    "C22_every_vector"
   ],
   "note": "Exact for angle 0 or at least 1e-6; below 1e-6 the series is used and the angle error is bounded by t^5/960."
  },
  {
   "property": "C23",
   "status": "proved",
   "theorems": [
    "C23_vector_round_trip",
    "C23_vector_small",
    "C23_quaternion_round_trip",
    "C23_quaternion_small",
    "C23_matrix_round_trip"
   ],
   "note": "Exact outside the 1e-6 series window, with an explicit bound inside it."
  },
  {
   "property": "C24",
   "status": "proved",
   "theorems": [
    "C24_matrix_round_trip",
    "C24_angle_round_trip",
    "C24_always_rotation",
    "C24_rejects",
    "C24_gimbal_lock_refuted"
   ],
   "note": "All twelve conventions away from gimbal lock; refuted at gimbal lock; bad conventions rejected."
  },
  {
   "property": "C25",
   "status": "proved",
   "theorems": [
    "C25_static",
    "C25_rotating",
    "C25_default",
    "C25_other_codes",
    "C25_unchanged_argument_refuted"
   ],
   "note": "All 24 string codes; argument-unchanged is refuted (the call halves its argument in place)."
  },
  {
   "property": "C26",
   "status": "proved",
   "theorems": [
    "C26_rotation",
    "C26_gram_schmidt",
    "C26_back",
    "C26_nine",
    "C26_tiny_vectors_refuted"
   ],
   "note": "For vectors with norms at least 1e-12 (the normalize floor); refuted below it."
  },
  {
   "property": "C27",
   "status": "proved",
   "theorems": [
    "C27_matrix_round_trip",
    "C27_pair_round_trip",
    "C27_orders"
   ],
   "note": ""
  },
  {
   "property": "C28",
   "status": "proved",
   "theorems": [
    "C28_random",
    "C28_standardize"
   ],
   "note": "For non-zero samples."
  },
  {
   "property": "C29",
   "status": "proved",
   "theorems": [
    "C29_compose_points",
    "C29_projective",
    "C29_associative",
    "C29_many",
    "C29_unit",
    "C29_batches",
    "C29_points",
    "C29_eps_is_harmless",
    "C29_stack"
   ],
   "note": "All batch sizes and point shapes (2-D and 3-D), affine transforms; single projective matrices where no homogeneous coordinate vanishes. compose(..., batch_to_batch=True) relies on an external function and is not modelled."
  },
  {
   "property": "C30",
   "status": "proved",
   "theorems": [
    "C30_rigid",
    "C30_rigid_points",
    "C30_scale",
    "C30_exactly_orthogonal",
    "C30_scaled_refuted"
   ],
   "note": "Decided: proved for everything built without scaling and for Scale objects; refuted for composed, cloned or indexed scaled transforms, and shown right exactly when the block is orthogonal."
  },
  {
   "property": "C31",
   "status": "proved",
   "theorems": [
    "C31_normals",
    "C31_tangency",
    "C31_shape_operator",
    "C31_curvatures",
    "C31_shape_operator_4d_fails",
    "C31_shape_operator_4d_refuted",
    "C31_scale_object",
    "C31_composed_scale_refuted"
   ],
   "note": "Decided: proved for rigid transforms; the 4-D shape operator input and composed scaled transforms are refuted."
  },
  {
   "property": "C32",
   "status": "proved",
   "theorems": [
    "C32_translate",
    "C32_scale",
    "C32_rotate",
    "C32_rotate_axis_angle",
    "C32_bad_axis",
    "C32_components",
    "C32_uniform_scale",
    "C32_inverses",
    "C32_docstring_order_refuted"
   ],
   "note": "Decided: order of application proved; the class docstring states the opposite order and is refuted."
  },
  {
   "property": "C33",
   "status": "proved",
   "theorems": [
    "C33_cross",
    "C33_inverse",
    "C33_inverse_skew",
    "C33_reject",
    "C33_accept",
    "C33_empty_batch_refuted"
   ],
   "note": "Holds for every vector and matrix; rejection is at the 1e-5 tolerance of the code; an empty batch fails (C33_empty_batch_refuted)."
  },
  {
   "property": "C34",
   "status": "proved",
   "theorems": [
    "C34_exp",
    "C34_exp_small",
    "C34_exp_small_refuted",
    "C34_log_exp",
    "C34_exp_log",
    "C34_log_rows",
    "C34_log_small",
    "C34_log_half_turn_refuted",
    "C34_relative_symmetric",
    "C34_relative_accuracy",
    "C34_relative_self_refuted",
    "C34_relative_self",
    "C34_relative_monotone",
    "C34_reject"
   ],
   "note": "Exact outside the windows, with error bounds inside. Refuted inside: exp below the clamp is no rotation, log of a half turn is zero, the relative angle of equal rotations is between 0.007 and 0.015, not zero."
  },
  {
   "property": "C35",
   "status": "proved",
   "theorems": [
    "C35_extrapolation",
    "C35_reject"
   ],
   "note": "Value, continuity and continuous differentiability on all reals, strict monotonicity, rejection of inadmissible bounds."
  },
  {
   "property": "C36",
   "status": "proved",
   "theorems": [
    "C36_symmetric",
    "C36_sign",
    "C36_angle",
    "C36_range",
    "C36_zero",
    "C36_triangle",
    "C36_batch_refuted",
    "C36_separation_refuted"
   ],
   "note": "All parts for unit quaternions; dependence on the rest of the batch and zero distance for distinct orientations are stated as refutations."
  },
  {
   "property": "C37",
   "status": "proved",
   "theorems": [
    "C37_slerp",
    "C37_lerp",
    "C37_lerp_unit_refuted",
    "C37_batch_refuted",
    "C37_argument",
    "C37_argument_refuted",
    "C37_vector_t",
    "C37_vector_t_lerp_refuted"
   ],
   "note": "Slerp and lerp branches decided. Refuted: batch independence (NaN), unit length in the lerp branch, unchanged second argument, vector t in the lerp branch."
  },
  {
   "property": "C38",
   "status": "proved",
   "theorems": [
    "C38_rigid",
    "C38_given_axis",
    "C38_drawn_axis",
    "C38_batches",
    "C38_axis_length_refuted"
   ],
   "note": "For every draw with non-zero drawn axis; a given axis that is not of unit length gives a non-rigid result (refutation)."
  },
  {
   "property": "C39",
   "status": "proved",
   "theorems": [
    "C39_history",
    "C39_frozen",
    "C39_solve",
    "C39_end_to_end"
   ],
   "note": "for every update history, for the result of solve with any step oracle, and end to end for a serial chain with its own Jacobian, pose error and forward kinematics"
  },
  {
   "property": "C40",
   "status": "proved",
   "theorems": [
    "C40_flags_implied",
    "C40_exact_after_enforcement",
    "C40_flags_refuted",
    "C40_any_never_set"
   ],
   "note": "exact after limit enforcement; refuted without it (flags are sticky) and for the any-flags (never written)"
  },
  {
   "property": "C41",
   "status": "proved",
   "theorems": [
    "C41_run",
    "C41_full_budget"
   ],
   "note": "the number of iterations and the set of remaining problems are characterised exactly, for all stopping modes"
  },
  {
   "property": "C42",
   "status": "proved",
   "theorems": [
    "C42_limits",
    "C42_limits_finite",
    "C42_unlimited_revolute_refuted",
    "C42_one_sided_limit_refuted",
    "C42_chain_limits"
   ],
   "note": "every component is within its limits or NaN; finite when revolute joints have two finite limits; refuted for a revolute joint with a missing limit (NaN); finite and within limits for every serial chain with finite limits, whatever the targets"
  },
  {
   "property": "C43",
   "status": "proved",
   "theorems": [
    "C43_wrap",
    "C43_same_pose",
    "C43_nearest",
    "C43_tie",
    "C43_whole_turn_refuted"
   ],
   "note": "per joint: a whole number of turns, nearest to the centre, in limits if any shift is; the serial chain's end pose is unchanged"
  },
  {
   "property": "C44",
   "status": "proved",
   "theorems": [
    "C44_damped_least_squares"
   ],
   "note": "never fails; unique minimiser; zero iff the gradient is; the linearised error goes down"
  },
  {
   "property": "C45",
   "status": "proved",
   "theorems": [
    "C45_svd_step",
    "C45_few_joints_refuted"
   ],
   "note": "for six or more joints and every valid decomposition; refuted (RuntimeError) for every chain with fewer"
  },
  {
   "property": "C46",
   "status": "proved",
   "theorems": [
    "C46_line_search",
    "C46_untried_step_refuted"
   ],
   "note": "grid, first sufficient step, early stop; refuted that a returned step was always tried"
  },
  {
   "property": "C47",
   "status": "proved",
   "theorems": [
    "C47_swapped_refuted",
    "C47_ratio_equivalents"
   ],
   "note": "the behaviour per mode is in C41_run; refuted as documented: 'all' and 'any' are swapped; the documented ratio equivalents hold below 1000 retries"
  },
  {
   "property": "C48",
   "status": "proved",
   "theorems": [
    "C48_uniform_within_limits",
    "C48_infinite_limits_refuted",
    "C48_retry_2d",
    "C48_retry_3d",
    "C48_retry_3d_refuted",
    "C48_single_config",
    "C48_gaussian_around"
   ],
   "note": "finite limits; refuted for infinite limits (NaN) and for the three-dimensional retry shape"
  },
  {
   "property": "C49",
   "status": "proved",
   "theorems": [
    "C49_pose_error"
   ],
   "note": "exact outside the small-angle window, within a^5/960 inside it; zero exactly at the target"
  },
  {
   "property": "C50",
   "status": "proved",
   "theorems": [
    "C50_urdf_forward_kinematics",
    "C50_paths_unique",
    "C50_no_joints_refuted",
    "C50_cycle_refuted",
    "C50_forest_refuted",
    "C50_two_parents_refuted"
   ],
   "note": "Forward kinematics, frames and root for every tree-shaped URDF in any element order; refuted: no joints (UnboundLocalError), cycle below the root (RecursionError), forest (other trees dropped), link with two parents (copied)."
  },
  {
   "property": "C51",
   "status": "proved",
   "theorems": [
    "C51_urdf_origin_rpy",
    "C51_urdf_origin_missing"
   ],
   "note": "For all angles; missing origin is the identity."
  },
  {
   "property": "C52",
   "status": "proved",
   "theorems": [
    "C52_urdf_joint_attributes",
    "C52_default_axis_refuted",
    "C52_continuous_limits_refuted",
    "C52_other_types_rejected"
   ],
   "note": "Type, origin, axis and limits of every declared joint; refuted: omitted axis becomes z instead of x, a continuous joint with a limit element gets limits (0, 0); other types are a KeyError."
  },
  {
   "property": "C53",
   "status": "proved",
   "theorems": [
    "C53_sdf_zero_configuration_exact",
    "C53_sdf_forward_kinematics",
    "C53_sdf_zero_configuration_partial",
    "C53_sdf_zero_configuration_refuted",
    "C53_sdf_rejected_refuted"
   ],
   "note": "The property is false: refuted, and decided exactly. Full forward kinematics with the poses as the code reads them; at the zero configuration a link is at its declared pose iff exchanging roll and yaw does not change its rotation, with the set of such angles spelled out. Also refuted: joint to world, single link, one-sided limit."
  },
  {
   "property": "C54",
   "status": "proved",
   "theorems": [
    "C54_sdf_rpy_exact",
    "C54_sdf_pose_characterised",
    "C54_sdf_rpy_partial",
    "C54_sdf_rpy_refuted"
   ],
   "note": "Refuted: the code computes Rz(roll) Ry(pitch) Rx(yaw). Exact characterisation of the angles for which it holds."
  },
  {
   "property": "C55",
   "status": "proved",
   "theorems": [
    "C55_mjcf_exact",
    "C55_mjcf_forward_kinematics_partial",
    "C55_mujoco_poses_exist_uniquely",
    "C55_mjcf_anchor_refuted",
    "C55_mjcf_reference_refuted",
    "C55_unsupported_joints_rejected",
    "C55_unlimited_range_refuted"
   ],
   "note": "The property is false: refuted for an anchor and for a reference value, and decided exactly: all bodies are where MuJoCo puts them in all configurations iff every hinge has a zero anchor and a reference of full turns and every slide has an anchor that makes up for its reference. Sites when anchors and references are zero. Range used for unlimited joints refuted; several joints per body, free and ball joints are errors."
  },
  {
   "property": "C56",
   "status": "proved",
   "theorems": [
    "C56_maps",
    "C56_maps_distinct",
    "C56_get_root",
    "C56_get_root_error",
    "C56_get_chain",
    "C56_get_chain_not_above"
   ],
   "note": "Maps after any additions, get_root as an equivalence, get_chain along any path of a tree, KeyError otherwise."
  },
  {
   "property": "C57",
   "status": "proved",
   "theorems": [
    "C57_wrong_width_rejected",
    "C57_one_column_refuted"
   ],
   "note": "Decided: every other width is rejected, but one column is silently broadcast to all joints (refuted witness)."
  },
  {
   "property": "C58",
   "status": "proved",
   "theorems": [
    "C58_find",
    "C58_name_lists"
   ],
   "note": ""
  },
  {
   "property": "C59",
   "status": "proved",
   "theorems": [
    "C59_rot_pos",
    "C59_batch",
    "C59_overrides",
    "C59_euler_batch",
    "C59_three_euler_triples_refuted",
    "C59_no_broadcast"
   ],
   "note": "Decided: a batch of exactly three Euler triples is read as a matrix (refuted)."
  },
  {
   "property": "C60",
   "status": "proved",
   "theorems": [
    "C60_integer",
    "C60_slice",
    "C60_slice_step",
    "C60_mask",
    "C60_list",
    "C60_iteration",
    "C60_compose_rows",
    "C60_point_rows",
    "C60_split_stack"
   ],
   "note": ""
  },
  {
   "property": "C61",
   "status": "proved",
   "theorems": [
    "C61_clone",
    "C61_to_other",
    "C61_to_copy_shares",
    "C61_to_copy_refuted",
    "C61_cpu_refuted"
   ],
   "note": "Decided: clone and to another device or dtype are independent; to(copy=True) with unchanged device and dtype shares memory (refuted), and cpu() of a Scale changes its inverse (refuted)."
  },
  {
   "property": "C62",
   "status": "proved",
   "theorems": [
    "C62_white",
    "C62_words",
    "C62_text",
    "C62_object",
    "C62_geometry",
    "C62_transmission",
    "C62_irrelevant",
    "C62_required",
    "C62_messages",
    "C62_silent"
   ],
   "note": "Equivalence of reading with an independent description, for every class of both schemas."
  },
  {
   "property": "C63",
   "status": "proved",
   "theorems": [
    "C63_stable",
    "C63_false_refuted",
    "C63_untagged_refuted",
    "C63_raw_text_refuted",
    "C63_write_twice_refuted",
    "C63_constructed_refuted",
    "C63_empty_text_refuted"
   ],
   "note": "Decided: stable for descriptions without false truth values and raw text; refuted for false, text and second writing of raw elements, hand-made sdf.Visual and sdf.SDF, and empty text."
  },
  {
   "property": "C64",
   "status": "proved",
   "theorems": [
    "C64_urdf_document",
    "C64_urdf_rejected",
    "C64_urdf_accepted",
    "C64_urdf_same",
    "C64_urdf_forward_kinematics"
   ],
   "note": "Unknown and other schema parts are arbitrary in C64_urdf_document; acceptance is for documents of links and joints only."
  },
  {
   "property": "C65",
   "status": "proved",
   "theorems": [
    "C65_sdf_document",
    "C65_sdf_rejected",
    "C65_sdf_accepted",
    "C65_sdf_forward_kinematics",
    "C65_no_model",
    "C65_no_model_refuted"
   ],
   "note": "For models whose links and joints are named; a document without model is an AttributeError (refuted)."
  },
  {
   "property": "C66",
   "status": "proved",
   "theorems": [
    "C66_false_is_true_refuted",
    "C66_no_parent_refuted",
    "C66_sdf_required",
    "C66_sdf_required_refuted",
    "C66_untrimmed_refuted",
    "C66_raw_errors_refuted",
    "C66_root_tag_refuted"
   ],
   "note": "Decided: every clause is refuted by a witness."
  },
  {
   "property": "C67",
   "status": "proved",
   "theorems": [
    "C67_urdf_visuals",
    "C67_first_only_refuted",
    "C67_capsule_refuted",
    "C67_faithful",
    "C67_sdf_visuals",
    "C67_sdf_cylinder",
    "C67_sdf_scale_refuted",
    "C67_sdf_shapes_refuted",
    "C67_mjcf_visuals"
   ],
   "note": "Decided: MJCF as stated; URDF keeps one visual per link and loses capsules, SDF loses mesh scales and refuses uri meshes (refuted); the quarter turn of SDF cylinders is harmless."
  },
  {
   "property": "C68",
   "status": "proved",
   "theorems": [
    "C68_urdf_serial",
    "C68_urdf_agrees",
    "C68_sdf_serial",
    "C68_sdf_agrees_refuted",
    "C68_mjcf_serial",
    "C68_urdf_document",
    "C68_sdf_document"
   ],
   "note": "URDF, SDF and MJCF builders, from descriptions and from documents; the agreement with the whole chain holds for URDF and is refuted for SDF models whose root link has a pose"
  },
  {
   "property": "C69",
   "status": "proved",
   "theorems": [
    "C69_construct",
    "C69_constructor_device",
    "C69_constructor_device_refuted",
    "C69_mixed",
    "C69_to",
    "C69_forward",
    "C69_forward_only",
    "C69_backward_only",
    "C69_indices",
    "C69_serial",
    "C69_serial_after_to",
    "C69_serial_after_to_refuted",
    "C69_visuals_refuted"
   ],
   "note": "construction on the CPU, to(), forward kinematics, backward pass, Jacobian and serial chains proved; the device argument of the constructors, serial chains with default arguments after to() and visuals are refuted"
  },
  {
   "property": "C70",
   "status": "proved",
   "theorems": [
    "C70_product",
    "C70_motions",
    "C70_axis",
    "C70_stored",
    "C70_fk",
    "C70_fk_rounded",
    "C70_float32",
    "C70_rotation_refuted"
   ],
   "note": "bound 210 n e on rotations and 210 n e times the path length on positions, e the largest of the elementary errors; no overflow or underflow; that computed rotation parts are exactly rotations is refuted in float32"
  },
  {
   "property": "C71",
   "status": "proved",
   "theorems": [
    "C71_schema",
    "C71_apart",
    "C71_stable",
    "C71_shadow_refuted",
    "C71_errors",
    "C71_resolve",
    "C71_vector",
    "C71_dotted_refuted",
    "C71_nesting_refuted",
    "C71_failed_import_refuted"
   ],
   "note": "isolation, stability, errors and the schemas proved; for dotted names, nested namespaces, modules that raise and names added later to a namespace the natural statements are refuted"
  },
  {
   "property": "C72",
   "status": "proved",
   "theorems": [
    "C72_edits",
    "C72_classes",
    "C72_remove_absent",
    "C72_twice",
    "C72_twice_refuted",
    "C72_lump",
    "C72_lump_refuted",
    "C72_lump_forever",
    "C72_lump_swapped",
    "C72_robot",
    "C72_robot_refuted"
   ],
   "note": "lists, order and output proved for values added once; refuted: equal values added twice, lump_aggregates (always raises when there is anything to lump, and empties the output), name maps after a removal (they stay those of everything ever added)"
  },
  {
   "property": "C73",
   "status": "proved",
   "theorems": [
    "C73_exact",
    "C73_ops",
    "C73_jacobian",
    "C73_jacobian_rounded",
    "C73_tool",
    "C73_tool_rounded"
   ],
   "note": "errors of forward kinematics as in C70, then those of the world axes, levers, cross products and tool corrections; the truth is the derivative of C14 and C15; overflow and underflow are not modelled"
  },
  {
   "property": "C74",
   "status": "proved",
   "theorems": [
    "C74_descent",
    "C74_whole_step_refuted"
   ],
   "note": "the linearised objective of C44 connected with the error under forward kinematics; excluded are angles inside the small-angle window (where the rotation error is an approximation, C49) and half a turn (where the angle has no derivative); that a whole step or a fixed learning rate goes down is refuted with a witness for every learning rate"
  },
  {
   "property": "C75",
   "status": "proved",
   "theorems": [
    "C75_gantry",
    "C75_enough",
    "C75_turning_refuted"
   ],
   "note": "exact arithmetic; for robots with turning joints convergence on reachable targets is refuted with a witness that never moves"
  },
  {
   "property": "C76",
   "status": "proved",
   "theorems": [
    "C76_old",
    "C76_fields",
    "C76_new",
    "C76_robot_refuted",
    "C76_joint_refuted",
    "C76_kept",
    "C76_capsule_refuted",
    "C76_order_refuted",
    "C76_none_refuted"
   ],
   "note": "on Python 3.9 printing always succeeds and shows all fields; from Python 3.10 on it raises AttributeError for every robot, link, pose and model (refuted, exact condition proved); the output does not determine the object (refuted: cylinder and capsule, order, missing name), but objects of one class that print the same agree in their numbers, vectors, truth values and strings"
  },
  {
   "property": "C77",
   "status": "proved",
   "theorems": [
    "C77_finds",
    "C77_threshold",
    "C77_gantry",
    "C77_default_refuted",
    "C77_weights_refuted"
   ],
   "note": "with equal weights, zero required decrease and enough rounds the search finds a step that lowers distance and angle together, in every batch (C77_finds); a row whose error is at most the required decrease always gets the shortest step (C77_threshold); the solver with the search converges on gantries at the rate of the shortest step (C77_gantry). Refuted: the default search makes a problem fail that is solved without it (C77_default_refuted); with unequal weights every length can be refused (C77_weights_refuted)"
  },
  {
   "property": "C78",
   "status": "proved",
   "theorems": [
    "C78_converges",
    "C78_limits"
   ],
   "note": "C78_converges without enforcement (clamping allowed), C78_limits with limits enforced and refinement steps; the returned configuration is within any given distance of the reference one"
  },
  {
   "property": "C79",
   "status": "proved",
   "theorems": [
    "C79_recovers",
    "C79_limits",
    "C79_injective"
   ],
   "note": "C79_recovers without enforcement (clamping allowed), C79_limits with limits enforced and refinement steps, C79_injective for local uniqueness of the pose"
  },
  {
   "property": "C80",
   "status": "proved",
   "theorems": [
    "C80_turn",
    "C80_quaternion",
    "C80_errors",
    "C80_chain",
    "C80_solver",
    "C80_zero_refuted"
   ],
   "note": "C80_errors for one pair of poses, C80_chain through forward kinematics of a chain, C80_solver for what solve reports, C80_quaternion for the conversion on its own, C80_turn for the true angle; C80_zero_refuted: no positive tolerance makes the flag mean exactness"
  },
  {
   "property": "C81",
   "status": "proved",
   "theorems": [
    "C81_same",
    "C81_located",
    "C81_unique",
    "C81_unlocated",
    "C81_messages",
    "C81_alternatives",
    "C81_geometry_refuted",
    "C81_duplicate_refuted",
    "C81_root_refuted",
    "C81_mass_refuted"
   ],
   "note": "C81_same, C81_located, C81_unique, C81_unlocated, C81_messages and C81_alternatives are proved; four parts are refuted by witnesses: C81_geometry_refuted, C81_duplicate_refuted, C81_root_refuted, C81_mass_refuted"
  },
  {
   "property": "C82",
   "status": "proved",
   "theorems": [
    "C82_quaternion_to_matrix",
    "C82_axis_angle_to_quaternion",
    "C82_quaternion_to_axis_angle",
    "C82_matrix_to_quaternion",
    "C82_matrix_to_quaternion_any",
    "C82_so3_exp",
    "C82_so3_log",
    "C82_so3_log_any",
    "C82_angular_distance",
    "C82_sqrt_positive_part_refuted",
    "C82_matrix_to_quaternion_nan",
    "C82_matrix_to_quaternion_refuted",
    "C82_axis_angle_to_quaternion_refuted",
    "C82_quaternion_to_axis_angle_refuted",
    "C82_angular_distance_refuted"
   ],
   "note": "nine positive theorems (C82_quaternion_to_matrix \u2026 C82_angular_distance) and C82_matrix_to_quaternion_nan; five parts are refuted by witnesses: C82_sqrt_positive_part_refuted, C82_matrix_to_quaternion_refuted, C82_axis_angle_to_quaternion_refuted, C82_quaternion_to_axis_angle_refuted, C82_angular_distance_refuted"
  },
  {
   "property": "C83",
   "status": "proved",
   "theorems": [
    "C83_truthful",
    "C83_requested",
    "C83_to",
    "C83_compose",
    "C83_stack",
    "C83_points",
    "C83_subclass_refuted",
    "C83_subclass_refuted_translate",
    "C83_to_refuted",
    "C83_axis_angle_refuted",
    "C83_helpers",
    "C83_self_refuted",
    "C83_shape_operator_refuted"
   ],
   "note": "C83_truthful, C83_requested, C83_to, C83_compose, C83_points, C83_helpers hold; refuted parts: C83_subclass_refuted, C83_subclass_refuted_translate, C83_to_refuted, C83_axis_angle_refuted, C83_self_refuted, C83_shape_operator_refuted"
  },
  {
   "property": "C84",
   "status": "proved",
   "theorems": [
    "C84_forward",
    "C84_autograd",
    "C84_agree",
    "C84_scaled_refuted"
   ],
   "note": "C84_forward, C84_autograd, C84_agree; C84_scaled_refuted shows that rigidity of the offsets is needed"
  },
  {
   "property": "C85",
   "status": "proved",
   "theorems": [
    "C85_accepted_near",
    "C85_near_accepted",
    "C85_rotations_accepted",
    "C85_tolerance_zero_refuted",
    "C85_one_bad"
   ],
   "note": "C85_accepted_near, C85_near_accepted, C85_rotations_accepted, C85_one_bad; C85_tolerance_zero_refuted shows that orthogonal_tol is not the whole tolerance"
  },
  {
   "property": "C86",
   "status": "proved",
   "theorems": [
    "C86_quaternion_to_matrix",
    "C86_quaternion_apply",
    "C86_multiply",
    "C86_axis_angle_to_quaternion",
    "C86_axis_angle_to_matrix",
    "C86_round_trip",
    "C86_round_trip_matrix",
    "C86_transform_points"
   ],
   "note": "C86_quaternion_to_matrix, C86_quaternion_apply, C86_multiply, C86_axis_angle_to_quaternion, C86_axis_angle_to_matrix, C86_round_trip, C86_round_trip_matrix, C86_transform_points"
  },
  {
   "property": "C87",
   "status": "proved",
   "theorems": [
    "C87_part",
    "C87_part_enforced",
    "C87_iterations",
    "C87_attempt_alone",
    "C87_independent_refuted",
    "C87_line_search_refuted"
   ],
   "note": "C87_part, C87_part_enforced, C87_iterations and C87_attempt_alone hold; refuted with early stopping (C87_independent_refuted) and with a line search (C87_line_search_refuted)."
  },
  {
   "property": "C88",
   "status": "proved",
   "theorems": [
    "C88_six_right",
    "C88_six_finite",
    "C88_angles_to_matrix",
    "C88_matrix_to_angles",
    "C88_lock_refuted",
    "C88_identity_refuted"
   ],
   "note": "C88_six_right, C88_six_finite, C88_angles_to_matrix, C88_matrix_to_angles hold; gradients that are always finite are refuted for matrix_to_euler_angles (C88_lock_refuted, C88_identity_refuted)."
  },
  {
   "property": "C89",
   "status": "proved",
   "theorems": [
    "C89_quaternion_rows",
    "C89_matrix_rows",
    "C89_vector_rows",
    "C89_six_rows",
    "C89_pose_rows",
    "C89_nine_rows",
    "C89_euler_rows",
    "C89_pairs",
    "C89_reads",
    "C89_first_leads",
    "C89_one_axis_many_angles_refuted",
    "C89_wrong_sizes",
    "C89_six_of_four_refuted"
   ],
   "note": "Row-wise action and the shape errors hold for all shapes; broadcasting by the three functions that take their leading shape from the first argument (C89_one_axis_many_angles_refuted) and refusal of rows of four by the 6D conversion (C89_six_of_four_refuted) are refuted."
  },
  {
   "property": "C90",
   "status": "proved",
   "theorems": [
    "C90_forward_is_rowwise",
    "C90_forward_is_path_product",
    "C90_wrong_width",
    "C90_backward_is_rowwise",
    "C90_backward_is_derivative",
    "C90_backward_of_empty_batch_refuted",
    "C90_jacobian_is_rowwise",
    "C90_jacobian_with_tool_is_rowwise"
   ],
   "note": "Holds for every tree and batch of at least one row; the backward pass of an empty batch is refuted (C90_backward_of_empty_batch_refuted)."
  },
  {
   "property": "C91",
   "status": "proved",
   "theorems": [
    "C91_error_is_rowwise",
    "C91_error_measures_the_pose",
    "C91_wrong_sizes",
    "C91_number_of_targets_is_checked_refuted",
    "C91_step_is_rowwise",
    "C91_step_fails_with_a_row",
    "C91_step_is_damped_least_squares",
    "C91_iteration_is_rowwise"
   ],
   "note": "Holds for finite errors; that the number of targets is checked is refuted for a single problem (C91_number_of_targets_is_checked_refuted)."
  },
  {
   "property": "C92",
   "status": "proved",
   "theorems": [
    "C92_solver_is_rowwise",
    "C92_converged_means_within_tolerance",
    "C92_search_is_rowwise",
    "C92_update_cells",
    "C92_update_rejects"
   ],
   "note": "The step kernel is a parameter that acts row by row; C91 shows this of one iteration of the code's kernel over the reals."
  },
  {
   "property": "C93",
   "status": "proved",
   "theorems": [
    "C93_svd_step_is_direct_step",
    "C93_svd_step_is_damped_least_squares",
    "C93_svd_step_needs_six_joints"
   ],
   "note": "The decomposition is a parameter; that its result is a full decomposition of the weighted Jacobians is an assumption of the theorems, met in the examples. Division by zero, which needs zero regularisation, is left out."
  },
  {
   "property": "C94",
   "status": "proved",
   "theorems": [
    "C94_compose",
    "C94_compose_rejects",
    "C94_inverse",
    "C94_points",
    "C94_flat_points",
    "C94_points_width",
    "C94_normals",
    "C94_flat_normals",
    "C94_shape_operators",
    "C94_ranks"
   ],
   "note": "Division is that of the reals and only spoken of where the denominator (clamped if eps is given) is not zero; batch_to_batch=True is left out, as in C29."
  },
  {
   "property": "C95",
   "status": "proved",
   "theorems": [
    "C95_hat",
    "C95_hat_inv_rejects",
    "C95_exp",
    "C95_log",
    "C95_log_exp",
    "C95_relative_angles",
    "C95_rejects"
   ],
   "note": "Entries are reals; the angles are those with cos_angle=False, the default; accuracy of the logarithm next to the identity and to half turns is that of C34 and is not restated for tensors."
  }
 ]
}