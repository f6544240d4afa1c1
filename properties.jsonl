{"id": "C01", "title": "Forward kinematics is the ordered product along the root path", "statement": "Chain.forward_kinematics_tensor / forward_kinematics report, for every frame, the product from the root down to that frame of (link offset, joint offset, joint motion), with the identity for missing offsets and for fixed joints; every frame of the tree gets exactly one entry and no entry is left uninitialised or computed from a parent that was not computed yet.", "quantifier": "for every frame tree (any shape, depth, fan-out, number of joints), every axis, offset and joint vector, every batch", "why_tests_cant": "The level-by-level in-place algorithm over index tables must agree with the recursive definition on infinitely many tree shapes; tests fix three or four robots.", "anchors": ["src/pytorch_kinematics/chain.py: _fk_impl, Chain.__init__, Chain.forward_kinematics_tensor, Chain.forward_kinematics"]}
{"id": "C02", "title": "Batch rows of forward kinematics are independent", "statement": "Row b of the forward-kinematics output depends only on row b of the joint values: evaluating a batch equals evaluating the rows one at a time, in every batch size.", "quantifier": "for every tree, every batch of joint vectors and every row", "why_tests_cant": "Independence quantifies over all other rows in the batch; a test samples one batch.", "anchors": ["src/pytorch_kinematics/chain.py: _fk_impl"]}
{"id": "C03", "title": "Forward kinematics always yields rigid transforms", "statement": "If link and joint offsets are rigid and moving-joint axes have unit length, then each reported 4x4 matrix has an orthonormal rotation block of determinant one and last row (0,0,0,1), whatever the joint values.", "quantifier": "for every such tree, every joint vector, every frame", "why_tests_cant": "Needs an induction over tree depth and holds over a continuum of joint values.", "anchors": ["src/pytorch_kinematics/chain.py: _fk_impl", "src/pytorch_kinematics/transforms/rotation_conversions.py: axis_and_angle_to_matrix_44, axis_and_d_to_pris_matrix", "src/pytorch_kinematics/frame.py: Joint.__init__"]}
{"id": "C04", "title": "A joint moves exactly its own subtree", "statement": "Changing the value of one joint leaves the reported pose of every frame outside that joint's subtree unchanged, and moves all frames inside the subtree by one common rigid motion: relative poses between two frames that both lie in the subtree are unchanged.", "quantifier": "for every tree with distinct joint names, every pair of joint vectors differing in one joint", "why_tests_cant": "Quantifies over all pairs of configurations and all trees.", "anchors": ["src/pytorch_kinematics/chain.py: _fk_impl, Chain.__init__"]}
{"id": "C05", "title": "Joint motions have the documented geometry", "statement": "A revolute joint's motion is periodic with period 2*pi, composes additively, fixes its axis; a prismatic joint's motion is translation by q along the axis, composes additively; both are the identity at zero.", "quantifier": "for every axis and all joint values", "why_tests_cant": "Continuum of angles and axes.", "anchors": ["src/pytorch_kinematics/transforms/rotation_conversions.py: axis_and_angle_to_matrix_44, axis_and_angle_to_matrix_33, axis_and_d_to_pris_matrix", "src/pytorch_kinematics/frame.py: Frame.get_transform"]}
{"id": "C06", "title": "Frame indexing is a bijection and ancestor tables are right", "statement": "After building a Chain with distinct frame names, each frame name has one index in 0..n-1 and the inverse table maps back; the stored ancestor list of a frame is precisely the path of frames from the root to it (inclusive); indices of parents are smaller than those of children.", "quantifier": "for every tree with distinct frame names", "why_tests_cant": "Arbitrary tree shapes.", "anchors": ["src/pytorch_kinematics/chain.py: Chain.__init__, Chain.get_frame_indices, Chain.get_frame_names, Chain.get_joint_parent_frame_names"]}
{"id": "C07", "title": "Column j of a joint tensor drives the j-th named joint", "statement": "get_joint_parameter_names lists the moving joints without repetition, and column j of a joint tensor, column j of the limits and entry j of the axis table all belong to the joint named at position j.", "quantifier": "for every tree with distinct moving-joint names; with repeated names (for example unnamed MJCF joints) the guarantee is false", "why_tests_cant": "Frame order is breadth-first, joint order depth-first; agreement must hold for each tree shape.", "anchors": ["src/pytorch_kinematics/chain.py: Chain.__init__, Chain.get_joint_parameter_names, Chain.get_joint_limits, Chain._get_joints"]}
{"id": "C08", "title": "get_joints(exclude_fixed=False) lists every joint", "statement": "Asking for joints (or joint parameter names) with exclude_fixed=False returns the joints of all frames including fixed ones, and with exclude_fixed=True exactly the non-fixed ones.", "quantifier": "for every tree", "why_tests_cant": "Recursion must honour the flag at every depth.", "anchors": ["src/pytorch_kinematics/chain.py: Chain._get_joints, Chain.get_joints, Chain.get_joint_parameter_names"]}
{"id": "C09", "title": "Dictionary, list and tensor joint inputs are interchangeable", "statement": "Passing joint values as a dictionary keyed by joint name gives the same configuration as passing the vector in parameter order, whatever the key order; an unknown joint name is rejected; a missing joint is either rejected or (README) filled with zero.", "quantifier": "for every chain and every dictionary", "why_tests_cant": "All key orders, all subsets of joints.", "anchors": ["src/pytorch_kinematics/chain.py: Chain.ensure_tensor, get_dict_elem_shape, ensure_2d_tensor", "README.md: Forward Kinematics"]}
{"id": "C10", "title": "clamp returns an in-limits configuration and changes nothing already inside", "statement": "Chain.clamp returns values within [low, high] for each joint, leaves in-limit values unchanged, and is idempotent; joints without limits are never changed.", "quantifier": "for every chain whose limits satisfy low<=high and every configuration", "why_tests_cant": "Continuum of values including infinities and NaN.", "anchors": ["src/pytorch_kinematics/chain.py: Chain.clamp, Chain.get_joint_limits, Chain._get_joint_limits"]}
{"id": "C11", "title": "A serial chain's pose is the relative pose in the full chain", "statement": "For SerialChain(chain, end, root): forward kinematics of the serial chain equals inverse(pose of root in the full chain) times pose of end in the full chain, when the joints on the path get the same values; the full chain is not modified.", "quantifier": "for every tree with distinct names, every root/end pair on one branch, every joint vector", "why_tests_cant": "All trees, all root/end pairs, all values of off-path joints.", "anchors": ["src/pytorch_kinematics/chain.py: SerialChain.__init__, SerialChain.forward_kinematics"]}
{"id": "C12", "title": "A serial chain has exactly the path's joints in path order", "statement": "SerialChain's joint parameter names are the moving joints strictly below the chosen root along the path to the end frame, in that order; an end frame that is not a descendant of the root (or an unknown name) is rejected with an error.", "quantifier": "for every tree with distinct names and every requested root/end pair", "why_tests_cant": "All trees and pairs.", "anchors": ["src/pytorch_kinematics/chain.py: SerialChain.__init__"]}
{"id": "C13", "title": "Serial forward kinematics accepts the inputs it documents", "statement": "SerialChain.forward_kinematics accepts a full joint vector, a batch, a dictionary of batched values or of scalars, and a shorter vector holding only the non-fixed joints of the serial frames.", "quantifier": "for every serial chain and every input of these forms", "why_tests_cant": "Shape arithmetic over all chain sizes.", "anchors": ["src/pytorch_kinematics/chain.py: SerialChain.forward_kinematics, SerialChain.convert_serial_inputs_to_chain_inputs, get_batch_size, get_dict_elem_shape, get_n_joints"]}
{"id": "C14", "title": "The Jacobian is the derivative of the end-effector pose", "statement": "Column j of SerialChain.jacobian(q) holds the partial derivative of the end-effector position with respect to joint j (rows 0-2) and the angular velocity w with dR/dq_j = [w]x R (rows 3-5).", "quantifier": "for every serial chain with unit axes and rigid offsets, every q, every j", "why_tests_cant": "A limit statement over a continuum; finite differences only sample it.", "anchors": ["src/pytorch_kinematics/chain.py: SerialChain.jacobian_tensor, SerialChain.jacobian", "src/pytorch_kinematics/jacobian.py: calc_jacobian"]}
{"id": "C15", "title": "The Jacobian with tool locations is the derivative of the tool pose", "statement": "jacobian(q, locations=tool) returns the derivative of the pose of the tool frame attached to the end effector, and the returned pose is end-effector pose composed with the tool.", "quantifier": "for every serial chain, q, tool transform and column", "why_tests_cant": "Continuum of tools and configurations.", "anchors": ["src/pytorch_kinematics/chain.py: SerialChain.jacobian"]}
{"id": "C16", "title": "The analytical backward pass is the true vector-Jacobian product", "statement": "The gradient returned by the custom autograd function for joint j equals the sum over all frames and matrix entries of upstream gradient times the partial derivative of that entry with respect to joint j.", "quantifier": "for every tree with distinct moving-joint names, unit axes and rigid offsets, every q and every upstream gradient", "why_tests_cant": "gradcheck samples a few points on a few robots; the identity is over all trees and reals.", "anchors": ["src/pytorch_kinematics/chain.py: _FKAnalyticalBackward.forward, _FKAnalyticalBackward.backward"]}
{"id": "C17", "title": "The printed tree shows each frame once at its depth", "statement": "str(frame)/print_tree has one line per frame, in depth-first order, and the number of prefix characters on a line is four times the depth of the frame.", "quantifier": "for every tree", "why_tests_cant": "All shapes; the prefix recursion differs for last and non-last children.", "anchors": ["src/pytorch_kinematics/frame.py: Frame.__str__", "src/pytorch_kinematics/chain.py: Chain.print_tree"]}
{"id": "C18", "title": "get_joints_and_child_links pairs every moving joint with all links below it", "statement": "The generator yields each non-fixed joint once together with exactly the links of the frames in its subtree.", "quantifier": "for every tree", "why_tests_cant": "All shapes.", "anchors": ["src/pytorch_kinematics/chain.py: Chain._get_joints_and_child_links, Chain.get_joints_and_child_links"]}
{"id": "C19", "title": "quaternion_to_matrix lands in SO(3) and ignores scale", "statement": "For any non-zero quaternion the result is orthonormal with determinant one, and multiplying the quaternion by a non-zero scalar (in particular negating it) does not change the result.", "quantifier": "for every non-zero quaternion and non-zero scale", "why_tests_cant": "Continuum.", "anchors": ["src/pytorch_kinematics/transforms/rotation_conversions.py: quaternion_to_matrix"]}
{"id": "C20", "title": "matrix_to_quaternion inverts quaternion_to_matrix", "statement": "For each rotation matrix, matrix_to_quaternion returns a unit quaternion whose matrix is the input, whichever of the four candidate branches is selected; for each unit quaternion the reverse round trip returns it up to sign.", "quantifier": "for every rotation matrix / unit quaternion", "why_tests_cant": "Branch selection by argmax splits SO(3) into regions, including ties and 180-degree turns.", "anchors": ["src/pytorch_kinematics/transforms/rotation_conversions.py: matrix_to_quaternion, _sqrt_positive_part, quaternion_to_matrix"]}
{"id": "C21", "title": "Quaternion algebra mirrors matrix algebra", "statement": "quaternion_multiply corresponds to the matrix product, quaternion_invert to the matrix inverse for unit quaternions, quaternion_apply to the matrix-vector product; multiplication is associative with unit (1,0,0,0) up to the sign standardisation.", "quantifier": "for all unit quaternions and points", "why_tests_cant": "Continuum.", "anchors": ["src/pytorch_kinematics/transforms/rotation_conversions.py: quaternion_raw_multiply, quaternion_multiply, quaternion_invert, quaternion_apply, standardize_quaternion"]}
{"id": "C22", "title": "Axis-angle rotation routes agree", "statement": "axis_and_angle_to_matrix_33(axis, theta) is a rotation fixing a unit axis, and equals the matrix obtained through axis_angle_to_quaternion and quaternion_to_matrix.", "quantifier": "for every unit axis and every angle", "why_tests_cant": "Continuum; small-angle branch.", "anchors": ["src/pytorch_kinematics/transforms/rotation_conversions.py: axis_and_angle_to_matrix_33, axis_and_angle_to_matrix_44, axis_angle_to_quaternion, axis_angle_to_matrix"]}
{"id": "C23", "title": "Axis-angle / quaternion round trips", "statement": "quaternion_to_axis_angle(axis_angle_to_quaternion(v)) = v for |v| < 2 pi outside the small-angle window, axis_angle_to_quaternion(quaternion_to_axis_angle(q)) = q for unit q with a rotation angle outside the window, and inside the window the deviation is bounded.", "quantifier": "for all such v and q", "why_tests_cant": "Continuum; the branch thresholds are inequalities on reals.", "anchors": ["src/pytorch_kinematics/transforms/rotation_conversions.py: axis_angle_to_quaternion, quaternion_to_axis_angle, matrix_to_axis_angle"]}
{"id": "C24", "title": "Euler-angle round trips hold for all twelve conventions", "statement": "euler_angles_to_matrix(matrix_to_euler_angles(R, c), c) = R for every rotation matrix away from gimbal lock, and matrix_to_euler_angles(euler_angles_to_matrix(a, c), c) = a for angles in the principal range; every invalid convention string is rejected.", "quantifier": "for every rotation, every angle triple, every convention; at gimbal lock the guarantee is false", "why_tests_cant": "Continuum times twelve conventions; gimbal lock is a measure-zero set random tests never hit.", "anchors": ["src/pytorch_kinematics/transforms/rotation_conversions.py: euler_angles_to_matrix, matrix_to_euler_angles, _angle_from_tan, _index_from_letter, _axis_angle_rotation"]}
{"id": "C25", "title": "quaternion_from_euler composes the three axis rotations in the documented order", "statement": "For each of the 24 axis codes the quaternion equals the product of the three single-axis rotations in static or rotating order; the default 'sxyz' equals Rz(yaw) Ry(pitch) Rx(roll); the call leaves its argument unchanged so repeated calls agree.", "quantifier": "for every angle triple and axis code", "why_tests_cant": "Continuum times 24 codes; aliasing of the argument is a history property.", "anchors": ["src/pytorch_kinematics/transforms/rotation_conversions.py: quaternion_from_euler, _AXES2TUPLE"]}
{"id": "C26", "title": "The 6D rotation representation is a left-inverse pair", "statement": "rotation_6d_to_matrix returns a rotation matrix for any two linearly independent vectors, and maps matrix_to_rotation_6d(R) back to R for every rotation.", "quantifier": "for every linearly independent pair / rotation", "why_tests_cant": "Continuum.", "anchors": ["src/pytorch_kinematics/transforms/rotation_conversions.py: rotation_6d_to_matrix, matrix_to_rotation_6d, matrix44_to_se3_9d, se3_9d_to_matrix44"]}
{"id": "C27", "title": "Position/quaternion packing round-trips", "statement": "pos_rot_to_matrix(matrix_to_pos_rot(T)) = T for each rigid T and matrix_to_pos_rot(pos_rot_to_matrix(p,q)) = (p, q with argument order xyzw handled) up to quaternion sign; wxyz_to_xyzw and xyzw_to_wxyz are mutually inverse.", "quantifier": "for every rigid T, unit quaternion, position", "why_tests_cant": "Continuum.", "anchors": ["src/pytorch_kinematics/transforms/rotation_conversions.py: matrix_to_pos_rot, pos_rot_to_matrix, wxyz_to_xyzw, xyzw_to_wxyz"]}
{"id": "C28", "title": "Random and standardised quaternions are unit with non-negative real part", "statement": "random_quaternions returns unit quaternions with non-negative real part for every non-zero draw; standardize_quaternion is idempotent, keeps the rotation, and returns a non-negative real part.", "quantifier": "for every random draw and quaternion", "why_tests_cant": "All random draws.", "anchors": ["src/pytorch_kinematics/transforms/rotation_conversions.py: random_quaternions, standardize_quaternion, _copysign"]}
{"id": "C29", "title": "Composing transforms composes their action on points", "statement": "t1.compose(t2).transform_points(x) = t1.transform_points(t2.transform_points(x)); compose is associative with the identity transform as unit; batches of size 1 broadcast and mismatched batch sizes are rejected.", "quantifier": "for all affine transforms, points, batch sizes", "why_tests_cant": "Continuum and all batch-size combinations.", "anchors": ["src/pytorch_kinematics/transforms/transform3d.py: Transform3d.compose, Transform3d.transform_points, _broadcast_bmm"]}
{"id": "C30", "title": "inverse() undoes a transform", "statement": "t.inverse() composed with t is the identity for each transform the API can build (rotations, translations, scalings, and their compositions, clones and slices).", "quantifier": "for every transform reachable through the public constructors and methods; false as soon as a scale has been composed, cloned or sliced", "why_tests_cant": "Any history of constructor calls.", "anchors": ["src/pytorch_kinematics/transforms/transform3d.py: Transform3d.inverse, _invert_transformation_matrix, Translate._get_matrix_inverse, Scale._get_matrix_inverse, Rotate._get_matrix_inverse, Transform3d.clone, Transform3d.__getitem__"]}
{"id": "C31", "title": "Normals and shape operators transform consistently", "statement": "For rigid transforms transform_normals rotates the normal, preserving tangency (n.v = 0 iff n'.v' = 0) and length; transform_shape_operator gives R S R^T, so principal curvatures are preserved.", "quantifier": "for every rigid transform, normal, tangent vector and shape operator", "why_tests_cant": "Continuum.", "anchors": ["src/pytorch_kinematics/transforms/transform3d.py: Transform3d.transform_normals, Transform3d.transform_shape_operator"]}
{"id": "C32", "title": "Elementary transform constructors act as documented", "statement": "translate adds its vector, scale multiplies coordinates, rotate applies its matrix, rotate_axis_angle rotates about the named axis by the angle (degrees or radians), each as a left factor in the order documented, and their overridden inverses invert them.", "quantifier": "for all arguments and points", "why_tests_cant": "Continuum.", "anchors": ["src/pytorch_kinematics/transforms/transform3d.py: Translate, Scale, Rotate, RotateAxisAngle, Transform3d.translate, Transform3d.scale, Transform3d.rotate"]}
{"id": "C33", "title": "hat and hat_inv are mutually inverse and encode the cross product", "statement": "hat(v) is skew and hat(v) u = v x u; hat_inv(hat(v)) = v; hat(hat_inv(S)) = S for every skew S; non-skew input is rejected.", "quantifier": "for all vectors and matrices", "why_tests_cant": "Continuum.", "anchors": ["src/pytorch_kinematics/transforms/so3.py: hat, hat_inv"]}
{"id": "C34", "title": "so3 exponential and logarithm are inverse outside their numerical windows", "statement": "so3_exp_map(v) is the rotation about v by |v| whenever |v|^2 >= eps, and so3_log_map(so3_exp_map(v)) = v for rotation angles whose cosine is within the bound; so3_relative_angle is symmetric and vanishes on equal arguments up to the documented tolerance.", "quantifier": "for every such v", "why_tests_cant": "Continuum with thresholds.", "anchors": ["src/pytorch_kinematics/transforms/so3.py: so3_exp_map, so3_log_map, so3_rotation_angle, so3_relative_angle"]}
{"id": "C35", "title": "acos_linear_extrapolation is total, continuous and continuously differentiable", "statement": "It agrees with arccos between the bounds, is defined for every real input, has the same value and slope on both sides of each bound, is strictly decreasing, and rejects out-of-range bounds.", "quantifier": "for every real x and every admissible bound pair", "why_tests_cant": "Continuity and differentiability are limit statements.", "anchors": ["src/pytorch_kinematics/transforms/math.py: acos_linear_extrapolation, _acos_linear_approximation, _dacos_dx"]}
{"id": "C36", "title": "quaternion_angular_distance is the rotation angle between two orientations", "statement": "For unit quaternions it is symmetric, in [0, pi], unchanged when either argument is negated, zero on equal orientations, and equal to the angle of the relative rotation unless the whole batch is within the closeness tolerance.", "quantifier": "for every batch of unit quaternion pairs", "why_tests_cant": "Continuum; batch-global closeness test.", "anchors": ["src/pytorch_kinematics/transforms/math.py: quaternion_angular_distance, quaternion_close"]}
{"id": "C37", "title": "quaternion_slerp interpolates each pair independently along the short arc", "statement": "For unit quaternions the result has unit length, starts at q1, ends at +/-q2, moves at constant angular speed, does not depend on the other pairs of the batch, and leaves its arguments unchanged.", "quantifier": "for every batch of unit pairs and every t; false for a batch mixing identical and distinct pairs, and the second argument is overwritten", "why_tests_cant": "Needs all batches and all t.", "anchors": ["src/pytorch_kinematics/transforms/math.py: quaternion_slerp"]}
{"id": "C38", "title": "sample_perturbations produces rigid transforms near the input as requested", "statement": "For every random draw the results are rigid, the rotation part is the input rotation pre-multiplied by a rotation about the drawn or given axis, and the translational perturbation is orthogonal to a given unit axis.", "quantifier": "for all draws, inputs and standard deviations", "why_tests_cant": "All random draws.", "anchors": ["src/pytorch_kinematics/transforms/perturbation.py: sample_perturbations"]}
{"id": "C39", "title": "An IK solution reported converged really met both tolerances", "statement": "In every history of updates, an entry marked converged has stored position and rotation errors below the tolerances and a stored configuration that is the one those errors were measured at; once converged, an entry is frozen until joint-limit enforcement; converged_any is the disjunction over retries.", "quantifier": "for every sequence of candidate configurations and errors, every number of problems and retries", "why_tests_cant": "Histories of arbitrary length with interleaved convergence of different entries.", "anchors": ["src/pytorch_kinematics/ik.py: IKSolution.update, IKSolution.update_remaining_with_keep_mask, PseudoInverseIK.solve"]}
{"id": "C40", "title": "Per-component convergence flags are consistent with the stored errors", "statement": "converged_pos[i,j] (converged_rot[i,j]) is true exactly when the stored position (rotation) error is below tolerance, and converged_pos_any / converged_rot_any are their disjunctions.", "quantifier": "for every history; false of the code", "why_tests_cant": "Needs a history where an entry passes a tolerance and later leaves it.", "anchors": ["src/pytorch_kinematics/ik.py: IKSolution.update"]}
{"id": "C41", "title": "The IK loop stops within its iteration budget and only drops problems for a stated reason", "statement": "solve runs at most max_iterations iterations; the set of remaining problems only shrinks; a problem is dropped only because a retry converged (when early stopping on any convergence) or because improvement stalled for the configured patience.", "quantifier": "for every oracle of step directions, every configuration", "why_tests_cant": "All executions.", "anchors": ["src/pytorch_kinematics/ik.py: PseudoInverseIK.solve, IKSolution.update_remaining_with_keep_mask"]}
{"id": "C42", "title": "IK solutions respect joint limits when enforcement is on", "statement": "With enforce_joint_limits and at least one finite limit, each returned configuration lies within [low, high] in all joints, and an entry is marked converged exactly when the pose error at the returned configuration is within tolerance.", "quantifier": "for every candidate history and limit vector; false (NaN) for a revolute joint without limits next to a limited joint", "why_tests_cant": "All limit vectors including infinite ones.", "anchors": ["src/pytorch_kinematics/ik.py: PseudoInverseIK._enforce_limits, _has_finite_limits, _wrap_revolute_joints"]}
{"id": "C43", "title": "Wrapping revolute joints preserves the pose and finds an in-limit representative whenever one exists", "statement": "_wrap shifts each revolute joint by a multiple of 2 pi, hence leaves forward kinematics unchanged; the result is within pi of the centre of the limits; if any 2 pi shift of the angle is within the limits then the chosen one is.", "quantifier": "for every angle and finite limits", "why_tests_cant": "Continuum of angles; rounding to the nearest turn.", "anchors": ["src/pytorch_kinematics/ik.py: PseudoInverseIK._wrap_revolute_joints", "src/pytorch_kinematics/chain.py: _fk_impl"]}
{"id": "C44", "title": "The damped least-squares step minimises its objective", "statement": "dq = J^T (J J^T + lambda I)^-1 dx is the unique minimiser of |J dq - dx|^2 + lambda |dq|^2 for lambda > 0, is zero iff J^T dx = 0, and is a descent direction; the system solved is non-singular for each J.", "quantifier": "for every Jacobian of any width, every residual, every lambda > 0", "why_tests_cant": "Continuum and all numbers of joints.", "anchors": ["src/pytorch_kinematics/ik.py: _ik_step_kernel, PseudoInverseIK.solve"]}
{"id": "C45", "title": "The SVD step equals the direct step", "statement": "PseudoInverseIKWithSVD computes the same step as PseudoInverseIK for the same regularisation, for every chain.", "quantifier": "for every Jacobian and decomposition; false (shape error) for chains with fewer than six joints", "why_tests_cant": "All Jacobian shapes and all valid SVDs (which are not unique).", "anchors": ["src/pytorch_kinematics/ik.py: _ik_step_kernel_svd, PseudoInverseIKWithSVD"]}
{"id": "C46", "title": "Backtracking line search returns a step from its grid and accepts only sufficient decrease", "statement": "Each returned step size is max_lr * factor^k with 0 <= k <= max_iterations; if the search stopped early all remaining entries achieved more than the sufficient decrease at their returned step; an entry that achieved it keeps that step.", "quantifier": "for every error function and every batch", "why_tests_cant": "Arbitrary error landscapes.", "anchors": ["src/pytorch_kinematics/ik.py: BacktrackingLineSearch.do_line_search"]}
{"id": "C47", "title": "Early stopping on no improvement follows its documentation", "statement": "'all' stops a problem when all of its retries stopped improving, 'any' when any did, and a ratio r when the fraction still improving falls to r or below.", "quantifier": "for every pattern of improvement; the documented meaning of 'all' and 'any' is swapped in the code", "why_tests_cant": "All improvement histories and retry counts.", "anchors": ["src/pytorch_kinematics/ik.py: PseudoInverseIK.solve, InverseKinematics.__init__"]}
{"id": "C48", "title": "Sampled initial configurations lie within the given joint limits", "statement": "InverseKinematics.sample_configs with uniform sampling returns configurations within joint_limits for every draw, and retry configurations supplied by the user are used as given in each documented shape.", "quantifier": "for every draw in [0,1) and limits with low<=high", "why_tests_cant": "All draws; documented 3-D retry configurations.", "anchors": ["src/pytorch_kinematics/ik.py: InverseKinematics.__init__, InverseKinematics.sample_configs, PseudoInverseIK.solve"]}
{"id": "C49", "title": "delta_pose is the pose error", "statement": "delta_pose(T, target_pos, target_wxyz) is zero iff T equals the target pose (rotations compared outside the small-angle window), its upper half is the position difference and its lower half the axis-angle vector of R_target R^T.", "quantifier": "for every rigid T and target", "why_tests_cant": "Continuum.", "anchors": ["src/pytorch_kinematics/ik.py: delta_pose"]}
{"id": "C50", "title": "URDF loading yields the pose tree the URDF describes", "statement": "For a URDF whose joints form a tree, build_chain_from_urdf returns a chain with one frame per link whose forward kinematics at q is the product of joint origins and motions along the unique path; the root is the only link that is not a child.", "quantifier": "for every tree-shaped URDF in any joint order; false for a URDF with no joints", "why_tests_cant": "All joint orderings and tree shapes.", "anchors": ["src/pytorch_kinematics/urdf.py: build_chain_from_urdf, _build_chain_recurse"]}
{"id": "C51", "title": "URDF origin follows the fixed-axis roll-pitch-yaw convention", "statement": "The rotation of an origin with rpy=(r,p,y) is Rz(y) Ry(p) Rx(r); missing origins are the identity.", "quantifier": "for all r, p, y", "why_tests_cant": "Continuum.", "anchors": ["src/pytorch_kinematics/urdf.py: _convert_transform", "src/pytorch_kinematics/transforms/rotation_conversions.py: quaternion_from_euler, quaternion_to_matrix"]}
{"id": "C52", "title": "URDF joint attributes are honoured", "statement": "revolute/continuous become revolute, prismatic stays prismatic, fixed stays fixed; limits are (lower, upper) for limited joints and absent for continuous joints; the axis is the given one, defaulting to the URDF default x.", "quantifier": "for every joint declaration; false for omitted axes and for continuous joints with a limit tag", "why_tests_cant": "Combination of optional attributes.", "anchors": ["src/pytorch_kinematics/urdf.py: _build_chain_recurse, _convert_joint, JOINT_TYPE_MAP", "src/pytorch_kinematics/urdf_parser_py/urdf.py: JointLimit, Joint"]}
{"id": "C53", "title": "SDF loading places links at their declared poses", "statement": "At the zero configuration, forward kinematics of each link of an SDF model equals the pose declared for the link.", "quantifier": "for every tree of SDF joints and link poses", "why_tests_cant": "All trees; a telescoping product of inverses.", "anchors": ["src/pytorch_kinematics/sdf.py: build_chain_from_sdf, _build_chain_recurse"]}
{"id": "C54", "title": "SDF poses follow the SDF roll-pitch-yaw convention", "statement": "A pose 'x y z roll pitch yaw' is the translation with rotation Rz(yaw) Ry(pitch) Rx(roll).", "quantifier": "for all poses; false of the code for non-zero roll or yaw", "why_tests_cant": "Tests only use poses without rotation.", "anchors": ["src/pytorch_kinematics/sdf.py: _convert_transform"]}
{"id": "C55", "title": "MJCF loading places bodies where MuJoCo does", "statement": "Body poses computed by the chain built from an MJCF model equal MuJoCo's: parent pose, body pos/quat, rotation about the joint axis through the joint anchor.", "quantifier": "for every body tree; false when a joint has a non-zero pos", "why_tests_cant": "All trees, anchors and joint values.", "anchors": ["src/pytorch_kinematics/mjcf.py: _build_chain_recurse, build_chain_from_mjcf"]}
{"id": "C56", "title": "Robot bookkeeping in the URDF parser is consistent", "statement": "After adding links and joints in any order, joint_map, link_map, parent_map and child_map describe exactly the added elements; get_root returns the unique link without a parent and get_chain(root, tip) lists the alternating joints and links on the path.", "quantifier": "for every sequence of additions forming a tree", "why_tests_cant": "All histories.", "anchors": ["src/pytorch_kinematics/urdf_parser_py/urdf.py: Robot.add_aggregate, Robot.get_root, Robot.get_chain"]}
{"id": "C57", "title": "Joint tensors of the wrong width are rejected", "statement": "forward_kinematics on a tensor whose number of columns differs from the number of moving joints raises an error instead of returning poses.", "quantifier": "for every tree with a moving joint, every width and every non-empty batch", "why_tests_cant": "All widths and tree shapes; broadcasting rules decide which widths slip through.", "anchors": ["src/pytorch_kinematics/chain.py: Chain.forward_kinematics_tensor, _fk_impl"]}
{"id": "C58", "title": "Name searches return the first match depth-first and name lists have no repetition", "statement": "find_frame, find_joint and find_link return the first frame, joint or link of that name in depth-first order and None when there is none; get_links, get_joint_limits follow depth-first order; get_frame_names and get_link_names list each name once.", "quantifier": "for every tree and every name", "why_tests_cant": "All shapes and all positions of the match; recursion must stop at the first hit.", "anchors": ["src/pytorch_kinematics/chain.py: Chain.find_frame, Chain.find_joint, Chain.find_link, Chain.get_links, Chain.get_frame_names, Chain.get_link_names, Chain.get_joint_limits"]}
{"id": "C59", "title": "Transform3d built from rot, pos and matrix", "statement": "Transform3d(rot=..., pos=...) is the affine map x -> R x + p with R the rotation of the given quaternion, Euler angles or matrix; pos and rot given together with a matrix replace exactly its translation and rotation block; batches are matched entry by entry.", "quantifier": "for every rotation representation, position, matrix and batch size", "why_tests_cant": "The constructor decides between representations by shape, so the ambiguous shapes only show up when all sizes are considered.", "anchors": ["src/pytorch_kinematics/transforms/transform3d.py: Transform3d.__init__"]}
{"id": "C60", "title": "Indexing a batch of transforms selects the named matrices", "statement": "For every transform t of batch size N: t[i] holds matrix i for 0 <= i < N and matrix N + i for -N <= i < 0, and raises IndexError otherwise; t[a:b:s] holds the matrices at a, a+s, ... below b in order (bounds read as Python does), and raises ValueError for s <= 0; a boolean mask or an index list selects accordingly; iterating visits each matrix once and ends; indexing commutes with composition and with transforming points; cutting a batch anywhere and stacking the parts restores it.", "quantifier": "all batch sizes, all integers, slices, masks and index lists", "why_tests_cant": "The project's tests index with one or two constants; negative, stepped and out-of-range indices over all batch sizes form an infinite set.", "anchors": ["src/pytorch_kinematics/transforms/transform3d.py:220-224", "src/pytorch_kinematics/transforms/transform3d.py:295-299"]}
{"id": "C61", "title": "Copies of a transform are independent and represent the same transform", "statement": "clone() and to(copy=True) return a transform with the same matrices whose memory is its own: an in-place write to either leaves the other unchanged; to() another device or dtype does the same. Copies behave like the original, in particular under inverse().", "quantifier": "all transforms, devices, dtypes and in-place writes", "why_tests_cant": "Sharing shows only when a particular entry is written after the copy; a test must guess the write, and the tests only compare values right after copying.", "anchors": ["src/pytorch_kinematics/transforms/transform3d.py:431-475"]}
{"id": "C62", "title": "A parsed element holds exactly what the XML says", "statement": "Reading an element as an object of any URDF or SDF class succeeds exactly if every attribute and child known to the class can be read, nothing required is missing and the class's check passes, and the object then holds the values given, the defaults of what is missing, and all repeated children in document order. Attribute order, comments, unknown attributes and children and later repetitions of a single child do not change it; unknown attributes and children are reported, a missing required one is a ParseError.", "quantifier": "all 43 classes of urdf.py and sdf.py, all element trees without repeated attributes, all number formats", "why_tests_cant": "Each class has its own attributes, defaults and required children; tests load a few complete robot files and never compare all fields, orders, omissions and unknown parts.", "anchors": ["src/pytorch_kinematics/urdf_parser_py/xml_reflection/core.py:129-286", "src/pytorch_kinematics/urdf_parser_py/xml_reflection/core.py:289-395", "src/pytorch_kinematics/urdf_parser_py/xml_reflection/core.py:406-549", "src/pytorch_kinematics/urdf_parser_py/urdf.py:16-567", "src/pytorch_kinematics/urdf_parser_py/sdf.py:8-317"]}
{"id": "C63", "title": "Writing a parsed description and reading it again gives the same description", "statement": "For every description read from a document, to_xml succeeds and reading the result gives an equal description, if numbers are printed exactly; also for truth values, raw elements, repeated writing, empty strings and objects made by constructors.", "quantifier": "all classes with a tag, all documents, all number formats that print exactly", "why_tests_cant": "Loss on the way out shows only for particular contents (a false flag, text in a raw element, a second write) that no test file contains.", "anchors": ["src/pytorch_kinematics/urdf_parser_py/xml_reflection/core.py:335-345", "src/pytorch_kinematics/urdf_parser_py/xml_reflection/core.py:364-379", "src/pytorch_kinematics/urdf_parser_py/xml_reflection/core.py:551-590", "src/pytorch_kinematics/urdf_parser_py/xml_reflection/core.py:194-204"]}
{"id": "C64", "title": "The chain of a URDF document is the one its links and joints describe", "statement": "build_chain_from_urdf on an accepted document gives the chain of exactly the links and joints that the document describes (names, types, parents, children, origins, axes, limits, with the defaults of the format), whatever else it contains; documents made of well-formed links and joints are accepted; the forward kinematics is then the product of origins and joint motions along each path.", "quantifier": "all element trees without repeated attributes, all number formats, all configurations", "why_tests_cant": "The whole way from text to pose depends on many optional parts; tests use a handful of files and compare few poses.", "anchors": ["src/pytorch_kinematics/urdf.py:104-124", "src/pytorch_kinematics/urdf_parser_py/urdf.py:317-408", "src/pytorch_kinematics/urdf_parser_py/urdf.py:484-567"]}
{"id": "C65", "title": "The chain of an SDF document is the one its model describes", "statement": "build_chain_from_sdf on an accepted document whose links and joints have names gives the chain of exactly the links and joints of its model; documents made of well-formed links and joints are accepted; a document without a model is reported as an error of the description.", "quantifier": "all element trees without repeated attributes, all number formats, all configurations", "why_tests_cant": "As for URDF; the tests load one SDF file.", "anchors": ["src/pytorch_kinematics/sdf.py:81-102", "src/pytorch_kinematics/urdf_parser_py/sdf.py:184-317"]}
{"id": "C66", "title": "Descriptions are accepted and read as the URDF and SDF formats say", "statement": "Truth values are read as the formats define, missing required references are errors, optional parts may be missing, names are trimmed, problems of a document are ParseErrors, and a document of the wrong format is refused.", "quantifier": "all documents", "why_tests_cant": "Test files are valid documents with all parts present, so neither wrong rejections nor wrong acceptances appear.", "anchors": ["src/pytorch_kinematics/urdf_parser_py/xml_reflection/core.py:147-190", "src/pytorch_kinematics/urdf_parser_py/xml_reflection/core.py:608-618", "src/pytorch_kinematics/urdf_parser_py/sdf.py:196-263", "src/pytorch_kinematics/urdf_parser_py/urdf.py:317-345"]}
{"id": "C67", "title": "Every link of a chain carries the visuals its description declares", "statement": "After loading a URDF or SDF document or a MuJoCo model, each frame holds exactly the visuals of its link or body, in order, each at its described pose with the type and parameters that determine its shape.", "quantifier": "all documents and models the loaders accept, all number formats", "why_tests_cant": "The tests never look at visuals; lost or merged visuals do not change kinematics.", "anchors": ["src/pytorch_kinematics/urdf.py:21-41", "src/pytorch_kinematics/urdf.py:64-66", "src/pytorch_kinematics/sdf.py:20-42", "src/pytorch_kinematics/mjcf.py:17-25", "src/pytorch_kinematics/frame.py:7-21"]}
{"id": "C68", "title": "A serial chain built from a description is the path from the root to the end", "statement": "build_serial_chain_from_urdf, _sdf and _mjcf give, for a root at or above the end, a chain whose joints are the moving joints on the path and whose end pose in the root frame is the product of the joints on the path; an end not below the root is a KeyError and an unknown root a ValueError.  Without a root name the pose is that of the whole chain.", "quantifier": "all trees of links, all pairs of links, all configurations in every accepted input form", "why_tests_cant": "The tests build serial chains for a handful of robots, mostly from the root to one end.", "anchors": ["src/pytorch_kinematics/urdf.py:127-146", "src/pytorch_kinematics/sdf.py:105-108", "src/pytorch_kinematics/mjcf.py:90-110", "src/pytorch_kinematics/chain.py:656-685"]}
{"id": "C69", "title": "A chain keeps its tensors on one dtype and device, and moving it moves everything", "statement": "A chain can be built with a requested dtype and device; to() brings every tensor of the chain and of its frames to the given dtype and device; on such a chain forward kinematics, its backward pass and the Jacobian work for joint values of that dtype and device and return them, and other joint values are refused instead of being converted silently; serial chains can be cut out of a moved chain.", "quantifier": "all trees, all dtypes and devices, any number of moves, every type promotion rule", "why_tests_cant": "A missing conversion of one tensor shows only on a second device, which the test machines do not have, or in a mixed-dtype run.", "anchors": ["src/pytorch_kinematics/chain.py:230-377", "src/pytorch_kinematics/chain.py:656-712", "src/pytorch_kinematics/frame.py:33-36", "src/pytorch_kinematics/frame.py:72-76", "src/pytorch_kinematics/frame.py:120-124", "src/pytorch_kinematics/transforms/transform3d.py:445-468"]}
{"id": "C70", "title": "Rounding errors of forward kinematics stay small", "statement": "In floating-point arithmetic forward kinematics returns, for every frame, a matrix with last row (0,0,0,1) whose rotation part is within a small multiple of the unit roundoff times the number of frames on its path, and whose position is within the same multiple of the length of the path, of the exact pose of the declared robot.", "quantifier": "all trees, all joint values, every order of summation inside a matrix product, every rounding function with relative error u, library cosine and sine with absolute error t, stored offsets and axes with small errors", "why_tests_cant": "Tests compare a few robots with a fixed tolerance; the growth of the error with the depth of the tree, and its dependence on the summation order of the library, are not observable on one machine.", "anchors": ["src/pytorch_kinematics/chain.py:15-93", "src/pytorch_kinematics/chain.py:315-322", "src/pytorch_kinematics/transforms/rotation_conversions.py:452-524", "src/pytorch_kinematics/frame.py:66"]}
{"id": "C71", "title": "Types registered for one format are not seen by another", "statement": "The type registry resolves every name in the current namespace first, then globally, and makes vectors, objects and basic types on demand. Modules in different namespaces do not see each other's names, whatever the order of import; a type once found is found again; a name cannot be registered twice; running the declarations of core.py, urdf.py and sdf.py gives every class exactly the parameter types that reading and writing use.", "quantifier": "all registries, all sequences of declarations, all names without dots, both import orders", "why_tests_cant": "The registry is global state filled once at import: a test sees one import order and two formats, and a clash shows only with a further module or another order.", "anchors": ["src/pytorch_kinematics/urdf_parser_py/xml_reflection/core.py:14-101", "src/pytorch_kinematics/urdf_parser_py/xml_reflection/core.py:289-395", "src/pytorch_kinematics/urdf_parser_py/xml_reflection/core.py:674-682", "src/pytorch_kinematics/urdf_parser_py/urdf.py:8-572", "src/pytorch_kinematics/urdf_parser_py/sdf.py:6-319"]}
{"id": "C72", "title": "Editing a parsed robot keeps its lists, maps and output consistent", "statement": "After any sequence of additions of objects that are not there and removals of objects that are, no call has failed, the list of each kind and the order of writing are exactly what was added and not removed, and writing gives just these elements in the order of addition; the name maps (links, joints, parents, children) describe the same elements; grouping elements by kind with lump_aggregates only reorders them; removing an absent object raises and changes nothing.", "quantifier": "all classes with repeated children, all sequences of additions and removals, all objects", "why_tests_cant": "No test edits a parsed robot; the state after a sequence of edits depends on every earlier one, and the damage shows only when the object is written or queried later.", "anchors": ["src/pytorch_kinematics/urdf_parser_py/xml_reflection/core.py:627-663", "src/pytorch_kinematics/urdf_parser_py/urdf.py:484-520", "src/pytorch_kinematics/urdf_parser_py/sdf.py:266-298"]}
{"id": "C73", "title": "Rounding errors of the Jacobian stay small", "statement": "In floating-point arithmetic the Jacobian of a serial chain differs from the true derivative of the end pose by little: the axis columns (angular parts of revolute joints, linear parts of prismatic joints) by at most 230 times the unit roundoff per frame of the path, the linear parts of revolute joints by at most 1400 times the unit roundoff per frame and unit of length of the path; the angular part of a prismatic joint is exactly zero. At a tool frame the same holds with 235 and 3200 times the unit roundoff, the length being that of the path and the tool.", "quantifier": "all trees, all serial chains in them, all joint values and batches, every order of summation inside products and whether or not they are fused, every rounding function with relative error u, library cosine and sine with absolute error t, stored offsets and axes with small errors, all tools, one per configuration or one for all", "why_tests_cant": "Tests compare a few Jacobians with finite differences at tolerances far above rounding; how the error grows with the path, and with the summation order of the library, is not observable on one machine.", "anchors": ["src/pytorch_kinematics/chain.py:714-817", "src/pytorch_kinematics/chain.py:15-93"]}
{"id": "C74", "title": "The inverse kinematics step goes downhill in the true pose error", "statement": "At every configuration of a serial chain the step computed by the pseudo-inverse solver is a descent direction of the true error, the weighted sum of the squared distance and the squared angle between the end pose under forward kinematics and the target: moving along it by a small enough positive amount brings this error down, its rate of decrease is at least twice the regularisation times the squared length of the step, and the step is zero exactly at stationary points of the error.", "quantifier": "all serial chains with rigid offsets and unit axes, all configurations, all rigid targets, all weights, every positive regularisation and non-negative damping; the end turned from the target by no angle or by at least 1e-6 and less than half a turn", "why_tests_cant": "Tests run the solver on a few robots and look at whether it converges in the end; that the step computed from the Jacobian, the quaternion difference and the damped system points downhill in the real error at every configuration is a statement about derivatives at a continuum of points.", "anchors": ["src/pytorch_kinematics/ik.py:13-69", "src/pytorch_kinematics/ik.py:340-344", "src/pytorch_kinematics/ik.py:397-429", "src/pytorch_kinematics/ik.py:490-520"]}
{"id": "C75", "title": "On a robot whose joints all slide the inverse kinematics solver converges at a known rate", "statement": "If no joint on the way to the end turns, the sliding directions reach every direction with strength mu, the targets have the orientation the end always has, no line search is used, the learning rate is in (0, 1] and no joint limits interfere, then each iteration of the pseudo-inverse solver multiplies the distance of a row to its target by at most 1 - lr*m/(m + K) with m = position_weight^2 * mu and K the damping at the start. Hence solve reports a problem as converged once max_iterations is large enough for one of its rows to come under the position tolerance at that rate, under every early stopping rule, and reports that very row as converged when early stopping is off.", "quantifier": "all such serial chains, all batches of problems and retries, all finite starting configurations, all weights, regularisations, dampings, patience values and stopping modes", "why_tests_cant": "Tests observe convergence from a few random starts on a few arms. A bound on the number of iterations that holds for every start, batch, weight and stopping rule is a statement about an unbounded loop over real inputs.", "anchors": ["src/pytorch_kinematics/ik.py:13-69", "src/pytorch_kinematics/ik.py:150-200", "src/pytorch_kinematics/ik.py:432-560"]}
{"id": "C76", "title": "A parsed description can be printed and the output shows every declared field", "statement": "For every object read from a URDF or SDF document, str(obj) does not fail, and the mapping handed to the YAML printer names each declared attribute and element of the object's class exactly once, with what the object holds there, so that objects that print the same are the same.", "quantifier": "all URDF and SDF documents, all classes of both formats, every supported version of Python (3.9 and later)", "why_tests_cant": "The test suite never prints a parsed description. Whether printing fails depends on the Python version and on which fields of which nested object hold lists, and whether two descriptions print alike is a statement about pairs of arbitrary documents.", "anchors": ["src/pytorch_kinematics/urdf_parser_py/xml_reflection/basics.py:51-90", "src/pytorch_kinematics/urdf_parser_py/xml_reflection/core.py:428-453", "src/pytorch_kinematics/urdf_parser_py/xml_reflection/core.py:563-568", "pyproject.toml:11"]}
{"id": "C77", "title": "What the backtracking line search finds, and what its fixed threshold costs", "statement": "In PseudoInverseIK with a BacktrackingLineSearch, the search, evaluated with the chain's own forward kinematics and pose error, returns for each row whose step is not zero a step length after which the end is closer to its target; using it never makes a problem that is solved without it fail.", "quantifier": "all chains, rows, targets and batches; all search settings; all damping and weights", "why_tests_cant": "The tests run the solver with the search on sampled targets and count successes. Whether some step length is accepted for every direction the solver can produce, and whether the search can turn success into failure, depends on exact inequalities between real errors at arbitrary poses.", "anchors": ["src/pytorch_kinematics/ik.py:216-260", "src/pytorch_kinematics/ik.py:539-547", "src/pytorch_kinematics/ik.py:452-457"]}
{"id": "C78", "title": "The solver converges from near any configuration whose Jacobian has full row rank", "statement": "For every rigid serial chain and every configuration at which the Jacobian computed by the library reaches all six directions, PseudoInverseIK started close enough converges, linearly, to every target pose close enough to the pose there: with enough iterations it reports the problem as solved, at a configuration near the start, also with joint limits clamped and enforced as long as the configuration keeps clear of them.", "quantifier": "all chains (any number of joints, turning or sliding), all such configurations, all targets and starts in a neighbourhood, all batches and retries, all damping, positive weights, learning rates in (0,1], tolerances and stopping rules that are compatible with the weights", "why_tests_cant": "The tests run the solver on sampled targets of a few robots and count how many converge. That every target in a neighbourhood is found, at a rate that does not depend on the target, for every robot and every non-singular configuration, is a statement about uncountably many runs that rests on the Jacobian being the derivative of the forward kinematics and on the computed rotation error agreeing with the true one to second order.", "anchors": ["src/pytorch_kinematics/ik.py:13-69", "src/pytorch_kinematics/ik.py:397-429", "src/pytorch_kinematics/ik.py:452-557", "src/pytorch_kinematics/ik.py:589-642", "src/pytorch_kinematics/chain.py:714-776"]}
{"id": "C79", "title": "The solver recovers the joint values of any pose made near a configuration with independent Jacobian columns", "statement": "For every rigid serial chain and every configuration at which the columns of the Jacobian computed by the library are linearly independent (arms with at most six joints away from singularities), PseudoInverseIK started close enough converges to every target that forward kinematics produces from joint values close enough, and the joint values it reports differ from those the target was made from by at most a constant times the tolerances. No two configurations near by have the same pose.", "quantifier": "all chains (any number of joints, turning or sliding), all such configurations, all targets made near by and all starts near by, all batches and retries, all damping, positive weights, learning rates in (0,1], tolerances and stopping rules with enough patience, with or without clamping and enforcement of limits", "why_tests_cant": "The tests sample joint values, compute the pose and count how many of the poses are found; they never look at whether the joint values themselves come back. That they do, for every robot, every such configuration and every pose near it, at a rate and with a constant that do not depend on the pose, quantifies over uncountably many runs.", "anchors": ["src/pytorch_kinematics/ik.py:13-69", "src/pytorch_kinematics/ik.py:397-429", "src/pytorch_kinematics/ik.py:452-557", "src/pytorch_kinematics/ik.py:589-642", "src/pytorch_kinematics/chain.py:714-776"]}
{"id": "C80", "title": "In floating point a convergence flag means the true pose is within tolerance plus rounding", "statement": "The pose error that the solver computes in rounded arithmetic (matrix to quaternion, quaternion product, quaternion to axis-angle, difference of positions, norms) differs from the true distance of the positions and the true angle between the orientations by at most a small multiple of the unit roundoff times the number of frames, for every chain, every configuration and every target. So an entry that the solver marks as converged is truly within the tolerances plus that bound, and a configuration truly inside the tolerances minus the bound is marked. The bound cannot be dropped: in float32 the flag is set with every positive tolerance although the true distance is not zero.", "quantifier": "all rounding functions with unit roundoff up to 1e-5 (float32 and float64 included), library sine, cosine and atan2 with small relative error, all orders of summation, all serial chains, all configurations, all targets at any angle up to and including half turns, all batches, all tolerances, all steps and line searches of the solver", "why_tests_cant": "Tests compare a few float results with loose tolerances and use the library's own pose error to decide whether the solver succeeded. Whether that error can be trusted near half turns, near zero angles, where the quaternion formulas switch, and for every rotation in between, is a statement about all pairs of orientations and all ways of rounding.", "anchors": ["src/pytorch_kinematics/ik.py:36-47", "src/pytorch_kinematics/ik.py:167-173", "src/pytorch_kinematics/ik.py:397-429", "src/pytorch_kinematics/ik.py:466-470", "src/pytorch_kinematics/transforms/rotation_conversions.py:93-154", "src/pytorch_kinematics/transforms/rotation_conversions.py:375-410", "src/pytorch_kinematics/transforms/rotation_conversions.py:590-613"]}
{"id": "C81", "title": "An error report points at the part of the document that is at fault", "statement": "When reading a URDF or SDF document fails with a ParseError, the XPath in the message selects an element of the document that is really read, and this element really has the fault the message speaks of: an attribute whose text is no value of its type, a required attribute or child that is absent, a broken rule of its class, or no fitting alternative. Where no two siblings of a tag share a name and single elements are not repeated, the path selects nothing else. Messages about unknown attributes and tags name an element that has them. Carrying the paths changes neither which documents are accepted nor what object they give. Exceptions: the shape inside a geometry is reported with the geometry's path, which then selects nothing; with repeated names the path is ambiguous; the root's tag is taken from the schema; and values of elements without fields (a mass, SDF numbers) raise an error without any place.", "quantifier": "all documents of any depth and size, all classes of the URDF and SDF schemas with a tag as root, all number parsers, all kinds of failure, all messages", "why_tests_cant": "Tests check that some broken files raise an exception. Whether the path in the message leads to the faulty element, and only to it, for a fault at any place of any document, with indices, names and attribute predicates replaced in place while reading goes on, is a statement about all documents and the XPath semantics.", "anchors": ["src/pytorch_kinematics/urdf_parser_py/xml_reflection/core.py:104-126", "src/pytorch_kinematics/urdf_parser_py/xml_reflection/core.py:460-549", "src/pytorch_kinematics/urdf_parser_py/xml_reflection/core.py:598-618", "src/pytorch_kinematics/urdf_parser_py/urdf.py:146-149", "src/pytorch_kinematics/urdf_parser_py/sdf.py:105-108"]}
{"id": "C82", "title": "Back-propagation through the rotation conversions gives the gradient", "statement": "For one row of a batch and for every cotangent, the backward pass of autograd through the operations that quaternion_to_matrix, axis_angle_to_quaternion, quaternion_to_axis_angle, matrix_to_quaternion, so3_exponential_map, so3_log_map and quaternion_angular_distance perform leaves in the inputs the gradient of the function computed, and no NaN or infinity: for every non-zero quaternion, for every axis-angle vector other than zero, for every quaternion with a vector part, for every rotation in so3_log_map (identity and half turns included), for every vector in so3_exponential_map, for rotations whose quaternion has no zero component, and for quaternion pairs that are neither equal, opposite nor orthogonal; always except on the surface where a formula switches. At the excepted points the functions still have gradients, but the backward pass returns NaN: at the identity and every rotation whose quaternion has a zero component (matrix_to_quaternion, against the docstring of _sqrt_positive_part), at the zero vector, at the identity quaternion, and for the distance of equal quaternions.", "quantifier": "all real inputs, all directions, all cotangents, both versions of PyTorch's norm_backward", "why_tests_cant": "gradcheck compares finite differences at sampled points; the failing points are sets of measure zero that random samples never hit but that robots start from, and no sample shows that the derivative formulas of both branches, composed along the tape with the values not chosen, give the derivative in every direction for every input.", "anchors": ["src/pytorch_kinematics/transforms/rotation_conversions.py:44-72", "src/pytorch_kinematics/transforms/rotation_conversions.py:93-154", "src/pytorch_kinematics/transforms/rotation_conversions.py:563-613", "src/pytorch_kinematics/transforms/so3.py:72-214", "src/pytorch_kinematics/transforms/math.py:13-46", "src/pytorch_kinematics/transforms/math.py:85-160"]}
{"id": "C83", "title": "A transform has the dtype and device asked for and reports the ones it has", "statement": "Every transform built with Transform3d, with a subclass in its default dtype, or by compose, inverse, indexing, stack, clone or to reports in dtype and device those of its matrix. Built from numbers or from fitting tensors it has the dtype and device requested; to(device, dtype) on it gives both; compose works exactly when all matrices are on one device and keeps the dtype of the first; points and normals come back in their own dtype. Not so: Rotate, Translate and Scale with another dtype report float32, so that to(dtype=float32) returns them unchanged in double precision; RotateAxisAngle ignores its dtype; cpu() on a transform made with the default device makes a copy; shape operators come back in the dtype of the transform.", "quantifier": "all dtypes, devices and promotion rules, all sequences of operations", "why_tests_cant": "The tests construct transforms in float32 on the CPU or pass dtype on once; that no sequence of operations leads to an attribute different from the matrix, and which constructor breaks this, is a statement about all sequences.", "anchors": ["src/pytorch_kinematics/transforms/transform3d.py:146-218", "src/pytorch_kinematics/transforms/transform3d.py:232-299", "src/pytorch_kinematics/transforms/transform3d.py:301-421", "src/pytorch_kinematics/transforms/transform3d.py:431-474", "src/pytorch_kinematics/transforms/transform3d.py:477-630", "src/pytorch_kinematics/transforms/transform3d.py:724-751"]}
{"id": "C84", "title": "Both backward modes of forward kinematics give the same gradient", "statement": "forward_kinematics_tensor(th, analytical_grad=False): the graph that autograd records has the values of forward kinematics (and its errors), and the backward pass through it gives the partial derivatives of the loss with respect to every variable, whether joint values, static offsets or axes. For every tree with distinct joint names, rigid offsets and unit axes, every batch and every upstream gradient, the default analytical backward pass returns exactly these numbers for the joint values. With an offset that is not rigid it does not.", "quantifier": "all trees, batches, real joint values, upstream gradients and choices of variables", "why_tests_cant": "The tests compare the two modes on a few robots with a tolerance; equality for every tree follows only from both being the derivative.", "anchors": ["src/pytorch_kinematics/chain.py:13-93", "src/pytorch_kinematics/chain.py:96-169", "src/pytorch_kinematics/chain.py:507-540", "src/pytorch_kinematics/transforms/rotation_conversions.py:452-524"]}
{"id": "C85", "title": "The check whether a matrix is a rotation accepts what is near one and nothing else", "statement": "_check_valid_rotation_matrix: for every batch of 3x3 matrices over the reals with infinities and NaN and every tolerance t with 0 <= t <= 1e-3, no warning implies that every matrix of the batch is finite and has a rotation within 3t + 1e-5 in every entry (in exact arithmetic); conversely there is no warning if every matrix is within d <= 1.9e-6 of a rotation and 4d <= t, so never for rotations. One bad matrix or one NaN anywhere in the batch gives the warning. A tolerance of 0 still accepts matrices that are no rotations, and under torch.compile everything is accepted.", "quantifier": "all batches, all tolerances up to 1e-3, all real, infinite and NaN entries", "why_tests_cant": "How far an accepted matrix can be from the nearest rotation is a bound over all matrices; tests only try some rotations and some obvious non-rotations.", "anchors": ["src/pytorch_kinematics/transforms/transform3d.py:754-782", "src/pytorch_kinematics/transforms/transform3d.py:551-574"]}
{"id": "C86", "title": "Rounding errors of the quaternion and axis-angle conversions stay small", "statement": "With every arithmetic step rounded with relative error at most u <= 1e-4 and the terms of every sum added in any order: quaternion_to_matrix of a nonzero quaternion of any length is within 19u per entry of a rotation, the one of the exact formula, so in float32 its results always pass Rotate's check with tolerance 1e-5. quaternion_apply of a unit quaternion moves a point to within 17u times its length. quaternion_multiply read as a matrix is within 52u of the product of the matrices. With u and the error of sin and cos at most e <= 1e-5, axis_angle_to_matrix of an angle th about a unit axis is within e(59 + 24 th) + 8e-30 of the rotation by th (if e th <= 1/20). matrix_to_quaternion after quaternion_to_matrix gives the unit quaternion up to sign to within 120u; quaternion_to_matrix after matrix_to_quaternion gives a matrix A that is within b <= 1/100 of a rotation back to within 22b + 111u. Transformed points have relative error (1+u)^5 - 1.", "quantifier": "all roundings with relative error u (no underflow), all summation orders, all nonzero quaternions, all axes and angles, all matrices near a rotation", "why_tests_cant": "The bounds hold for every input, also where matrix_to_quaternion switches formulas and for quaternions of any length, and for every order in which a backend may add; tests compare a few random inputs with a loose tolerance.", "anchors": ["src/pytorch_kinematics/transforms/rotation_conversions.py:44-71", "src/pytorch_kinematics/transforms/rotation_conversions.py:413-449", "src/pytorch_kinematics/transforms/rotation_conversions.py:527-587", "src/pytorch_kinematics/transforms/transform3d.py:301-349"]}
{"id": "C87", "title": "Inverse kinematics problems solved together and alone", "statement": "Without a line search, for any batch of problems and any selection of them in any order: solving the selection from the same starting configurations never takes more iterations than solving the whole batch; if it takes as many, every attempt of every selected problem gets the same answer; otherwise every attempt that had converged keeps its configuration and errors (also after limit enforcement, if it had converged before it). The batch takes exactly as many iterations as the slowest of its problems alone. With both early-stopping rules off, each attempt gets the very answer it gets when it is run alone. False in general: with early stopping on, a problem alone can be given up unsolved that is solved in a batch; with BacktrackingLineSearch the steps themselves depend on whether another problem remains, and a problem solved alone can be unsolved in the batch.", "quantifier": "all step kernels and error functions, batch sizes, selections, numbers of retries, stopping rules, limits, starting configurations", "why_tests_cant": "Tests solve one batch and look at the fraction solved; that the answers do not depend on what else is in the batch quantifies over pairs of runs, and the exceptions need particular error curves.", "anchors": ["src/pytorch_kinematics/ik.py:163-198", "src/pytorch_kinematics/ik.py:216-260", "src/pytorch_kinematics/ik.py:459-587", "src/pytorch_kinematics/ik.py:609-642"]}
{"id": "C88", "title": "Back-propagation through the 6D and Euler angle conversions", "statement": "rotation_6d_to_matrix: wherever both vectors that are normalised are longer than 1e-12 the backward pass gives the gradient of the conversion, and for all inputs, parallel and zero vectors included, it gives finite numbers. euler_angles_to_matrix: for all twelve conventions and all angles the backward pass gives the gradient. matrix_to_euler_angles: for all twelve conventions and all rotations it gives the gradient, except where an outer angle is pi (the cut) or at gimbal lock. False at gimbal lock: the angles are finite, but for every cotangent the other four entries of the row and column that are read get the gradient NaN, and the entry where they meet an infinite or NaN one; the six conventions with equal outer axes are locked at the identity matrix.", "quantifier": "all conventions, all angles, rotations and six-vectors, all cotangents, all directions of change of the nine matrix entries", "why_tests_cant": "Gradient checks sample random rotations and one convention; gimbal lock has probability zero among them, and at the lock the forward pass shows nothing unusual.", "anchors": ["src/pytorch_kinematics/transforms/rotation_conversions.py:157-207", "src/pytorch_kinematics/transforms/rotation_conversions.py:210-291", "src/pytorch_kinematics/transforms/rotation_conversions.py:616-637"]}
{"id": "C89", "title": "The rotation conversions act row by row on tensors of any leading shape", "statement": "For every leading shape (including none, ones and zeros) each conversion of rotation_conversions.py gives a tensor of that leading shape whose row at every index is the conversion of the argument's row at that index. For two arguments the leading shapes are broadcast together and each row of the result is made from the two rows that broadcasting reads; shapes that cannot be broadcast, and wrong trailing sizes of matrices, quaternions and Euler angles, are errors. False of axis_and_angle_to_matrix_44, axis_and_d_to_pris_matrix (documented to work with any batch dimensions) and pos_rot_to_matrix: one axis with N angles is refused when N is not 1, although axis_and_angle_to_matrix_33 takes it. False of rotation_6d_to_matrix: rows of four numbers are accepted.", "quantifier": "all shapes of any number of dimensions, all tensor entries, all Euler convention strings", "why_tests_cant": "Tests use one or two fixed batch shapes; mistakes in dim arguments, reshapes, broadcasting and gather indices show only for some numbers of dimensions or for sizes that happen to coincide.", "anchors": ["src/pytorch_kinematics/transforms/rotation_conversions.py:36-72", "src/pytorch_kinematics/transforms/rotation_conversions.py:101-154", "src/pytorch_kinematics/transforms/rotation_conversions.py:157-291", "src/pytorch_kinematics/transforms/rotation_conversions.py:360-524", "src/pytorch_kinematics/transforms/rotation_conversions.py:527-687"]}
{"id": "C90", "title": "Forward kinematics, its backward pass and the Jacobian as tensor programs act row by row", "statement": "The tensor program of forward kinematics (masks, gathers by joint and parent index, permutations, in-place stores into torch.empty, batched products) gives at row b and frame i exactly the product of the transforms along the path to that frame for the joint values of row b, independent of what torch.empty contained; a width that is neither the number of joints nor 1 raises for every batch size. The tensor program of the analytical backward pass gives at row b and joint j the derivative, with respect to that entry of the joint tensor, of the weighted sum of all entries of the forward result. The tensor program of the Jacobian, with and without tool transforms, gives at each row the columns and pose of that row; numbers of tools other than 1 and the batch size raise. False of the backward pass of an empty batch: the forward pass succeeds but the backward pass raises.", "quantifier": "all kinematic trees with distinct joint names (unit axes and rigid offsets for the derivative), all batch sizes including 0, all joint values, all weights, all tool transforms, all contents of uninitialised memory", "why_tests_cant": "Index and shape mistakes in gathers, permutations and reshapes cancel on the chains and batch sizes of a test; uninitialised memory often happens to be zero; gradients are compared at a few points only.", "anchors": ["src/pytorch_kinematics/chain.py:13-93", "src/pytorch_kinematics/chain.py:98-169", "src/pytorch_kinematics/chain.py:507-540", "src/pytorch_kinematics/chain.py:714-817"]}
{"id": "C91", "title": "One inverse kinematics iteration as a tensor program acts row by row and solves a damped least squares problem in each row", "statement": "The tensor program of the inverse kinematics step (view by problem and retry, broadcasting of the targets over retries, quaternion operations, view back, concatenation, weighting, batched normal matrix, batched solve) gives at row r the pose error between pose r and the target of problem r div M, and the joint velocity that minimises the weighted error left plus the damping in that row alone. The position part of the error is the difference of positions and the rotation part is zero exactly for equal orientations, with the angle between them as length up to a^5/960. It fails iff one row has no solution; sizes that do not fit raise, except that a single problem accepts any number of targets (refuted). One full iteration, with the Jacobian tensor program in front, agrees row by row with the per-row model of C90 and the solver.", "quantifier": "all numbers of problems and retries, all poses, targets, Jacobians, weights, positive regularisation and non-negative damping (for the minimum), all serial chains for the iteration", "why_tests_cant": "A mix-up of the problem and retry dimension is invisible with one problem or one retry, and self-corrects over iterations otherwise; the minimality of a step cannot be sampled.", "anchors": ["src/pytorch_kinematics/ik.py:13-69", "src/pytorch_kinematics/ik.py:397-429", "src/pytorch_kinematics/ik.py:466-470", "src/pytorch_kinematics/ik.py:496-500"]}
{"id": "C92", "title": "The whole inverse kinematics solver as a tensor program acts attempt by attempt", "statement": "The tensor program of the solver (solution tensors of shape problems x retries, masks, reshapes, norms over the last dimension, early stopping, line search with its boolean indexing and squeeze, clamping, wrapping, refinement and final update) returns in cell (problem p, retry r) what the solver on rows gives for attempt p*M+r: joint values, errors, flags, remaining problems and number of iterations. The errors returned are those of the joint values returned with them; an attempt is marked converged iff both its errors are below tolerance, and a problem iff one of its attempts is. An update leaves converged attempts alone, takes the new values for all others, only ever sets flags and drops a problem from the remaining ones only if one of its attempts is within tolerance. Sizes that do not fit the reshape, no retries and a chain without joints raise RuntimeError.", "quantifier": "all numbers of problems, retries and joints, all initial configurations, limits, tolerances (with infinities and NaN), all options of the solver, all step kernels that act row by row", "why_tests_cant": "Mixing up the problem and retry dimension, or a mask applied to the wrong one, is invisible with one problem or one retry; a single row takes another path through squeeze; the outcome of a run is checked on a few targets only.", "anchors": ["src/pytorch_kinematics/ik.py:130-198", "src/pytorch_kinematics/ik.py:209-260", "src/pytorch_kinematics/ik.py:482-557", "src/pytorch_kinematics/ik.py:589-643"]}
{"id": "C93", "title": "The SVD inverse kinematics step as a tensor program equals the direct step on every row of the batch", "statement": "The tensor program of the step by singular values (batched decomposition, squared values plus regularisation with the damping squeezed to one number per row, diagonal embedding, cut of the right factor, products) returns the same pose errors and the same joint velocities as the direct step at every row, and these minimise the weighted error left plus the damping of that row, uniquely, whichever full singular value decomposition of the weighted Jacobians is used. With fewer than six joints it raises RuntimeError for every batch.", "quantifier": "all numbers of problems and retries, all poses, targets, Jacobians with at least six columns (fewer for the failure), weights, positive regularisation, non-negative damping, all functions that return a full decomposition of the weighted Jacobians", "why_tests_cant": "A damping or diagonal broadcast along the wrong dimension is invisible with one row or with batch size equal to six; singular vectors are only unique up to sign and rotation, and a test sees one choice of one library.", "anchors": ["src/pytorch_kinematics/ik.py:72-129", "src/pytorch_kinematics/ik.py:646-660"]}
{"id": "C94", "title": "Composition, inverse and application of transforms as tensor programs act row by row under broadcasting", "statement": "The tensor programs of compose, inverse, transform_points, transform_normals and transform_shape_operator act on every row of the batch: composing any number of batches multiplies the matrices of each row from left to right, a batch of one going with every row; the inverse of each class of transform is a two-sided inverse of each matrix; each point is mapped by the matrix of its row and divided by its fourth coordinate, moved away from zero to distance eps if eps is given; normals and shape operators keep their products with transformed directions. Points and normals without a batch dimension come back without one exactly when there is one transform. Batches of different sizes above one and arguments of other ranks raise ValueError, points that do not have three coordinates raise RuntimeError, and shape operators of four dimensions always fail.", "quantifier": "all batch sizes, including zero, all numbers of points and of composed transforms, all real matrices for compose and points, all matrices of the class for inverse, normals and shape operators, all eps for which the clamped denominator is not zero", "why_tests_cant": "A transpose or expansion along the wrong dimension is invisible when the sizes happen to be one or equal; tests try a few sizes and symmetric values.", "anchors": ["src/pytorch_kinematics/transforms/transform3d.py:232-250", "src/pytorch_kinematics/transforms/transform3d.py:258-293", "src/pytorch_kinematics/transforms/transform3d.py:301-409", "src/pytorch_kinematics/transforms/transform3d.py:501-508", "src/pytorch_kinematics/transforms/transform3d.py:541-548", "src/pytorch_kinematics/transforms/transform3d.py:586-590", "src/pytorch_kinematics/transforms/transform3d.py:724-751"]}
{"id": "C95", "title": "The exponential and logarithm of rotations as tensor programs act row by row", "statement": "The tensor programs of hat, hat_inv, so3_exp_map, so3_log_map, so3_rotation_angle and so3_relative_angle act on every row of the batch: hat gives the matrix of the cross product with the vector of the row and hat_inv undoes it; the exponential of a row not shorter than the clamp is the rotation about the vector by its length, and within 1e-6 of it below the default clamp; away from the identity and from half turns the exponential of the logarithm of a batch of rotations is the batch, and the logarithm of the exponential of a batch of vectors is the batch; relative angles are within 0.015 of the angle between the rotations of the row. One matrix with a trace out of range, or one matrix that is not skew-symmetric for hat_inv, makes the whole batch fail with ValueError; the logarithm of an empty batch fails with RuntimeError; other shapes fail with ValueError.", "quantifier": "all batch sizes and all real entries for hat and the exponential, all non-empty batches of rotations for the logarithm, all batches of pairs of rotations for the relative angles", "why_tests_cant": "Mixing the rows of a batch, or filling the wrong entry of the matrix, is invisible on batches of one or of equal rows; tests try a few random batches.", "anchors": ["src/pytorch_kinematics/transforms/so3.py:12-37", "src/pytorch_kinematics/transforms/so3.py:40-89", "src/pytorch_kinematics/transforms/so3.py:113-141", "src/pytorch_kinematics/transforms/so3.py:144-180", "src/pytorch_kinematics/transforms/so3.py:183-214", "src/pytorch_kinematics/transforms/so3.py:217-252", "src/pytorch_kinematics/transforms/math.py:80-153"]}
