# Design of the formal model of pytorch_kinematics

The source is `/repo` (paths below are relative to `/repo/src/pytorch_kinematics`).
The model is a shallow embedding in Rocq (Coq 8.16.1).  Each Python function becomes
one total Gallina function with the same branches.  Python exceptions are values of
a result type (`Ok v | Err e`), so the error branches are covered by the theorems.

## Number domains

* `R` (Coq's classical reals) stands for a finite tensor element.  Rounding is modelled
  for forward kinematics, the Jacobian and the pose error of the solver only (C70, C73, C80); overflow, underflow and signed zeros are **not** modelled.
  All other statements on `R` are about the exact formulas in the code.
* `F` (file `ExtF.v`) is `R` plus `+inf`, `-inf` and `NaN`, with the IEEE rules for
  these values.  It is used where the code can reach non-finite values from ordinary
  inputs: joint limits, `clamp`, IK error comparison, wrapping, division by a norm.
* Where a formula divides, the theorem carries the guard that the divisor is non-zero.
  No theorem relies on Coq's convention for division by zero.

## Data

* 3-vectors, 3x3 and 4x4 matrices and quaternions are records of reals (`Lin.v`).
* Batches are lists.  A tensor of shape (B, n) is a list of B rows.  Tensors of any shape, with
  broadcasting, are in `TorchModel.v`; C89 shows that the conversions act on them row by row,
  C90 that the tensor programs of forward kinematics, its backward pass and the Jacobian do.
* Frames are rose trees (`Tree.v`), as in `frame.py`.
* Device and dtype of transforms and chains are in C69 and C83, visual geometry in C67; the numeric
  models are over the reals, or over binary floating point numbers where rounding is the subject.

## Rules

* Model files cite file and lines in a comment at each definition.
* Specifications live in separate `Spec*.v` files or in separate sections, and do not
  use the helper functions of the model.
* Property theorems are in `Properties_*.v`, each closed by `exact lemma.` and followed by
  `Print Assumptions`.  A concrete instance (`Example`) stands beside each theorem.
* Theorems named `..._refuted` give a concrete witness that the property as stated is false
  of the code.  Theorems named `..._partial` prove a weaker statement; the missing part is
  written beside them.

## Plan per property

| id | what is modelled | how it is proved |
|----|------------------|------------------|
| C01 | `Chain.__init__` (work queue, index tables, levels, static offsets), `_fk_impl` (scatter writes into an uninitialised array), `forward_kinematics` | refinement of the table/level algorithm to a recursive tree product, induction over levels |
| C02 | same, batched | corollary of the row-wise refinement |
| C03 | same, with `axis_and_angle_to_matrix_44`, `axis_and_d_to_pris_matrix`, `Joint.__init__` | closure of rigid transforms under products, induction along the path |
| C04 | same | path product: outside the subtree the joint does not occur; inside it is a common left factor |
| C05 | `axis_and_angle_to_matrix_33/44`, `axis_and_d_to_pris_matrix`, `Frame.get_transform` | trigonometric identities |
| C06 | index tables of `Chain.__init__` | invariant of the work queue |
| C07 | joint tables, `get_joint_parameter_names`, limits | invariant of the work queue; refuted for repeated names |
| C08 | `_get_joints` | refuted: the flag is not passed on |
| C09 | `ensure_tensor`, `get_dict_elem_shape` | induction over dictionary items; README zero fill refuted |
| C10 | `clamp`, `_get_joint_limits` | order reasoning on `F` |
| C11, C12 | `SerialChain.__init__` | path lemma on trees, cancellation of the root prefix |
| C13 | `convert_serial_inputs_to_chain_inputs` | case analysis on shapes; refuted for scalar dictionaries and partial vectors |
| C14, C15 | `jacobian_tensor`, `jacobian` | derivative of the path product, Coquelicot `is_derive` |
| C16 | `_FKAnalyticalBackward.backward` | sum over frames of derivatives, same derivative lemma |
| C17 | `Frame.__str__` | structural induction |
| C18 | `_get_joints_and_child_links` | structural induction |
| C19-C21 | quaternion functions | field/ring identities, case split on argmax |
| C22, C23 | axis-angle functions | trigonometry, own `atan2` |
| C24 | Euler conversions, 12 conventions | case split over conventions, `atan2` lemmas; gimbal lock refuted |
| C25 | `quaternion_from_euler`, 24 codes, with its in-place update | half-angle identities per code; refuted for argument preservation |
| C26, C27 | 6D, 9D, position/rotation packing | algebra |
| C28 | random/standardised quaternions, draw as argument | algebra |
| C29-C32 | `Transform3d` and subclasses over lists of matrices | algebra plus broadcasting lemmas; inverse refuted for scaled transforms |
| C33-C35 | `so3.py`, `acos_linear_extrapolation` | algebra, derivatives |
| C36, C37 | `quaternion_angular_distance`, `quaternion_slerp` batched, with aliasing | trigonometry; batch dependence refuted |
| C38 | `sample_perturbations`, draws as arguments | algebra |
| C39-C41, C47 | `IKSolution`, main loop of `PseudoInverseIK.solve`, kernels as row-wise oracles | invariants by induction over iterations |
| C42, C43 | `_enforce_limits`, `_wrap_revolute_joints` on `F` | order reasoning; NaN case refuted |
| C44, C45 | `_ik_step_kernel`, `_ik_step_kernel_svd` for any number of joints | quadratic form argument on finite sums |
| C46 | `BacktrackingLineSearch` | invariant over iterations, per entry |
| C48 | `sample_configs`, shape branch of `solve` | order reasoning on `F` |
| C49 | `delta_pose` | corollary of C20, C21, C23 |
| C50-C52 | `urdf.py` builder over parsed joints and links | induction on fuel, tree hypothesis; several attribute findings |
| C53, C54 | `sdf.py` | telescoping product; convention refuted; exact set of angles for which it holds (`LoaderExact`) |
| C55 | `mjcf.py` over the compiled model tables | equality in all configurations iff every joint is exact (`LoaderExact`); refuted otherwise |
| C56 | `Robot` in `urdf_parser_py/urdf.py` | invariant over additions, path induction |
| C57-C59 | input widths of `ensure_tensor`, tree queries, `Transform3d` constructor | case analysis, structural induction |
| C60 | `Transform3d.__getitem__`, iteration, `stack` | list lemmas on slices, masks and index lists |
| C61 | `clone`, `to`, `cpu` over a store of tensors | case analysis on sharing; `to(copy=True)` and `cpu` refuted |
| C62 | `xml_reflection/core.py` reading (`XmlModel`) for schemas as data (`XmlSchema`) | loop invariants per class satisfying `nice_class`; a boolean check decides `nice_class` for every schema; spec in `SpecXml` |
| C63 | `to_xml`, `moved`, `reparse` | typing invariant of read values, write-read lemma by induction on it; five refuted cases |
| C64 | `load_urdf`: `from_doc` then `urdf_chain` (`XmlLoad`) | fields by C62, description in `SpecLoad`, uniqueness, then C50 |
| C65 | `load_sdf` | as C64, then C53 |
| C66 | reading | witnesses by computation; required parts by C62 |
| C67 | `_convert_visual(s)`, `body_to_geoms`, visuals per frame (`VisModel`) | geometry and visual fields by C62, names of built frames by induction; four refuted clauses |
| C68 | `build_serial_chain_from_urdf/sdf/mjcf` (`SerialLoad`, `SerialDoc`) | frames of a path by induction on `Built`, then C12 and C13; SDF root pose as a refuted clause |
| C69 | dtype and device of every tensor (`DevModel`) | tensors as tags, torch's operations as checks on tags, type promotion a parameter; structure reused from `chain_init` and `serial_init` |
| C70 | forward kinematics in rounded arithmetic (`RoundModel`) | the chain model run with rounded operations; error factors multiply along the path (`close_mul`), Frobenius norms; float32 by Flocq |
| C71 | types of one format not seen by another (`RegModel`, `RegDecl`) | registry as dictionary and prefix, module bodies as lists of statements run through it; schemas of `XmlSchema` obtained by running them |
| C72 | editing a parsed robot (`AggModel`) | lists, order and type map as state of additions and removals; invariant that the state holds just the elements left; maps as in `RobotModel` |
| C73 | the Jacobian in rounded arithmetic (`RoundJacModel`) | the Jacobian model with its four operations as parameters, run on the rounded forward kinematics of C70; norms of rounded products and cross products |
| C74 | the step against the true error (`SpecDescent`) | derivative of the pose when all joints move at once (`PathDeriv`), of the squared angle between a moving and a fixed rotation (`AngleDeriv`), then the descent identity of C44 |
| C75 | the solver on gantries (`SpecGantry`) | the pose is affine in the joints (`GantryProofs`), the damped step contracts the distance, then the loop with its early stopping (`GantryRun`) using the trajectory lemmas of C39-C41 |
| C76 | `to_yaml` on the parsed values of `XmlModel` (`YamlModel.v`), with a flag for whether `collections.Iterable` exists | induction over the document: every declared field is there after reading, so the object prints unless a list is reached; concrete pairs of documents that print alike |
| C77 | `BacktrackingLineSearch` inside `solve`, with the chain's forward kinematics and `delta_pose` | C74's derivative of the true error plus the bound on the computed angle give an accepted power of the factor; gantry run with a variable step; two refutations |
| C78 | the solver with `jacobian`, `delta_pose`, the step kernel, clamping and `_enforce_limits` | continuity of the Jacobian's columns; mean value theorem for a smooth error that agrees with the computed one to second order; lower bound on the damped Gram matrix from a right inverse; invariant of the run; records of the stopping rule |
| C79 | as C78, for arms whose Jacobian has independent columns | distance to the configuration the target was made from shrinks: the error is nearly the image of that distance, and the damped step undoes a fixed part of it; the error bounds the distance from both sides |
| C80 | pose error, norms and convergence flag in rounded arithmetic (`RoundErrModel`) | errors of the quaternion followed through all four formulas, then in the plane of real part and norm: half angles differ by the angle between nearby points; relative errors of sine, atan2 and divisor; joined with C73's poses and C39's entries |
| C81 | the reader with its `Path` objects (`PathModel`), XPath (`SpecPath`) | forgetting paths gives the reader of C62; one induction over documents for every place an error or message comes from, for any relation between paths and elements kept by naming and descending; used with "selects" and "selects only" |
| C82 | tapes of the conversions with PyTorch's backward formulas over numbers with NaN and infinities (`GradModel`), gradients by directional derivatives (`SpecGrad`) | a tape whose nodes are finite and whose live nodes are differentiable gives the gradient (one induction for all tapes); NaN spreads backwards along a path of nodes; explicit runs at the special points |
| C83 | dtype and device tags of `Transform3d` and subclasses (`TDevModel`), truthfulness of the attributes and the transforms a program can make (`SpecTDev`) | induction over the operations; runs of the constructors that break it |
| C84 | `_fk_impl` run on expressions, backward pass over the expressions (`AutoModel`); loss and evaluation (`SpecAuto`) | the program commutes with evaluation (homomorphism of its operations); induction over expressions for the derivative; uniqueness of derivatives against C16 |
| C85 | entries over the extended reals, `allclose`, Gram matrix and determinant (`ValidModel`); distance to a rotation (`SpecValid`) | Gram-Schmidt on the rows with explicit error bounds; expansion of the determinant to third order |
| C86 | rounded conversions (`RoundQuatModel`), distances and the quaternion of a turn (`SpecRoundQuat`) | error of `two_s` and of each entry; Lipschitz bound of the conversion through rotated unit vectors; C80's bound for `matrix_to_quaternion` |
| C87 | the loop of `IKModel`, part of a batch (`SpecBatch`) | without a line search every row moves by itself; equality of the runs of one problem in two batches; history of an entry is frozen once converged; two computed counterexamples |
| C88 | tapes `GradSixModel`, `GradEulerModel` over the operations of `GradModel` | a tape of sums, products, sines and cosines is smooth everywhere; the tapes compute the conversions (per convention); regularity of atan2, asin, acos off the lock from unit rows and columns; 0 times infinity at the lock |
| C89 | tensors of any shape with torch's operations `TorchModel`, the conversions on them `RotTorchModel` | one rule per operation for shape and entries; per function the composed entry function equals `RotModel` at the row; broadcasting as an inductive relation in `SpecTorch` |
| C90 | the tensor programs `FkTorchModel` on the operations of `TorchModel` | per operation a rule for tables of matrices (`M2`), vectors and columns; the level loop by induction with slots not yet written left arbitrary; both programs equal one table; derivative by C16 and one varying row of a sum |
| C91 | the tensor programs `IkTorchModel` on the operations of `TorchModel` and `RotTorchModel` | flat row r is cell (r / M, r mod M) after the view; batched solve as a map over rows; per row the kernel of `IKKernel`, minimum by completing the square; iteration by C90 |
| C92 | the tensor program `IkSolTorchModel` with the kernel as a parameter | every solution tensor is a table over (problem, retry), each operation maps tables to tables; loops by induction; convergence from C39 |
| C93 | the tensor program `IkSvdTorchModel` on the operations of `TorchModel`, decomposition as a parameter | entries of the composed products equal the per-row step by singular values of `IKKernel`; C45 per row; minimum from C91; shape mismatch of the last but one product for fewer than six joints |
| C94 | the tensor programs `T3dTorchModel` on the operations of `TorchModel` | rule for the broadcast product by cases on the two sizes; entries of the inverse equal the per-matrix inverses of `T3dModel`, then C30; induction on the list of transforms; scalar products from the left inverse of the 3x3 block |
| C95 | the tensor programs `So3TorchModel` on the operations of `TorchModel` | each program agrees with the list of per-row results of `MathModel` (`agree1`, `agree3`), errors included; then the per-matrix results of C34 row by row |

## Trusted base

* The Coq kernel (coqc and coqchk).
* Standard-library axioms listed by `Print Assumptions` under each theorem: the axioms behind
  `Coq.Reals` (`ClassicalDedekindReals.sig_forall_dec`, `ClassicalDedekindReals.sig_not_dec`),
  `functional_extensionality_dep`, and `Classical_Prop.classic` (through Coquelicot and Flocq).  No axiom of our own.
* The reading of the Python source by hand: the model is not extracted from the code.
* torch, numpy, lxml, mujoco semantics as described in the comments of the model; for C69 the rules which operations accept operands of
  different dtypes or devices (matrix products and indexed assignments do not mix devices or, for products, dtypes; an index may be on the CPU).
* For C82 the derivative formulas of PyTorch's autograd (`derivatives.yaml`, `FunctionsManual.cpp`) as written in `GradModel.fparts`, with both
  versions of `norm_backward`.
* For C83 that a string such as "cpu" and a `torch.device` are never equal in Python, and that an assignment to a slice converts dtype and device.

## Not modelled

Floating-point rounding outside forward kinematics, the Jacobian, the solver's pose error, the quaternion and axis-angle conversions and transformed points, overflow and underflow, `torch.compile`, plotting, XML tokenising (documents are element trees; text after
a child element is left out), what PyYAML makes of the dictionary it is given, `visualize.py`.

## Findings

Behaviours of the code that contradict its documentation or the natural property.  Each has a
machine-checked witness unless marked "(read only)".

* `Chain` with repeated joint names: `.index(name)` aliases two joints to one column (`C07_..._refuted`).
* `Chain._get_joints` does not pass `exclude_fixed` to its recursive calls (`C08_..._refuted`).
* `ensure_tensor` does not fill missing joints with zeros as the README says (`C09_..._refuted`).
* One input column is silently broadcast to all joints (`C57_..._refuted`).
* `quaternion_multiply` is associative only up to sign (`C21_exact_associativity_refuted`).
* `matrix_to_euler_angles` loses the rotation at gimbal lock (`C24_gimbal_lock_refuted`).
* `quaternion_from_euler` halves its argument in place; calling it twice with the same tensor gives two different
  rotations (`C25_unchanged_argument_refuted`).
* `rotation_6d_to_matrix` below the 1e-12 floor of `normalize` gives a matrix that is no rotation (`C26_tiny_vectors_refuted`).
* `Transform3d.inverse` of a composed, cloned or indexed scaled transform is wrong: those operations return the base class, whose
  inverse assumes an orthogonal block (`C30_scaled_refuted`, `C30_exactly_orthogonal`).  Normals inherit the fault
  (`C31_composed_scale_refuted`).
* `transform_shape_operator` fails on every documented (N, P, 3, 3) input (`C31_shape_operator_4d_refuted`).
* The docstring order "scale by 0.5, then translate" is the reverse of what the code does (`C32_docstring_order_refuted`).
* `Transform3d(rot=...)` reads a batch of exactly three Euler triples as one 3x3 matrix (`C59_three_euler_triples_refuted`), and
  does not broadcast one position over `default_batch_size` (`C59_no_broadcast`).
* `so3_exp_map` below its clamp is not a rotation (`C34_exp_small_refuted`), `so3_log_map` of a half turn is zero
  (`C34_log_half_turn_refuted`), and `so3_relative_angle(R, R)` is at least 0.007 (`C34_relative_self_refuted`).
* `quaternion_angular_distance` and `quaternion_slerp` decide closeness for the whole batch: a pair's distance depends on the
  other pairs (`C36_batch_refuted`), and an identical pair in a mixed batch interpolates to NaN (`C37_batch_refuted`).
* `quaternion_slerp` overwrites its second argument (`C37_argument_refuted`), is not of unit length in its linear branch
  (`C37_lerp_unit_refuted`), and there fails on a vector of parameters or, with four, misapplies it
  (`C37_vector_t_lerp_refuted`).
* `sample_perturbations` does not normalise a given axis (`C38_axis_length_refuted`).
* `SerialChain` with an end frame whose name has surrounding newlines: the index tables strip them, the tree search does not, and
  neither spelling of the name works (`C12_newline_names_refuted`).
* `SerialChain.forward_kinematics` with a dictionary of plain numbers raises IndexError (`C13_dict_of_numbers_refuted`), a nested
  list is measured by its number of rows instead of its number of joints (`C13_nested_list_refuted`), and the branch that
  converts a chain-length input (chain.py:843-859) always ends in ValueError (`C13_shorter_rejected`).
* `SerialChain.jacobian` documents dictionary inputs but raises RuntimeError on every dictionary (`C14_dict_refuted`); one
  configuration with several tool transforms raises RuntimeError although the poses broadcast (`C15_several_tools_refuted`).
* `IKSolution.converged_pos` and `converged_rot` stay set after the error has left the tolerance, and `converged_pos_any`,
  `converged_rot_any` are never written (`C40_flags_refuted`, `C40_any_never_set`).
* `_enforce_limits` turns a revolute joint with a missing limit into NaN as soon as any joint of the chain has a finite limit, and
  with it loses solutions that were converged and within the limits (`C42_unlimited_revolute_refuted`,
  `C42_one_sided_limit_refuted`).
* `early_stopping_no_improvement`: "all" drops a problem as soon as one retry stalls and "any" only when all do, the reverse of the
  docstring (`C47_swapped_refuted`).
* `BacktrackingLineSearch` returns, for a row that never improved, a step size it never tried, which may raise the error
  (`C46_untried_step_refuted`).
* `InverseKinematics.sample_configs` yields NaN for joints without limits (`C48_infinite_limits_refuted`); retry configurations of
  the documented shape (problems, retries, joints) are refused unless retries = joints (`C48_retry_3d_refuted`).
* `PseudoInverseIKWithSVD` raises RuntimeError on every chain with fewer than six joints, where the direct step succeeds
  (`C45_few_joints_refuted`).
* `build_chain_from_urdf` on a description without joints raises UnboundLocalError (`C50_no_joints_refuted`); a cycle below the root
  recurses until RecursionError (`C50_cycle_refuted`); of a forest only one tree is kept (`C50_forest_refuted`); a link with two
  parents is copied (`C50_two_parents_refuted`).  `link.origin`, which the URDF format does not have, is applied if present
  (read only).
* URDF joints without an axis turn about z instead of the format's default x (`C52_default_axis_refuted`); a continuous joint with a
  `<limit effort velocity>` element is pinned to [0, 0] (`C52_continuous_limits_refuted`); floating and planar joints are a KeyError
  (`C52_other_types_rejected`).
* SDF poses are read with roll and yaw exchanged (`C54_sdf_rpy_refuted`), so rotated links are misplaced
  (`C53_sdf_zero_configuration_refuted`); a joint to the world is a KeyError, a single link an UnboundLocalError, a one-sided limit a
  TypeError (`C53_sdf_rejected_refuted`).  The model pose and joint poses are ignored (read only).
* MJCF joints with a non-zero anchor displace the body (`C55_mjcf_anchor_refuted`); the reference value is ignored
  (`C55_mjcf_reference_refuted`); the range is used as limits even if MuJoCo does not limit the joint
  (`C55_unlimited_range_refuted`).
* `Transform3d.to(copy=True)` returns an object that shares its matrix with the original if device and dtype do not change, so a write
  to one is seen in the other (`C61_to_copy_refuted`).
* `cpu()` and `to` of a `Scale` return an object of the base class, whose inverse is wrong (`C61_cpu_refuted`).
* Truth values in descriptions: every non-empty text is true, so `kinematic="false"` is true (`C66_false_is_true_refuted`), and a
  false value that is written reads back as true (`C63_false_refuted`).
* Raw `<gazebo>` elements lose their text when written (`C63_raw_text_refuted`), and their children when written a second time,
  because lxml moves elements on `append` (`C63_write_twice_refuted`).
* `sdf.Visual()` and `sdf.SDF()` do not set `material` and `model`; writing them is an AttributeError (`C63_constructed_refuted`).
* Missing text is read as the string "None": a `<parent/>` without a link names the link "None" (`C66_no_parent_refuted`), and an
  empty string does not survive writing and parsing (`C63_empty_text_refuted`).
* SDF links without `<inertial>` and joints without `<axis>` are refused, although SDF allows both (`C66_sdf_required_refuted`).
* SDF names keep white space around them (`C66_untrimmed_refuted`).
* Errors below an element leave as AttributeError, AssertionError or ValueError instead of ParseError
  (`C66_raw_errors_refuted`); an SDF document without a model is an AttributeError (`C65_no_model_refuted`).
* The tag of the document is not compared with the class: an SDF document is a URDF robot without links (`C66_root_tag_refuted`).
* URDF links keep only their first visual (`C67_first_only_refuted`), a capsule keeps only its pose (`C67_capsule_refuted`), and a link
  without visuals gets one empty visual.
* SDF meshes lose their scale (`C67_sdf_scale_refuted`); meshes written with `<uri>`, as the SDF format has them, and planes are
  refused (`C67_sdf_shapes_refuted`).  The poses of SDF visuals have roll and yaw exchanged as those of links (`C67_sdf_visuals`).
  The extra quarter turn of SDF cylinders is about their own axis and has no effect (`C67_sdf_cylinder`).
* A serial chain built from an SDF model without a root name drops the pose of the root link (on purpose: the root becomes the
  origin), which the whole chain keeps: the two put the same link at different places (`C68_sdf_agrees_refuted`).  For URDF they agree (`C68_urdf_agrees`).
* `Chain(root, device=d)` and `SerialChain(..., device=d)` raise RuntimeError for every device but the CPU: `joint_type_indices` is made on the CPU
  (chain.py:300) and indexed with `_dof_frame_indices` on `d` (347) (`C69_constructor_device`).
* After `chain.to(dtype=torch.float64)`, `SerialChain(chain, end)` raises RuntimeError unless `dtype` is repeated; after `chain.to(device=...)` no
  arguments help (`C69_serial_after_to`).  `Link.to` leaves the offsets of visuals behind (`C69_visuals_refuted`).
* `sdf.Inertia` and `sdf.Inertial` have no tag and cannot be written by themselves (`C63_untagged_refuted`).
* In float32 the rotation part of a computed pose is not exactly a rotation: one frame turned by the 3-4-5 angle is a witness
  (`C70_rotation_refuted`); the error bound of C70 is what holds instead.
* Namespaces of the type registry are string prefixes: they do not nest (`C71_nesting_refuted`), names with dots reach into other namespaces
  (`C71_dotted_refuted`), and a module that raises leaves its namespace open for everything registered later (`C71_failed_import_refuted`).
* `lump_aggregates` passes the attribute name (`links`) where `add_aggregate` expects the XML name (`link`): on any object with repeated children it raises
  KeyError after it has emptied `aggregate_order`, so the object is written without them (`C72_lump`, `C72_lump_refuted`).
* `remove_aggregate` does not update the name maps of `Robot` and `Model`: `get_root` and `get_chain` still see removed links and joints
  (`C72_robot_refuted`). A value added twice (equal strings, such as two equal hardware interfaces) cannot be written after one removal (`C72_twice_refuted`).
* C74: no fixed learning rate is safe. For every `lr` and regularisation there is a target for which the one-joint arm ends further from it, in position and by half a turn in orientation, after one step without line search (`C74_whole_step_refuted`).
* C75: with turning joints the solver can stay where it is on a reachable target. A straight arm with three parallel joints asked to draw its hand back along itself gets a zero step for every learning rate, regularisation and weights and reports failure after any number of iterations (`C75_turning_refuted`); retries from other configurations are what avoids this.
* `to_yaml` (basics.py:71) uses `collections.Iterable`, which Python 3.10 removed, although pyproject.toml asks for Python 3.9 or later: `str(robot)`, and `str` of every link, pose, colour,
  box, transmission and SDF model, raises AttributeError there (C76_new, C76_robot_refuted); a URDF joint prints only if it has neither origin nor axis (C76_joint_refuted).
  On Python 3.9 everything prints (C76_old).
* What is printed does not name the class of a geometry, so a cylinder and a capsule print the same (C76_capsule_refuted); the order between links and joints is lost (C76_order_refuted), and a
  missing name prints as the string None (C76_none_refuted).
* `BacktrackingLineSearch` demands an absolute decrease, 0.01 by default, so no step is accepted for a row whose error norm is already at most 0.01 (`C77_threshold`): such a row is moved by max_lr * 0.5**5 = 1/32 of the step, whatever the step would have achieved. With all other arguments at their defaults this makes a problem fail that the solver without the search solves in one step (`C77_default_refuted`: three sliding joints, 1 cm from the target).
* The search compares unweighted pose errors while the step is made for the weighted ones. With `pos_weight=2` an arm with one joint has a step that lowers the weighted error and is refused at every length (`C77_weights_refuted`).
* On the iteration in which the last problem stops being `remaining`, the search returns at once and the full `max_lr` step is taken for every row (ik.py:234-236); the row is then checked once more by the final check (ik.py:549-557).
* The theorems about the solver loop (C39-C42, C47, C49, C75) ask of a line search only that it returns one rate per row when handed one direction and one error per row, which the modelled search does (`line_length` in LineProofs.v); they therefore hold with `BacktrackingLineSearch` in use.
* With unequal `pos_weight` and `rot_weight` the early stopping rule of `solve` watches the unweighted error while the step lowers the weighted one. C78 therefore asks that the patience covers the difference (`rho ^ (patience + 1) * max(wp, wr) < min(wp, wr)`); with equal weights any patience will do.
* The refinement steps after `_enforce_limits` can undo convergence: they lower the weighted error, but a solution accepted with a position error just under its tolerance can leave it while the rotation improves. C78_limits asks for none of them or for enough of them.
* C78 asks for a Jacobian that reaches all six directions, which an arm with fewer than six joints never has; there the solver can only succeed for poses the arm can reach, and C79 shows that it does. Early stopping needs patience there: the error bounds the distance to the solution only up to a constant, so the rule that watches the error can see no improvement for a few iterations while the distance shrinks all along.
* Rounding of the pose error (C80): the computed rotation error is within about 13 times the entry error of the rotation matrices of the true angle, also near half turns and where `matrix_to_quaternion` switches formulas; for a chain of n frames the proved bound is 3000 n u (about 1.8e-3 rad for ten frames in float32, a worst case), so tolerances below that are not backed by float32 arithmetic.  A target equal to the stored pose is flagged with every tolerance even when the true pose differs (`C80_zero_refuted`).
* Wrapping a joint that is half a turn from the middle of its limits takes the even number of turns, so with limits of a whole turn two joint values one turn
  apart come out at opposite limits (`C43_tie`, `C43_whole_turn_refuted`); everywhere else the nearest representative is taken (`C43_nearest`).
* Error paths (C81): paths in ParseErrors are right except for shapes.  `GeometricType.from_xml` passes the geometry's own path to the reader of the shape (urdf.py:149, sdf.py:108), so a bad `size` of a box is reported at `…/geometry[@size]`, which selects nothing (`C81_geometry_refuted`).  The root's tag is never compared with the document's (`C81_root_refuted`).
* Errors without a place (C81): element values are converted outside of the `try` that makes a ParseError (core.py:513-518, while attributes are converted inside, 494-502), so `<mass value="heavy"/>` raises a bare ValueError (`C81_mass_refuted`).  A transmission that fits neither style is explained by the error of the new style only, since the `raise` stands inside the loop over the alternatives (`C81_alternatives`).
* Gradients at the identity (C82): `_sqrt_positive_part` (rotation_conversions.py:93-98) replaces pytorch3d's masked square root by `sqrt(clamp(x, min=0))`, whose gradient at 0 is not the zero its docstring promises but 0/0.  So `matrix_to_quaternion` back-propagates NaN into the diagonal of every rotation whose quaternion has a zero component, the identity and all rotations about a coordinate axis among them (`C82_matrix_to_quaternion_nan`, `C82_matrix_to_quaternion_refuted`).
* `torch.where` over both formulas (C82): `axis_angle_to_quaternion` (zero vector) and `quaternion_to_axis_angle` (identity) compute `sin(x/2)/x` also where it is not chosen, and 0/0 comes back as NaN; pytorch3d's assignments under a mask did not do this (`C82_axis_angle_to_quaternion_refuted`, `C82_quaternion_to_axis_angle_refuted`).  `theta[close] = 0` in `quaternion_angular_distance` does not keep the NaN of `sqrt` at equal quaternions out of the gradient (`C82_angular_distance_refuted`).  `so3_log_map` and `so3_exponential_map` have no such points among the rotations (`C82_so3_log`, `C82_so3_exp`).
* Dtype of the subclasses (C83): `Translate`, `Scale` and `Rotate` call `super().__init__(device=device)` without the dtype (transform3d.py:492, 529, 564), so with `dtype=torch.float64` the attribute says float32 while the matrix is double; `to("cpu", dtype=torch.float32)` then returns the object unchanged, in double precision (`C83_subclass_refuted`, `C83_to_refuted`).  `RotateAxisAngle`, whose default is float64, drops the dtype on the way to `Rotate` and always has a float32 matrix, so that `Transform3d(dtype=torch.float64).rotate_axis_angle(...)` is accurate to single precision only (`C83_axis_angle_refuted`, `C83_helpers`).
* Smaller points (C83): the default device is the string "cpu", which is not equal to `torch.device("cpu")`, so `cpu()` clones a transform that is already there although the documentation of `to` promises `self` (`C83_self_refuted`); `transform_shape_operator` puts the transform's matrix first and returns the transform's dtype, where `transform_points` and `transform_normals` return that of their argument (`C83_shape_operator_refuted`).
* Offsets that scale (C84): with a link offset that is not rigid, such as `Scale`, the default backward pass of `forward_kinematics_tensor` is not the gradient (2 where autograd gives 1 in `C84_scaled_refuted`); nothing checks the offsets of frames built by hand.  For rigid trees the two modes agree exactly (`C84_agree`).
* Tolerance of the rotation check (C85): `_check_valid_rotation_matrix(R, tol)` (transform3d.py:773) passes only `atol`, so the default `rtol=1e-5` of `torch.allclose` is added on the diagonal: with `orthogonal_tol=0` (or the documented default 1e-7 of the function) a matrix with rows of norm 1 + 1e-6 passes (`C85_tolerance_zero_refuted`); the tolerance of the determinant cannot be set at all.  The check only warns and is off under `torch.compile`.
* Rounding of the conversions (C86): the matrix of a quaternion is within 19u of a rotation whatever the length of the quaternion, so float32 results pass the check of `Rotate` with its default tolerance; the error of an axis-angle conversion grows with the angle (the norm is rounded before `sin` and `cos`), so angles of many turns lose digits: at 1000 rad the proved float32 bound is 1.4e-3.
* Inverse kinematics problems influence each other (C87): a problem is not dropped from the loop when it stops remaining, it is only no longer counted, so its attempts go on as long as another problem keeps the loop running. With early stopping a problem can therefore be solved in a batch and unsolved alone. With `BacktrackingLineSearch` the reverse happens too: the search stops at once when no problem remains, which leaves the full step, but otherwise also shrinks the steps of problems that do not remain, so that the result of a problem alone and in a batch differ even in the same number of iterations.
* `matrix_to_euler_angles` gives NaN gradients at gimbal lock although the angles are finite (C88): `atan2(0, 0)` is 0 in the forward pass and `0 * inf` in the backward pass, whatever the cotangent, and the derivative of `asin`/`acos` at 1 is infinite. For the conventions with equal outer axes (`ZXZ`, `XYX`, ...) this already happens at the identity matrix. `euler_angles_to_matrix` has no such point, and `rotation_6d_to_matrix` has finite gradients even for zero or parallel vectors.
* `axis_and_angle_to_matrix_44` and `axis_and_d_to_pris_matrix` say that they work with any number of batch dimensions, but take the batch shape from `axis` alone: one axis with N angles raises RuntimeError unless N is 1, where `axis_and_angle_to_matrix_33` broadcasts (C89). `pos_rot_to_matrix` does the same with `pos`.
* Axes of shape (N, 3) with angles of shape (N, 1) silently give N*N matrices from `axis_and_angle_to_matrix_33` (C89_pairs_ex).
* `rotation_6d_to_matrix` accepts rows of four numbers: the second vector is then a single number that is broadcast to three (C89_six_of_four_refuted).
* By reading, not modelled: `Frame.__init__` (frame.py:98-104) sets `self.children` only when `children` is None, so a frame that is given children has no such attribute.
* The backward pass of forward kinematics raises RuntimeError for an empty batch, because `reshape(-1, B, 3)` is ambiguous when B is 0; the forward pass of the same batch succeeds (C90_backward_of_empty_batch_refuted). Also without joints.
* An empty batch of a wrong width is refused like any other (C90_wrong_width); the row-wise model of `ChainModel`, which has no rows to look at, accepts it, so its theorems say nothing about that case.
* The inverse kinematics step does not check the number of targets when there is one problem: K targets give an error tensor of K*M rows instead of M (C91_number_of_targets_is_checked_refuted). `solve` itself always passes matching sizes.
* One row whose normal matrix is singular makes the batched solve raise for all rows of the batch (C91_step_fails_with_a_row); possible only without regularisation.
* `solve` on a chain without joints raises RuntimeError: `q.reshape(-1, num_retries, 0)` is ambiguous (C92_update_rejects, C92_no_joints_ex).
* In the line search, `squeeze()` of the errors also drops the row dimension if there is a single row; the norm and the boolean mask then have no dimensions and select all or nothing, which happens to be right (C92_search_is_rowwise covers it).
* The batch form of the SVD step fails on chains with fewer than six joints independently of the data, even for an empty batch (C93_svd_step_needs_six_joints).
* The failure of transform_shape_operator on four-dimensional arguments (C31) is also there in the tensor program, for every class of transform and all sizes (C94_ranks).
* so3_log_map and hat_inv fail with RuntimeError on an empty batch, for which so3_exp_map and hat succeed, also as tensor programs: the maximum of the entries of an empty tensor is taken (C95_rejects).
* Not stated for tensors: `bmm` of batches of different sizes (RuntimeError in the model).  The transforms of C94 never reach it, and C95 speaks of relative angles only for batches of equal size, so the edit tm01 of `seeded/LOG.jsonl`, which drops the comparison of batch sizes, breaks no theorem.  Edits tm39-tm63 of C94 and those of C95 beyond the exponential (angles, `hat_inv`, logarithm) were not run.
