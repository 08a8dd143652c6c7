# A machine-checked model of libalmath

The library is C++ (float arithmetic, value types, a few stateful classes, and a
"scenegraph" part that manipulates robot descriptions).  The model is written in
Gallina, function by function; theorems are proved about it in Coq 8.16.1.

## 1. How the code is modelled

### Numbers
`Scalar.v` defines a record of scalar operations (`Class Scalar T`): arithmetic,
comparisons returning `bool`, the libm functions the code calls, and literals as
exact decimal fractions.  Every numeric function of the library is modelled
*once*, polymorphically in that record, with the same order of operations as the
source.  It is then instantiated twice:

* `RInst.v` - Coq's real numbers `R`.  Ideal arithmetic: no rounding, `PI` is the
  real number, `atan2`, `acos` are the mathematical functions.  Algebraic and
  geometric properties are stated here.
* `F32.v` - IEEE-754 binary32 (Flocq `BinarySingleNaN`, `prec=24 emax=128`,
  round to nearest even), computable in Coq.  `sqrt` is the correctly rounded
  one; `fmod` is the exact remainder; the other libm functions are *arbitrary*
  (a record of functions over which theorems quantify).  Properties on NaN,
  infinities, signed zeros, exactness and rounding are stated here.

Properties that are independent of the numbers (layout, aliasing, selection,
state machines, histories) are proved for *every* instance of the record.

Simplifications common to all of the numeric model: `FLT_EVAL_METHOD = 0` and no
contraction of a*b+c (only relevant for binary32 theorems); `std::pow` of a
float and an int is a double in C++11, so the expressions around it are evaluated in
double precision and rounded when they are stored (`wide` and `s_wide` in Scalar.v, with
the binary64 evaluation in F32.v); `std::pow(x, 2)` is the exact square and
`std::pow(x, 3)` the correctly rounded cube; warnings printed on std::cerr are not modelled.

### Effects
Exceptions are the `Throw` constructor of a result type, undefined behaviour is a
separate `UB` constructor (out-of-range float->int conversion, out of bounds
access, dereference of an end iterator, failed assert is `Abort`).  Functions that
write through references are modelled as state transformers; when the aliasing of
input and output matters there is a statement-by-statement memory model with an
`alias` parameter.

### Files
`Scalar.v RInst.v F32.v` numbers; `Model_*.v` definitions only, each citing the
source; `Spec_*.v` small specifications independent of the model; `Proofs_*.v`
lemmas; `Props_*.v` the theorems with, beside each, an `Example` showing that the
hypotheses are met by a non-trivial case, and `Print Assumptions`.

## 2. Plan per property

| id | what is modelled | how it is proved |
|----|------------------|------------------|
| C01 | Transform `*` on 12 coefficients | R, ring, componentwise |
| C02 | `*=` statement by statement on a two-cell heap, alias or not | every Scalar, by computation; |
| C03 | transformInverse, InvertInPlace, pinv, Diff | R; orthonormal columns => rows lemma |
| C04 | `*` on points | R, ring; distance preservation from orthonormality |
| C05 | rotation constructors | R; `cos^2+sin^2=1`; determinant |
| C06 | determinant, vector form | R ring; list length case analysis |
| C07 | isTransform/isRotation | R equivalence at eps=0; NaN acceptance is a binary32 refutation (finding) |
| C08 | normalizeTransform/normalizeRotation | R, with thresholds; degenerate branches separate |
| C09 | vector constructors | every Scalar for layout; R for the normalising constructor |
| C10 | fromRotX/Y/Z | R, angle addition formulas |
| C11 | Euler conversions | R, atan2 specification; gimbal lock by case analysis |
| C12 | quaternion operations | R, ring / field |
| C13 | quaternion <-> matrix | R; every rotation is the matrix of a unit quaternion |
| C14 | axis-angle | R; discarded normalisation = refutation for non-unit axes |
| C15 | Rodrigues | R |
| C16 | exp/log | R; generic branch proved through the quaternion parametrisation; near-pi refutation |
| C17 | transformMean | R, from C16 |
| C18 | Pose2D | R |
| C19 | Pose2D <-> Transform | R |
| C20 | Displacement | R |
| C21 | changeReference* incl. aliasing | R + memory model (aliasing refutation) |
| C22 | orthogonalSpace, rotationFromAxes* | R; threshold refutation |
| C23 | axisRotationProjection | R; refutation of the wrong coefficient, partial positive result |
| C24 | vector types | R ring; compound = binary for every Scalar |
| C25 | division, normalize | every Scalar / R / binary32 |
| C26 | distance, isNear | R; NaN in binary32 |
| C27 | vectors round trip | every Scalar |
| C28 | modulo2PI | R; binary32 exactness by Sterbenz |
| C29 | mean angles | R, induction over lists, permutations |
| C30 | clipData | every float of binary32, induction over lists |
| C31 | roundToInt, isAxisMask | binary32 counterexamples, R-level theorem, Z |
| C32 | collision predicates, ellipse clip | R |
| C33 | dichotomy, avoidance | loop invariant; fallback refutation |
| C34 | Dubins | R |
| C35 | digital filter | induction over histories, every Scalar + R linearity; unconfigured = UB |
| C36 | PID | induction over histories; failure atomicity refutation |
| C37 | pill | R; swap refutation |
| C38 | occupancy map | R |
| C39 | point mass inertia | R |
| C40 | Mesh | invariant over all operation sequences |
| C41 | mesh factory | induction over subdivision count |
| C42 | NamesChecker | invariant over all call sequences |
| C43 | decorators | trace equality, induction |
| C44 | RobotTree constructor | graph reasoning over lists; disconnected cycle refutation |
| C45 | mimic loops | completeness; order-dependent spurious rejection refutation |
| C46 | traversal by visitors | induction on fuel/tree; trace of events |
| C47 | subtree removal | induction |
| C48 | re-rooting | induction on the path to the root |
| C49 | mass squash | R, matrices as functions; refutation of the inertia rotation |
| C50 | URDF pose | R |
| C51 | animation keys | sorted-list induction |
| C52 | bezier check | list induction |
| C53 | ROS time | Z |
| C54 | averageTransforms | R, lists (quaternion average by an oracle) |
| C55 | Collada ids and documents | history induction over the calls to the builder |
| C56 | histories of edits of a RobotTree | invariant over all edit sequences |
| C57 | URDF robot to rigid body system builder | trace of builder calls, induction over the tree |
| C58 | operators << and toSpaceSeparated, stream flags, %g formatting of a float | exact decimal arithmetic in Z, strings; refutation of flags and precision |
| C59 | numbers and vectors written in a ptree and read back | correctly rounded decimal conversions on binary32/64 |
| C60 | edits of the elements of a document (origin, axis, parent/child, inertial) | views from ptree to the records of Model_Urdf, commuting squares |
| C61 | renaming of mesh files | induction over the links |
| C62 | Transforms of a quaternion and a vector | see the Props file named in MANIFEST |
| C63 | Conversions between the three families of transforms | see the Props file named in MANIFEST |
| C64 | The printed graph of a robot | see the Props file named in MANIFEST |
| C65 | Fixing and freeing joints | see the Props file named in MANIFEST |
| C66 | product and inverse of transforms over binary32 | Flocq rounding bounds, coefficient by coefficient |
| C67 | chains of products, isTransform, constructor from a vector over binary32 | Frobenius norms, induction on the chain |
| C68 | rotation and pose constructors, chains of poses over binary32, any libm of accuracy e | as C67 |
| C69 | norm, distance, normalize, products of vectors over binary32 | relative error bounds; witnesses outside the range |
| C70 | product, assignment, inverse of Pose2D and chains of moves over binary32, any libm of accuracy e | Flocq rounding bounds, induction on the moves |
| C71 | product, chains, inverse, norm, normalize, matrix, angle-axis constructor and rotation of vectors by Quaternion over binary32 | Cauchy-Schwarz in four dimensions, Flocq rounding bounds, induction on the factors |
| C72 | operator==, operator!=, constructors of the ten value types, over any scalars | one lemma over any decided relation on numbers; Flocq comparison for binary32 |
| C73 | fromPolarCoordinates, getAngle, norm over the reals | trigonometry, atan2 as an angle in ]-pi, pi] |
| C74 | position6DFromTransformDiff over the reals | antisymmetric part of the relative rotation, Euler axis, sine bounds |
| C75 | conversions between transforms, rotations, positions, displacements | algebra; quaternion and matrix forms of the same angles |
| C76 | RobotTree on the property tree of the document | every edit simulates the edit of the records; simulation of the walks; frame relation on the elements; induction over the history |
| C78 | digital filter in binary32, runs of any length | invariant on the two circular buffers (float and exact side by side), one rounding bound per product and sum, contraction by the output weights; uniqueness of the solution of the difference equation |
| C77 | decimal literals, conversions from int and fmod of floats and doubles | correctness theorems of Flocq for division and normalisation; format of integers |
| C79 | PID controller in binary32, histories of up to N calls | invariant on the float state (last error and integral) next to the exact history, the deadband being 1-Lipschitz; one rounding bound per operation |
| C80 | The URDF tree and the merging of bodies (Model_Urdf, Model_Squash) on binary64 numbers | Each sum of masses is one rounding (no error next to zero); induction on the run of the traversal, whose finished joints are pairwise distinct; a weighted mean of doubles costs five roundings |
| C81 | clipFootWithEllipse (Model_Tools) on binary32 numbers | Relative errors of products, quotients, sums and square roots with the underflow apart; the point t (cos, sin) is on the ellipse whatever the two numbers are, so the accuracy of cos and sin only enters the direction; 13 roundings are far less than the tolerance 1e-5 of the test |
| C82 | intersectionSegment2D and pointInsideBox (Model_Tools) on binary32 numbers | Absolute errors of differences, cross products and quotients of coordinates up to a bound; the decisions are right outside of three times the error; two witnesses evaluated by the kernel show that the extent along x has to be in the margin |
| C83 | d_mul (Model_Rigid) and transformFromDisplacement (Model_Helpers) on binary32 numbers | Induction on the list of displacements with the step of C71 for the quaternion and C71_rotate plus one rounded addition for the position |
| C84 | the changeReference functions on vectors (Model_Helpers) on binary32 numbers | Execution on the memory as for C21, then the error of a product of three terms (as in C66) and the isometry of the exact rotation |
| C85 | rotationFromAngleDirection (Model_Rigid) on binary32 numbers | Error of the squared length (dot product of three terms) against the float values of the two limits, then the error of each of the nine entries |

A property the code violates is recorded with a theorem `..._refuted` exhibiting
the violation on the faithful model, next to the strongest positive theorem
(`..._partial`) that does hold.

## 3. Trusted base
* Coq 8.16.1's kernel, including `vm_compute` (evaluations of binary32/binary64
  terms and of decimal conversions).
* Axioms: only those of Coq's standard library (real numbers, classical logic,
  functional extensionality).  `ASSUMPTIONS.md` gives, for every theorem named in
  the manifest, exactly what `Print Assumptions` lists.  Flocq, whose binary
  formats are used, adds none.
* The reading of the C++ source by the model's author, as cited in the comment of
  each definition, and the C++ semantics assumed in section 1.
* Arithmetic of the binary32 theorems (C66 to C69 and those that say so): each
  operation of the source is one IEEE operation rounded to nearest, in the order of
  the source; no fused multiply-add, no extended precision, no `-ffast-math`.
  The expressions with `std::pow` are evaluated in binary64 and rounded to binary32
  when they are stored, as C++11 says (`f32_wide` in F32.v; C71 is about such functions).
* Oracles.  The libm functions other than `sqrt`, `fabs` and `fmod` are a record
  of arbitrary functions in the binary32/binary64 models; over R they are the
  mathematical functions.  The eigenvector solver of Eigen and the functors a user
  passes (visitors, filters, builders) are arguments of the model, and theorems
  quantify over them.

## 4. What is modelled and what is not
Modelled (the comments of the `Model_*.v` files cite the lines):
* all of `src/types` and `src/tools` (transform helpers, Dubins, foot collision,
  almath, the operators of almathio with the state of the stream), `src/dsp`,
  `src/geometrics`;
* `src/scenegraph`: meshes and mesh factory, Collada documents as trees of
  elements, scene builders, animation, the URDF robot tree with its constructor,
  visitors and edits, the traverser that feeds a rigid body system builder, the
  readers and writers of URDF elements on property trees;
* headers: rigid body system builder and its decorators, body mass, ROS time,
  urdfeigen, almatheigen, qigeometry.

Not modelled:
* the XML parser and printer of boost::property_tree: a document is the tree the
  parser gives; characters that XML escapes are outside the model;
* `std::cerr` warnings, the registration of qi types (`geometry_module`,
  `QI_TYPE_STRUCT`), SWIG glue, the Python and Java bindings, pkg-config files;
* Eigen's internals (expression templates, alignment); the 4x4 eigen solver is an
  oracle;
* memory exhaustion, performance, threads (the library has none);
* the contents of a stream whose `badbit` is set: formatted output never fails.

## 5. Findings: where the code does not do what a user would rely on
Each is a theorem of the model with its witness; the comment is the one beside
the theorem.

* `C02_pose2d_mul_assign_binary32_refuted`: C02, Pose2D in binary32: with a libm that returns for the float 0.5 the correctly rounded cosine and sine, [(20, 0, 0.5) *= (2, 0.5, 0)] and the binary product leave different floats in x.
* `C02_premultiply_aliased_refuted`: C02, violated: transformPreMultiply(T, T), with the same object twice, does not compute T * T.
* `C03_transformInverse_aliased_refuted`: C03, violated: transformInverse(T, T), with the same object as input and output, does not invert T.
* `C07_nan_accepted_refuted`: C07, violated: a transform and a rotation whose coefficients are all NaN are accepted, whatever the tolerance.
* `C14_non_unit_axis_refuted`: C14, violated: the normalisation of the result is computed and thrown away, so a non-unit axis gives a quaternion that is not unit (and whose matrix is no rotation).
* `C14_small_angle_axis_refuted`: C14, violated for small rotations: for a unit quaternion with (x,y,z) of norm between 1/10000 and 1/2000 the axis returned is not normalised: here its norm is 3/10000.
* `C16_half_turn_refuted`: C16, violated: the half turn about the axis (3/5, 4/5, 0) has a null logarithm, so the exponential of its logarithm is the identity; and transformLogarithmInPlace leaves in place whatever angular velocity its output variable held.
* `C16_small_angle_refuted`: C16, violated near the identity: a rotation about z by the angle whose sine is 1/2000 has a logarithm of half that angle.
* `C17_half_turn_refuted`: C17, violated: between the identity and the half turn about (3/5, 4/5, 0) the interpolation ends where it starts.
* `C17_in_place_aliased_refuted`: C17, violated: with the output aliased to the first argument the start is lost: weight 0 returns the identity.
* `C21_change_reference_aliased_refuted`: C21, violated when the output is the input: the second and third rows read the components already overwritten. The quarter turn about z sends (1,0,0) to (0,1,0), but called with the same variable twice it gives (0,0,0).
* `C22_orthogonalSpace_refuted`: C22, violated: for the vector (80000, 0, 1599999999), of norm 1600000001, the frame returned is not orthogonal: its first and third axes make a scalar product of 80000/1600000001.
* `C23_general_axis_refuted`: C23, violated: the identity, which is a rotation of angle 0 about every axis, is not returned unchanged for the axis (2,2,1).
* `C23_zero_over_zero_refuted`: C23, violated in binary32: for the axis z and the exact quarter turn about x the code evaluates 0/0, and (for any libm whose acos, cos and sin of NaN are NaN) returns a matrix of NaNs instead of throwing or returning a rotation about z.
* `C24_cross_product_aliased_refuted`: ... violated when out is one of them: crossProduct(a, b, a) with a = x, b = y gives the null vector instead of z.
* `C25_normalize_binary32_refuted`: C25, violated in binary32: the squares underflow or overflow. 2^-100 in x is a non-null vector whose normalize() throws; 2^100 in x is normalised to the null vector.
* `C25_pose_normalize_refuted`: C25, violated for Pose2D: a non-null vector whose normalize() throws.
* `C27_quaternion_wrong_size_refuted`: C27, violated for Quaternion: the default is the identity quaternion, but a vector of the wrong size gives the zero quaternion.
* `C28_minus_pi_refuted`: C28: the documented half-open interval is not respected: -pi is left as it is.
* `C29_mean_scaling_refuted`: C29: the threshold on the length of the sum is not relative to the sum of the weights, so scaling the weights can turn a mean into an exception.
* `C30_clip_nan_refuted`: C30: a NaN is left as it is, outside the interval, although the call reports a change.
* `C31_round_binary32_refuted`: C31: the exceptions above are real: 0.49999997f is rounded to 1 and 8388609.f to 8388610.
* `C32_ellipse_null_axis_refuted`: C32, violated in binary32: with a null half axis along x (maxX = 0, maxY = 1) the null move, whose coordinates satisfy |x| <= maxX and |y| <= maxY, is reported clipped, since 0*0/0 is a NaN.
* `C32_ellipse_outside_refuted`: C32, violated: a move slightly outside the ellipse is left outside.
* `C32_orientation_refuted`: C32, violated: a box that contains the other one is not reported when its corners are listed counter-clockwise; an empty box is reported in collision with any other.
* `C32_segment_small_refuted`: C32, violated: the tolerance 1e-5 is absolute, so two segments of 3 mm that cross at a right angle in their middles are not reported.
* `C32_small_boxes_refuted`: C32, violated: two clockwise rectangles of 3 mm x 1 mm that form a cross share their centre and are not reported.
* `C32_symmetric_refuted`: C32, violated: the answer depends on the order of the boxes. A square of 4 micrometres lies across a side of a 10 x 20 m box: it is not reported when it is given first.
* `C33_result_free_refuted`: C33, violated: a step that lands on the support foot is reported as corrected, but the returned move is the requested one and still collides.
* `C34_overflow_refuted`: C34, violated: beyond FLT_MAX for the squared length (here a target at 10^20), no tangent is retained and the two intermediate poses are null: they are on no path.
* `C34_touching_refuted`: C34, violated: for the target (0, 4, 0) and radius 1, at exactly four radii, the left circle of the start touches the right circle of the target. The segment is empty and the returned heading is 0: it is the heading of no path through the returned points.
* `C34_turn_sign_refuted`: C34, violated: for the target (-49/8, -1, 0) and radius 1 the path turns right, then left. The first heading is above 2 pi although a right turn from heading 0 decreases it, and the last heading change is below -2 pi although a left turn increases it.
* `C35_default_refuted`: C35, violated: a filter that was never configured reads outside its (empty) input buffer at the first sample.
* `C35_reconfigure_refuted`: C35, violated: configuring again does not restart the filter. After one sample 5 with the weights [1], the weights become [1; 1] and the next sample 1 gives 6, where a new filter gives 1.
* `C36_initialize_atomic_refuted`: C36, violated: an initialize that throws has already replaced the parameters. A null period is rejected, and stays in the controller, which then divides by it.
* `C36_nan_refuted`: C36, violated in binary32: a NaN gain and a NaN period pass the checks.
* `C36_period_refuted`: C36, violated, in any arithmetic: the period given to computeFeedback is ignored.
* `C37_order_refuted`: C37, violated: the points never come back in the order in which they were given.
* `C38_round_trip_far_refuted`: C38: further away the round trip fails: with pixels of one metre and an origin at 2^25 m, pixel (1,0) comes back as (0,0).
* `C40_accessor_wrap_refuted`: C40 (finding): the index is multiplied modulo 2^64, so that a huge index is not always refused: on any mesh with a position, positionPtrAt((2^64 + 2) / 3) gives the address of the z coordinate of position 0.
* `C40_vertex_strong_guarantee_refuted`: C40 (finding): vertex(x, y, z) without a current normal throws, and yet the position has been added to the mesh.
* `C41_arc_vertices_refuted`: C41, finding: a negative number of arc vertices is not refused: with -1 around a vertical segment there is no meridian, and back() is called on an empty vector.
* `C41_rounded_exact_refuted`: C41, finding: the polar angles are multiples of 3.14 / (2 nb + 2), not of pi / (2 nb + 2), so the lower half of the side starts slightly above the equator and its points are not exactly on the rounded box: those of the vertical pill of unit half length and radius, with no arc vertex, are strictly inside.
* `C44_tree_refuted`: C44 fails: a document with a loop of joints apart from the root is accepted, and the links of the loop are not reachable from the root.
* `C45_acyclic_refuted`: C45 fails: a robot whose mimic joints form no cycle ([a] mimics [b], which mimics [c]) is refused when its joints come in the order c, a, b.
* `C46_loop_refuted`: C46 fails for the joints of a loop, which the constructor lets through: they are never visited.
* `C48_loop_refuted`: C48. The constructor accepts documents with loops (C46_loop_refuted); for a link of a loop define_as_root_link does not return.
* `C48_whole_turn_refuted`: C48. Two joints of one link at the same place, their rolls written with a difference of a whole turn: the call aborts.
* `C49_eigen_refuted`: C49, refuted. urdfInertialToEigen turns the inertia the wrong way, as squashInertial.
* `C49_moved_refuted`: C49, refuted. The centre of mass changes when a body is moved to a parent link without one and falls on the origin of its frame: the old offset is kept.
* `C49_self_refuted`: C49, refuted. The mass of a link is lost when the joint that is squashed goes from the link to itself, which the constructor accepts.
* `C49_turned_refuted`: C49, refuted. Otherwise the moments of inertia change: the inertia of the child is turned by the inverse of the rotation it should be turned by. Here the child is fixed, turned by a third of a turn about the first diagonal, to a parent of the same mass.
* `C51_attributes_after_keys_refuted`: Finding: when the first attribute is set after the first keys, the keys added later are not sorted and a frame gets two keys: keys are looked for by bisection and the attributes, then in the middle of the list, stop it.
* `C51_erase_atomic_refuted`: Finding: when a tangent with an invalid side follows one to erase, erase_tangent throws with the first one already erased.
* `C51_interleaved_refuted`: Finding: the same happens in a document whose keys are sorted but where something else (an XML comment) comes between them: a key that is there is not found.
* `C51_negative_frame_refuted`: Finding: a negative frame is refused, but only after the key was inserted: the curve is left with a key without frame, and looking for another key fails.
* `C51_negative_label_refuted`: Finding: add_label with a negative frame throws after having inserted the label.
* `C52_nan_refuted`: Finding: called with floats, the check of a segment accepts a tangent that is not a number.
* `C55_count_refuted`: C55, finding: the identifiers come from an int: adding the 2^31-th mesh overflows it.
* `C55_indices_refuted`: C55, finding: the indices of the polygons are written as floats with six digits: for a mesh with more than a million points, made by calls that all succeed, the document does not give back the indices: 1000001 is written 1e+06.
* `C55_texture_refuted`: C55, finding: add(mesh, Math::Transform) does not check for texture coordinates as add(mesh, Eigen::Affine3f) does: instead of an exception, the program stops at an assertion.
* `C57_behind_fixed_refuted`: C57, refuted. A well-formed robot with a moving joint behind a fixed one is refused by a builder that checks names: the parent was added as a static frame, not as a body.
* `C57_explored_refuted`: C57, refuted. Contrary to what is documented, the exploration does not stop at a moving joint whose child link has no body: the joint is made fixed, and what is beyond is added, attached to a static frame.
* `C57_galilean_refuted`: C57, refuted. The root link is attached to the frame named "", not to the Galilean frame of the configuration: if this one has a name, no robot whose root link has a body is accepted.
* `C57_root_name_refuted`: C57, refuted. The name made up for the joint of the root may be that of a joint of the robot; a builder that checks names then refuses it.
* `C58_flags_refuted`: C58, finding: so writing a value changes what is written next: on a new stream 1.f is written "1", but "+1.00000" after a Position2D.
* `C58_precision_refuted`: C58, finding: with the default precision the text does not determine the value.
* `C59_float_refuted`: C59: eight digits, that is what boost writes when it does not know numeric_limits::max_digits10, are not enough.
* `C59_malformed_refuted`: C59, finding: a malformed axis or scale is not refused but read as the default.
* `C61_atomic_refuted`: C61, finding: the exception leaves the robot partly changed.
* `C62_drift_refuted`: C62, finding: the product of two transforms that pass the assertion may not pass it, so that a sequence of products without renormalisation stops the program.
* `C62_near_origin_refuted`: C62, finding: the tolerance grows with the distance to the origin: with 1e-3, two frames 1 m apart are near when they are 1000 m away.
* `C64_names_refuted`: C64, finding: the names are written as they are, without quotes, so that a robot with one joint may be printed like a robot with two.
* `C82_steep_refuted`: C82. The margin along x is needed: the fraction along the first segment is computed from x alone as soon as the segment is 10 micrometres wide, whatever its height. Of two nearly vertical segments of more than 1.7 m, crossed almost at right angles by a segment of more than 1.1 m, the first is reported as crossed more than a centimetre off the true point, and the second as not crossed at all, although the segments cross 6 mm inside of both.

Differences between the documentation and the code, with no theorem of their own:
* `urdf.h` says of the frame change both "point_in_new_frame = pose *
  point_in_old_frame" and "child_pose_in_new_frame = pose.inverse() *
  child_pose_in_old_frame"; they contradict each other, the code follows the second.
* the traverser attaches the root body to the empty name rather than to the
  configured Galilean frame, and ignores the result of its private discovery step.

## 6. Partial theorems
What each leaves out is in its comment.

* `C49_fixed_physics_partial`: C49. If all bodies have positive masses, and every link which has another one fixed to it has one, then the centre of mass of the robot stays where it was for all positions of the links the fixed joints allow; if moreover the fixed joints and the frames of inertia are not turned, the moments of inertia about all axes are conserved (_partial: without these hypotheses see C49_moved_refuted and C49_turned_refuted).
* `C49_massless_physics_partial`: C49. Under the hypotheses of C49_fixed_physics_partial makeMasslessJointsFixed conserves the centre of mass, and the moments of inertia.
* `C57_centre_partial`: C57. Without options, and under the hypotheses of C49_massless_physics_partial, the system built has the centre of mass of the document, in all positions of the links the fixed joints allow (_partial: without these hypotheses see C49_moved_refuted; the inertia is as for C49_eigen).

## How to read seeded/LOG.jsonl

Each line is one edit of the model in a scratch copy, with the theorems whose proof then failed.

* `theorems_failed` lists theorems whose proof script no longer compiles. This does not show
  that their statement became false: a script may break on an edit that leaves its claim true.
* Where `list_complete` is false, the runner may have stopped at the first theorem of the target
  file that failed. The theorem that states the broken claim may then be missing from the list,
  and that it fails too was not checked for those lines.
* Example: with the upper limit test of `m_fromAngleDirection` dropped, a first run reported only
  `C85_axis`, whose claim still holds after the edit. The run without early stop also reports
  `C85_refused`, which states the claim the edit breaks. The lines on `m_fromAngleDirection`
  for C85 come from that second run.
* About 150 of the 343 automatic edits were not run, and edits found to be equivalent or not to
  compile were left out of the log.
