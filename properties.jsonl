{"id": "C01", "title": "Transform product is associative with identity", "statement": "Composing transforms with `*` is associative, and the default-constructed Transform is a left and right unit for it.", "quantifier": "all triples of Transforms (arbitrary 3x4 real coefficients, not only rigid ones)", "why_tests_cant": "An equality of real-valued functions; a unit test evaluates it at finitely many points and a sign or index slip can vanish at all of them (identity, axis-aligned rotations, zero translations).", "anchors": ["src/types/altransform.cpp: Transform::operator*, Transform::Transform()"]}
{"id": "C02", "title": "Compound assignment agrees with the binary product, even on self", "statement": "For Transform, Rotation, Quaternion, Pose2D and Displacement, after `a *= b` the object a holds exactly what `a * b` would have returned, also when b is the very same object as a; b is otherwise unchanged. transformPreMultiply(a, b) leaves a * b in b.", "quantifier": "all operands, every arithmetic (including IEEE binary32 with NaN and infinities), both the aliased and the non-aliased call", "why_tests_cant": "The aliased call reads coefficients that earlier statements of the same call may already have overwritten; only a handful of values expose it and rounding hides it.", "anchors": ["src/types/altransform.cpp: operator*=, operator*", "src/types/alrotation.cpp: operator*=, operator*", "src/types/alquaternion.cpp: operator*=", "src/types/alpose2d.cpp: operator*=", "src/types/aldisplacement.cpp: operator*="]}
{"id": "C03", "title": "Rigid transforms have two-sided inverses", "statement": "If the rotation part of T is orthonormal, then T * T.inverse() and T.inverse() * T are the identity; transformInvertInPlace, pinv and transformInverse return the same result; transformDiff(A,B) is the X with A*X = B.", "quantifier": "all Transforms whose rotation part is orthonormal (reals)", "why_tests_cant": "An equality of real-valued functions; a unit test evaluates it at finitely many points and a sign or index slip can vanish at all of them (identity, axis-aligned rotations, zero translations).", "anchors": ["src/types/altransform.cpp: transformInverse, transformInvertInPlace, pinv, transformDiff, Transform::inverse"]}
{"id": "C04", "title": "Transforms act on points compatibly with composition", "statement": "(A*B)*p = A*(B*p), identity*p = p, and a rigid T preserves distances between points; likewise for Transform*Position2D where the z row does not matter, Rotation*Position3D, Pose2D*Position2D and unit Quaternion*Position3D.", "quantifier": "all transforms, rotations, poses, quaternions and points over the reals", "why_tests_cant": "An equality of real-valued functions; a unit test evaluates it at finitely many points and a sign or index slip can vanish at all of them (identity, axis-aligned rotations, zero translations).", "anchors": ["src/tools/altransformhelpers.cpp: operator*(Transform, Position3D), operator*(Transform, Position2D)", "src/tools/almath.cpp: operator*(Rotation, Position3D), operator*(Quaternion, Position3D), operator*(Pose2D, Position2D)"]}
{"id": "C05", "title": "Rotations are closed under every constructor and operation of the library", "statement": "Products, transposes/inverses, fromRotX/Y/Z, from3DRotation, from a unit quaternion, and from an angle and a unit direction always yield a proper rotation: orthonormal with determinant +1.", "quantifier": "all angles, all unit quaternions, all unit axes, all pairs of rotations (reals)", "why_tests_cant": "An equality of real-valued functions; a unit test evaluates it at finitely many points and a sign or index slip can vanish at all of them (identity, axis-aligned rotations, zero translations).", "anchors": ["src/types/alrotation.cpp: operator*, transpose, rotationFromRotX/Y/Z, rotationFrom3DRotation, rotationFromQuaternion, rotationFromAngleDirection", "src/types/altransform.cpp: fromRotX/Y/Z, transformFrom3DRotation"]}
{"id": "C06", "title": "Determinant is multiplicative and detects rigidity", "statement": "determinant(A*B) = determinant(A)*determinant(B); a rotation has determinant 1; determinant of a vector that does not have 12 or 16 values is 0.", "quantifier": "all transforms/rotations, vectors of every length", "why_tests_cant": "An equality of real-valued functions; a unit test evaluates it at finitely many points and a sign or index slip can vanish at all of them (identity, axis-aligned rotations, zero translations).", "anchors": ["src/types/altransform.cpp: determinant", "src/types/alrotation.cpp: determinant"]}
{"id": "C07", "title": "isTransform / isRotation accept exactly the near-rigid matrices", "statement": "isTransform(eps) answers true exactly when all tested dot products, norms and the determinant are within eps of those of a rotation; with eps = 0 on the reals this is exactly the proper rotations; eps is monotone. A value with NaN coefficients must not be reported as a valid transform.", "quantifier": "all coefficients, all eps >= 0, including NaN coefficients in binary32", "why_tests_cant": "The NaN case and the completeness direction (nothing but rotations is accepted at eps = 0) range over all matrices.", "anchors": ["src/types/altransform.cpp: Transform::isTransform", "src/types/alrotation.cpp: Rotation::isRotation"]}
{"id": "C08", "title": "Normalisation returns a rotation and leaves rotations alone", "statement": "normalizeTransform of any matrix yields a proper rotation part and the same translation; normalising a rigid transform does not change it; normalising twice equals normalising once.", "quantifier": "all real 3x4 matrices, including null and rank-deficient ones", "why_tests_cant": "Degenerate columns, collinear columns and the two null thresholds make a case space no sample covers.", "anchors": ["src/types/altransform.cpp: normalizeTransform", "src/types/alrotation.cpp: normalizeRotation"]}
{"id": "C09", "title": "Transform <-> vector round trips", "statement": "Building a Transform from T.toVector() gives back T when T is rigid (and never an un-normalised matrix otherwise); 12- and 16-value vectors are both accepted, any other size yields the identity; toVector's last row is 0 0 0 1; writeToVector writes the same 16 values and advances the cursor by 16.", "quantifier": "all transforms, vectors of every length", "why_tests_cant": "Ranges over every vector length and every coefficient assignment; index permutations survive symmetric samples.", "anchors": ["src/types/altransform.cpp: Transform(vector), toVector, writeToVector, transformToFloatVector", "src/types/alrotation.cpp: Rotation(vector), toVector"]}
{"id": "C10", "title": "Elementary rotations are one-parameter groups", "statement": "fromRotX(a)*fromRotX(b) = fromRotX(a+b), fromRotX(0) is the identity, fromRotX(a) fixes the x axis and its inverse is fromRotX(-a); the same for Y and Z and for Pose2D headings.", "quantifier": "all real angles", "why_tests_cant": "An equality of real-valued functions; a unit test evaluates it at finitely many points and a sign or index slip can vanish at all of them (identity, axis-aligned rotations, zero translations).", "anchors": ["src/types/altransform.cpp: transformFromRotX/Y/Z", "src/types/alrotation.cpp: rotationFromRotX/Y/Z"]}
{"id": "C11", "title": "Euler angle round trip", "statement": "For every rigid T, from3DRotation(rotation3DFromTransform(T)) reproduces the rotation part of T (also in gimbal lock), position6DFromTransform / transformFromPosition6D round-trip, and the angles are in the documented order Rz*Ry*Rx; conversely angles with |wy| < pi/2 in (-pi,pi] are recovered exactly.", "quantifier": "all rigid transforms, including cos(wy)=0", "why_tests_cant": "The singular set has measure zero and float tests never hit it exactly; recovery must hold for every rotation.", "anchors": ["src/tools/altransformhelpers.cpp: rotation3DFromTransform, rotation3DFromRotation, position6DFromTransform, transformFromPosition6D", "src/tools/almath.cpp: rotation3DFromQuaternion"]}
{"id": "C12", "title": "Quaternion algebra", "statement": "Quaternion product is associative with unit (1,0,0,0), norm is multiplicative, inverse() is the two-sided inverse of unit quaternions, normalize() returns a unit quaternion or throws exactly for the null quaternion.", "quantifier": "all quaternions (reals)", "why_tests_cant": "An equality of real-valued functions; a unit test evaluates it at finitely many points and a sign or index slip can vanish at all of them (identity, axis-aligned rotations, zero translations).", "anchors": ["src/types/alquaternion.cpp: operator*, norm, normalize, quaternionInverse", "almath/types/alquaternion.h: operator*"]}
{"id": "C13", "title": "Quaternion to rotation is a homomorphism and a round trip", "statement": "rotationFromQuaternion(p*q) = rotationFromQuaternion(p)*rotationFromQuaternion(q) for unit quaternions; q and -q give the same rotation; quaternionFromTransform returns a unit quaternion whose matrix is the one given, for every rotation including traces <= 0 and 180-degree turns; rotating a vector by quaternion or by its matrix agree.", "quantifier": "all unit quaternions, all rotation matrices (every branch of the conversion)", "why_tests_cant": "The four-branch conversion selects on the trace and the largest diagonal term; the branch boundaries and half-turns form a continuum.", "anchors": ["src/tools/altransformhelpers.cpp: quaternionFromTransform, transformFromQuaternion", "src/tools/almath.cpp: rotationFromQuaternion, operator*(Quaternion, Position3D)", "src/types/alrotation.cpp: rotationFromQuaternion"]}
{"id": "C14", "title": "Axis-angle to quaternion and back", "statement": "quaternionFromAngleAndAxisRotation(angle, axis) is the unit quaternion of the rotation of that angle about that axis, for any non-null axis as documented by its normalisation step; angleAndAxisRotationFromQuaternion recovers angle and axis.", "quantifier": "all angles and axes, unit and non-unit, over the reals", "why_tests_cant": "The discarded-normalisation defect shows only on non-unit axes.", "anchors": ["src/types/alquaternion.cpp: quaternionFromAngleAndAxisRotation, angleAndAxisRotationFromQuaternion"]}
{"id": "C15", "title": "Rotation from angle and direction is Rodrigues' rotation", "statement": "rotationFromAngleDirection(theta, d) fixes d, rotates perpendicular vectors by theta (Rodrigues formula), and throws exactly when |d|^2 is outside [0.99999, 1.00001]; transformFromRotVec agrees with it.", "quantifier": "all angles, all axes", "why_tests_cant": "An equality of real-valued functions; a unit test evaluates it at finitely many points and a sign or index slip can vanish at all of them (identity, axis-aligned rotations, zero translations).", "anchors": ["src/types/alrotation.cpp: rotationFromAngleDirection, applyRotation", "src/tools/altransformhelpers.cpp: transformFromRotVec"]}
{"id": "C16", "title": "Exponential and logarithm are inverse on the regular domain", "statement": "velocityExponential always has the angular part a rotation for |w| above its threshold; transformLogarithm followed by velocityExponential gives back T when the rotation angle is away from 0 and pi; on pure translations both are exact. Near pi the logarithm must still describe T.", "quantifier": "all rigid transforms, all velocities", "why_tests_cant": "The neighbourhood of pi about a non-principal axis and of 0 are thin regions where a generic sample never lands.", "anchors": ["src/tools/altransformhelpers.cpp: transformLogarithmInPlace, velocityExponentialInPlace, transformLogarithm, velocityExponential"]}
{"id": "C17", "title": "Interpolation meets its endpoints", "statement": "transformMean(A,B,0) = A, transformMean(A,B,1) = B, transformMean throws exactly outside [0,1], and the result is rigid.", "quantifier": "all pairs of rigid transforms and all real weights", "why_tests_cant": "Depends on exp/log inversion for all relative displacements.", "anchors": ["src/tools/altransformhelpers.cpp: transformMeanInPlace, transformMean"]}
{"id": "C18", "title": "Pose2D is a group acting on the plane", "statement": "Pose2D composition is associative with unit (0,0,0); inverse(), pose2DInverse, pinv and pose2dInvertInPlace agree and are two-sided inverses; a.diff(b) is the x with a*x = b.", "quantifier": "all planar poses over the reals", "why_tests_cant": "An equality of real-valued functions; a unit test evaluates it at finitely many points and a sign or index slip can vanish at all of them (identity, axis-aligned rotations, zero translations).", "anchors": ["src/types/alpose2d.cpp: operator*=, pose2dInvertInPlace, pose2DInverse, pinv, pose2dDiff", "almath/types/alpose2d.h: operator*"]}
{"id": "C19", "title": "Pose2D embeds in Transform", "statement": "transformFromPose2D is a homomorphism (product and inverse), pose2DFromTransform is a left inverse of it up to 2*pi on theta, and pose2DInverse commutes with the embedding.", "quantifier": "all planar poses", "why_tests_cant": "An equality of real-valued functions; a unit test evaluates it at finitely many points and a sign or index slip can vanish at all of them (identity, axis-aligned rotations, zero translations).", "anchors": ["src/tools/altransformhelpers.cpp: transformFromPose2D, pose2DFromTransform", "src/tools/almath.cpp: pose2DFromPosition6D, position6DFromPose2D"]}
{"id": "C20", "title": "Displacement is the unit-quaternion form of Transform", "statement": "Displacement composition corresponds to Transform composition through transformFromDisplacement, for unit quaternions, and displacementFromTransform is a right inverse.", "quantifier": "all displacements with unit quaternion, all rigid transforms", "why_tests_cant": "An equality of real-valued functions; a unit test evaluates it at finitely many points and a sign or index slip can vanish at all of them (identity, axis-aligned rotations, zero translations).", "anchors": ["src/types/aldisplacement.cpp: operator*=", "src/tools/altransformhelpers.cpp: transformFromDisplacement, displacementFromTransform"]}
{"id": "C21", "title": "Change of reference is conjugation by the rotation", "statement": "changeReferenceVelocity6D, changeReferencePosition6D, changeReferencePosition3D, changeReferenceTransposePosition* rotate (resp. transpose-rotate) each 3-vector, are linear, preserve norms for rigid T, and the transposed variants undo the direct ones.", "quantifier": "all rigid transforms, all vectors, output distinct from or aliased with the input", "why_tests_cant": "An equality of real-valued functions; a unit test evaluates it at finitely many points and a sign or index slip can vanish at all of them (identity, axis-aligned rotations, zero translations). With output aliased to the input the later rows read already overwritten values.", "anchors": ["src/tools/altransformhelpers.cpp: changeReference*"]}
{"id": "C22", "title": "orthogonalSpace and rotationFromAxes build right-handed frames", "statement": "orthogonalSpace(v) returns, for every non-null v, a rigid transform whose z axis is v normalised, and throws for null v; rotationFromAxesXY/XZ/YZ/XYZ return, for orthogonal unit axes, the rotation having these columns, and reject (failed assertion) axes that are not of unit length or not orthogonal within their tolerances.", "quantifier": "all vectors, including those nearly aligned with an axis", "why_tests_cant": "The branch thresholds (1e-4) make a thin region where the returned frame is not orthogonal.", "anchors": ["src/tools/altransformhelpers.cpp: orthogonalSpace, rotationFromAxesXY, rotationFromAxesXZ, rotationFromAxesYZ, rotationFromAxesXYZ"]}
{"id": "C23", "title": "axisRotationProjection keeps the axis and returns the closest rotation of that family", "statement": "The projection of a rotation on the rotations about a given axis is a rotation about that axis, is idempotent, and equals its input when the input already rotates about the axis.", "quantifier": "all unit axes and rotations", "why_tests_cant": "An index slip in one product only shows for axes and rotations with non-zero mixed terms.", "anchors": ["src/tools/altransformhelpers.cpp: axisRotationProjection, axisRotationProjectionInPlace"]}
{"id": "C24", "title": "Vector-space laws of the value types", "statement": "Position2D/3D/6D, Velocity3D/6D, Rotation3D and Pose2D with +, -, unary -, scalar * and / satisfy the vector-space laws; each compound assignment equals the corresponding binary operator; scalar multiplication commutes; the dot product is bilinear, symmetric and positive; cross product is antisymmetric and orthogonal to its arguments.", "quantifier": "all values over the reals; the compound/binary agreement for every arithmetic including binary32", "why_tests_cant": "An equality of real-valued functions; a unit test evaluates it at finitely many points and a sign or index slip can vanish at all of them (identity, axis-aligned rotations, zero translations).", "anchors": ["src/types/alposition2d.cpp", "src/types/alposition3d.cpp", "src/types/alposition6d.cpp", "src/types/alvelocity3d.cpp", "src/types/alvelocity6d.cpp", "src/types/alrotation3d.cpp"]}
{"id": "C25", "title": "Division throws exactly on zero and otherwise undoes multiplication", "statement": "v / s throws exactly when s == 0 (both signed zeros in binary32, never for NaN), leaves the object unchanged when it throws, and (v*s)/s = v over the reals; normalize() throws exactly for the null vector and otherwise returns a vector of norm 1.", "quantifier": "all vectors and scalars, including signed zero, NaN, infinities and denormals", "why_tests_cant": "Exceptional values and exception safety need every scalar.", "anchors": ["src/types/alposition2d.cpp: operator/, operator/=, normalize", "src/types/alposition3d.cpp", "src/types/alposition6d.cpp", "src/types/alvelocity3d.cpp", "src/types/alvelocity6d.cpp", "src/types/alrotation3d.cpp", "src/types/alquaternion.cpp: operator/, operator/="]}
{"id": "C26", "title": "Distance is a metric and isNear is a tolerance relation", "statement": "distance is symmetric, zero exactly on equal points, satisfies the triangle inequality, and its square is distanceSquared (for Pose2D, Position6D and Transform the distance is that of the positions alone); isNear(a,a,eps) for eps >= 0, is symmetric, monotone in eps, and componentwise (quaternions: up to the common sign); isNear never holds when a compared component is NaN.", "quantifier": "all points and tolerances; binary32 for the NaN statement", "why_tests_cant": "An equality of real-valued functions; a unit test evaluates it at finitely many points and a sign or index slip can vanish at all of them (identity, axis-aligned rotations, zero translations).", "anchors": ["src/types/alposition2d.cpp: distance, isNear", "src/types/alposition3d.cpp", "src/types/alposition6d.cpp", "src/types/alpose2d.cpp", "src/types/altransform.cpp: distance, isNear"]}
{"id": "C27", "title": "Value types round-trip through vectors", "statement": "Constructing from toVector() returns the same value; toVector has the type's fixed size whatever the size of the vector passed in; constructing from a vector of another size yields the default value (all zeros, identity for Quaternion as for its default constructor); writeToVector writes the same values and advances the cursor by that size.", "quantifier": "all values of every arithmetic, vectors of every length", "why_tests_cant": "Ranges over vector lengths and contents.", "anchors": ["src/types/*.cpp: vector constructors, toVector, writeToVector"]}
{"id": "C28", "title": "modulo2PI lands in ]-pi, pi] and stays congruent", "statement": "modulo2PI(x) differs from x by an integer multiple of 2*pi and lies in ]-pi, pi] as documented; in binary32 the reduction after fmod is exact (no rounding error is added) and a finite input gives a finite output of magnitude at most the float pi.", "quantifier": "all real angles; all finite binary32 angles", "why_tests_cant": "Half-open boundary and every float magnitude up to 3.4e38.", "anchors": ["src/tools/almath.cpp: modulo2PI, modulo2PIInPlace", "almath/tools/altrigonometry.h"]}
{"id": "C29", "title": "Mean angle is a circular mean", "statement": "meanAngle is invariant under permutation and under adding a full turn to any angle, commutes with a common rotation, returns the angle itself for a constant list, and lies in ]-pi,pi]; weightedMeanAngle is invariant under scaling of the weights, throws on mismatched sizes, on a non-positive weight, or when the resultant is too short.", "quantifier": "all lists of angles and weights of any length", "why_tests_cant": "Ranges over lists of unbounded length.", "anchors": ["src/tools/almath.cpp: meanAngle, weightedMeanAngle"]}
{"id": "C30", "title": "clipData clamps and reports exactly", "statement": "After clipData(lo,hi,x) with lo <= hi, x is in [lo,hi]; the call returns true exactly when it changed x; values inside are untouched; clipping is idempotent; the vector overloads do so for every element of any list / matrix and return whether any element changed; NaN inputs.", "quantifier": "all floats including NaN and infinities, lists of any length", "why_tests_cant": "Every float and unbounded lists.", "anchors": ["src/tools/almath.cpp: clipData"]}
{"id": "C31", "title": "Rounding to pixels and axis masks", "statement": "roundToInt(x) is the integer nearest to x for every float whose result fits in an int; isAxisMask accepts exactly the non-empty subsets of the six axes.", "quantifier": "all floats / all ints", "why_tests_cant": "The failing floats (0.49999997f and odd integers above 2^23) are isolated points among 2^32.", "anchors": ["almath/types/occupancymapparams.h: roundToInt", "src/types/alaxismask.cpp: isAxisMask"]}
{"id": "C32", "title": "Segment intersection and box collision tests are sound", "statement": "The collision answer is symmetric in its two boxes, true when they share an interior point seen by a corner or a crossing edge, false for separated boxes, and clipFootWithEllipse returns a pose inside the ellipse, touching only infeasible poses and reporting whether it changed them.", "quantifier": "all boxes (quadrilaterals) and feet poses over the reals", "why_tests_cant": "Geometric predicates over a continuum of configurations.", "anchors": ["src/tools/avoidfootcollision.cpp: xIntersectionSegment2D, xPointsInsideBox, areTwoBoxesInCollision, clipFootWithEllipse"]}
{"id": "C33", "title": "Foot collision avoidance returns a collision-free step", "statement": "When avoidFootCollision reports that it changed the move, the returned move no longer collides; when it reports no change, the move is untouched and did not collide; the returned heading is between 0 and the requested one.", "quantifier": "all foot boxes and moves", "why_tests_cant": "The dichotomy bound and the fallback case depend on the whole history of five bisection answers.", "anchors": ["src/tools/avoidfootcollision.cpp: dichotomie, avoidFootCollision"]}
{"id": "C34", "title": "Dubins solutions connect the poses", "statement": "getDubinsSolutions throws exactly when the target is closer than four radii, and otherwise returns three poses: the ends of a segment tangent to a circle of the given radius through the origin along x and to one through the target along its heading, then the target; each end is reached along its circle in the circle's own direction of turn.", "quantifier": "all targets and radii", "why_tests_cant": "Continuum of targets in four turn combinations.", "anchors": ["src/tools/aldubinscurve.cpp: getDubinsSolutions"]}
{"id": "C35", "title": "Digital filter implements its difference equation", "statement": "After configureFilter with n input and m output weights and a reset, the k-th call of processFilter returns its input as long as fewer than n inputs or m outputs are known, then the weighted sum of the last n inputs divided by the gain plus that of the last m outputs; superposition holds; a reset or a new configuration erases the history; no sequence of calls, even on a filter that was never configured, reads outside the buffers.", "quantifier": "all coefficient lists, all input sequences of any length", "why_tests_cant": "History property of unbounded streams.", "anchors": ["src/dsp/digitalfilter.cpp: configureFilter, resetFilter, processFilter"]}
{"id": "C36", "title": "PID controller computes the textbook law", "statement": "For every sequence of calls, computeFeedback returns offset + Kp*e + Ki*sum(e)*period + Kv*(e - e_prev)/period, where the errors e are command minus sensor reduced by the threshold, with the sum and previous error since the last reset and the gains last accepted; computeFeedbackAbsolute likewise with the absolute change of the error; a period passed to computeFeedback is used; construction, initialize and setGains reject exactly the negative or NaN parameters and a null period, and a rejected call leaves the controller as it was.", "quantifier": "all histories of calls and parameters", "why_tests_cant": "History property; failure atomicity.", "anchors": ["src/dsp/pidcontroller.cpp: computeFeedback, computeFeedbackAbsolute, initialize, reset"]}
{"id": "C37", "title": "Pill parameters and endpoints are mutually inverse", "statement": "Computing the pill (frame, radius, half extent) from two end points and then its end points gives back the same two points in the same order; the frame is rigid and its axis lies along the segment.", "quantifier": "all pairs of points and radii", "why_tests_cant": "An equality of real-valued functions; a unit test evaluates it at finitely many points and a sign or index slip can vanish at all of them (identity, axis-aligned rotations, zero translations).", "anchors": ["src/geometrics/shapes3d_utils.cpp: computePillParameters, getSphereCentersFromPill"]}
{"id": "C38", "title": "Occupancy map cell/position conversions round-trip", "statement": "Position from a cell then cell from the position is the cell; the conversion is affine with the map resolution and origin.", "quantifier": "all resolutions > 0, origins, and cell indices", "why_tests_cant": "An equality of real-valued functions; a unit test evaluates it at finitely many points and a sign or index slip can vanish at all of them (identity, axis-aligned rotations, zero translations).", "anchors": ["src/types/occupancymapparams.cpp", "almath/types/occupancymapparams.h"]}
{"id": "C39", "title": "Point-mass inertia is the parallel axis term", "statement": "pointMassRotationalInertia(m, p) is the symmetric matrix with v^T I v = m |p x v|^2 (hence positive semi-definite for m >= 0) and the vector p in its kernel.", "quantifier": "all masses and points", "why_tests_cant": "An equality of real-valued functions; a unit test evaluates it at finitely many points and a sign or index slip can vanish at all of them (identity, axis-aligned rotations, zero translations).", "anchors": ["src/tools/almath.cpp: pointMassRotationalInertia"]}
{"id": "C40", "title": "Mesh construction invariant", "statement": "After any sequence of Mesh calls, every recorded vertex refers to existing position/normal/texCoord data, the vertex array has exactly stride times the number of vertices, vertex counts add up to the closed polygons, and a call that throws leaves a mesh that still satisfies this.", "quantifier": "all finite sequences of Mesh operations, including failing ones", "why_tests_cant": "Ranges over every history of calls.", "anchors": ["src/scenegraph/mesh.cpp: Mesh"]}
{"id": "C41", "title": "Generated box meshes are well formed", "statement": "addBoxMesh and addRoundedBoxMesh add only faces of the documented number of vertices, all indices valid; the box is a closed surface with outward normals; vertices lie on the (rounded) box surface.", "quantifier": "all half extents, radii and arc subdivision counts", "why_tests_cant": "Ranges over every subdivision count and size.", "anchors": ["src/scenegraph/meshfactory.cpp: addBoxMesh, addRoundedBoxMesh"]}
{"id": "C42", "title": "Name checker only lets trees through", "statement": "Through the names-checking builder, whatever the sequence of addLink/addTransform/addStaticFrame calls, those that are accepted and forwarded describe a tree rooted at the reference frame with unique body, frame and joint names; a rejected call throws, forwards nothing and leaves the checker as it was.", "quantifier": "all finite sequences of builder calls with arbitrary names", "why_tests_cant": "Invariant over all histories.", "anchors": ["almath/scenegraph/rigidbodysystembuilder.h: RigidBodySystemBuilder::NamesChecker"]}
{"id": "C43", "title": "Builder decorators are transparent", "statement": "The inertia eraser forwards each call unchanged except rotational inertias, which become zero; the interface's overloads and the static-frame configuration flag forward exactly the calls they should, in order.", "quantifier": "all finite sequences of builder calls", "why_tests_cant": "Trace equality over all histories.", "anchors": ["almath/scenegraph/rigidbodysystembuilder.h: InertiaEraser, Decorator, Adapter, Interface"]}
{"id": "C44", "title": "URDF robot tree construction rejects malformed graphs", "statement": "Constructing a RobotTree succeeds only when joint names and link names are unique, joints refer to existing links, no link has two parents, and there is exactly one root; an accepted robot is a tree: each link is reachable from the root by exactly one path.", "quantifier": "all URDF documents (any number of links and joints)", "why_tests_cant": "Quantifies over all finite graphs, including cyclic ones.", "anchors": ["src/scenegraph/urdf.cpp: RobotTree::Impl ctor"]}
{"id": "C45", "title": "Mimic loop detection is exact", "statement": "A robot whose mimic joints form a cycle is rejected and a robot whose mimic joints form no cycle is accepted, whatever the document order.", "quantifier": "all finite sets of joints and all orders", "why_tests_cant": "Order dependence over all permutations.", "anchors": ["src/scenegraph/urdf.cpp: transitively_mimics"]}
{"id": "C46", "title": "Traversal visits every joint once, parents first", "statement": "Traversing the robot calls the visitor exactly once per joint, a parent before its children, siblings in document order; when the visitor declines a joint its subtree, and only it, is skipped.", "quantifier": "all robot trees and all visitors", "why_tests_cant": "All trees of any depth and width.", "anchors": ["src/scenegraph/urdf.cpp: walk_joint, RobotTree::traverse_joints"]}
{"id": "C47", "title": "Removing a subtree removes exactly the descendants", "statement": "removeSubTreeIfJoint removes exactly the joints satisfying the predicate and their descendants with their child links, returns their names, and what remains is a tree with the same root.", "quantifier": "all robot trees and predicates", "why_tests_cant": "All trees and predicates.", "anchors": ["src/scenegraph/urdf.cpp: removeSubTreeIfJoint, ListJointsToRemove, rm_leaf_joint"]}
{"id": "C48", "title": "Re-rooting preserves the mechanism", "statement": "define_as_root_link returns for every link of the robot that no floating or planar joint separates from the root (and throws for any other), and makes that link the root of the same undirected tree: same links, same joints between the same links. For every joint configuration the inertia and the geometry of all links are at the same places in space, up to one change of frame of the whole robot; the frames of the links that were not above the new root move with them.", "quantifier": "all robot trees, links and joint configurations", "why_tests_cant": "Global geometric invariant over all trees.", "anchors": ["src/scenegraph/urdf.cpp: define_as_root_link, flip_root_link_joint, transport_root_link_frame, flip_joint_axis"]}
{"id": "C49", "title": "Mass squashing conserves mass and first moment", "statement": "makeMasslessJointsFixed / squashFixedJointsMass conserve the total mass and the centre of mass of the robot, and the composite inertia of the merged body; links without mass lose none.", "quantifier": "all inertials and relative poses, all trees", "why_tests_cant": "Conservation over all trees and poses.", "anchors": ["src/scenegraph/urdf.cpp: squashJointMass, squashFixedJointsMass, makeMasslessJointsFixed", "almath/scenegraph/urdfeigen.h: squashInertial, urdfInertialToEigen"]}
{"id": "C50", "title": "URDF pose algebra", "statement": "Pose composition and inverse satisfy the group laws (up to the represented rigid motion); composing with the default pose returns the other operand syntactically unchanged; roll-pitch-yaw order is Rz*Ry*Rx.", "quantifier": "all poses", "why_tests_cant": "An equality of real-valued functions; a unit test evaluates it at finitely many points and a sign or index slip can vanish at all of them (identity, axis-aligned rotations, zero translations).", "anchors": ["src/scenegraph/urdf.cpp: Pose::inverse, operator*(Pose, Pose)", "almath/scenegraph/urdfeigen.h"]}
{"id": "C51", "title": "Animation curves keep their keys sorted and unique", "statement": "After any sequence of require_key calls on a curve of keys, frames are strictly increasing, every required frame is present exactly once, previous keys keep their data, and asking again returns the same key; add_label keeps labels sorted by frame, later labels after earlier ones of the same frame; a call with a negative frame changes nothing.", "quantifier": "all finite sequences of calls", "why_tests_cant": "Invariant over all histories.", "anchors": ["src/scenegraph/qianim.cpp: require_key, get_key_optional, add_label, require_actuatorcurve"]}
{"id": "C52", "title": "Bezier tangent checks are exact", "statement": "check_cubic_bezier throws exactly when a tangent abscissa leaves the interval to its neighbouring key, and check_all covers every adjacent pair of every curve.", "quantifier": "all curves of any length", "why_tests_cant": "Unbounded curve lengths.", "anchors": ["almath/scenegraph/qianim.h: Key::check_cubic_bezier, adjacent_for_each", "src/scenegraph/qianim.cpp: check_all"]}
{"id": "C53", "title": "ROS time conversion clamps and round-trips", "statement": "Converting a time point to ROS time and back is the identity on the representable range, clamps outside it, is monotone, and always produces nsec < 10^9.", "quantifier": "all 64-bit time points", "why_tests_cant": "2^64 inputs.", "anchors": ["almath/scenegraph/qirostime.h"]}
{"id": "C54", "title": "Averaging transforms", "statement": "averageTransforms of a non-empty list of equal rigid transforms is that transform; the translation of the result is the arithmetic mean of the translations; the order does not matter for the translation.", "quantifier": "all non-empty lists", "why_tests_cant": "Lists of any length.", "anchors": ["almath/scenegraph/almatheigen.h: averageTransforms"]}
{"id": "C55", "title": "Generated Collada identifiers are unique", "statement": "After any sequence of calls on Collada scene builders (construction, copy, assignment, meshes and shapes added), the document of each builder has pairwise distinct identifiers and no dangling reference, and presents exactly the objects it was given: one geometry with the positions, normals and polygons of the mesh and one node with its matrix and colour for each, in order. Textured meshes and shapes without a mesh are refused with an exception; nothing else fails.", "quantifier": "all finite sequences of calls on any number of builders", "why_tests_cant": "Histories of any length.", "anchors": ["src/scenegraph/colladascenebuilder.cpp", "src/scenegraph/colladabuilder.cpp", "src/scenegraph/scenebuilder.cpp"]}
{"id": "C56", "title": "Edited robots stay well formed", "statement": "After any history of edits of a RobotTree (removing the root joint or a leaf joint, removing subtrees, changing the root, fixing or freeing joints, squashing masses), the robot has unique names, joints between existing links, at most one parent per link and exactly one root, the one it announces; nothing is left that was not in the original document; every remaining link stays connected to the root; the document can be loaded again unless a remaining joint mimics a removed one; a history without removals keeps the total mass; no edit but define_as_root_link fails otherwise than with an exception.", "quantifier": "all documents and all finite histories of edits, with the exceptions caught on the way", "why_tests_cant": "Histories of any length on robots of any size.", "anchors": ["src/scenegraph/urdf.cpp: RobotTree::rm_root_joint, rm_leaf_joint, define_as_root_link, makeJointFixed, makeJointFloating, makeContinuousJointsFixed, removeSubTreeIfJoint, squashJointMass, squashFixedJointsMass, makeMasslessJointsFixed"]}
{"id": "C57", "title": "Building a rigid body system from a URDF document", "statement": "buildRigidBodySystemFromUrdf adds the root link, then for every joint below the root exactly one link or static frame, a parent before its children, with the names, pose and joint type of the document; a link is added for each body left after the massless joints are fixed, so that the system built has the mass and the centre of mass of the document. It throws exactly when a joint cannot be represented or the builder refuses a call; a builder that checks names accepts every well-formed robot.", "quantifier": "all documents, builders and options", "why_tests_cant": "All trees and builders.", "anchors": ["src/scenegraph/urdfrigidbodysystemtraverser.cpp: buildRigidBodySystemFromUrdf, discover, _discover", "almath/scenegraph/rigidbodysystembuilder.h"]}
{"id": "C58", "title": "Printed values show their coordinates", "statement": "What operator<< writes for a value with finite coordinates, after what the stream already had, shows exactly the coordinates, in the documented order, each correctly rounded to the precision of the stream; with nine digits for floats (17 for doubles) the text determines the value: different values have different texts. Writing a value does not change how later numbers are written.", "quantifier": "all values with finite coordinates, all streams", "why_tests_cant": "All floats, all precisions.", "anchors": ["src/tools/almathio.cpp: operator<<, toSpaceSeparated", "almath/types/qigeometry.h: operator<<"]}
{"id": "C59", "title": "Numbers and poses stored in documents read back unchanged", "statement": "A number put in a property tree is read back as the same number, the sign of zero included; three coordinates are read exactly from the texts made of three numbers separated by white space, and what is put is read back; a pose put as an origin element and read back is the same pose; elements and attributes that are absent give the documented defaults and malformed ones are refused.", "quantifier": "all finite doubles, all texts", "why_tests_cant": "All doubles, all texts.", "anchors": ["src/scenegraph/urdf.cpp: Array3dTranslator, Pose::to_ptree, Pose::from_ptree, Mimic, Joint, Inertial, Box, Cylinder, Sphere, Mesh, Visual"]}
{"id": "C60", "title": "Edits of URDF elements are what is read afterwards", "statement": "After the library has edited an element of a robot document (exchanged the links of a joint, inverted its axis, made it fixed or floating, renamed it, changed its origin, moved the frame of the root link, squashed an inertial), reading the element again gives exactly the values computed (the zeros of a null vector may change sign), and what is read elsewhere in the element is unchanged.", "quantifier": "all elements whose attributes can be read, all poses with finite results", "why_tests_cant": "All documents, all doubles.", "anchors": ["src/scenegraph/urdf.cpp: premul, flip_joint_links_fctor, flip_joint_axis, makeJointFixed, makeJointFloating, squashJointMass, transport_root_link_frame, put_name"]}
{"id": "C61", "title": "Changing the names of the files of a robot", "statement": "transform_filenames replaces by op() the names of the files of the meshes of the visuals, of the textures of their materials and of the textures of the materials of the robot, each one exactly once, and changes nothing else; it composes, and does nothing with the identity. It throws exactly when a visual has no geometry, and then the robot is unchanged.", "quantifier": "all documents, all functions on names", "why_tests_cant": "Documents of any size and shape.", "anchors": ["src/scenegraph/urdf.cpp: robot::transform_filenames"]}
{"id": "C62", "title": "Transforms of a quaternion and a vector", "statement": "The product of two qi transforms moves points as the second followed by the first, is associative and has the identity as neutral element; inverse gives the transform that undoes the motion; isNear is reflexive and symmetric, does not distinguish a quaternion from its opposite and, with tolerance 0, holds exactly for equal motions; with a tolerance, transforms that are near are close whatever their position; a rotation made from an angle and an axis is the rotation of that angle about that axis; the operations are defined on all unit transforms and on whatever they return.", "quantifier": "all transforms, angles, axes and tolerances", "why_tests_cant": "All reals, products of any length.", "anchors": ["almath/scenegraph/qigeometry.h: operator*, inverse, isNear, isNormalized, normalize, makeQuaternionFromAngleAxis"]}
{"id": "C63", "title": "Conversions between the three families of transforms", "statement": "Converting a qi transform to an almath Transform keeps its motion, hence products, inverses and identity; converting back gives the same transform, up to the sign of the quaternion; a Pose2D becomes the same motion of the plane and comes back unchanged up to full turns; copies to Eigen and back lose nothing.", "quantifier": "all transforms and poses", "why_tests_cant": "All reals.", "anchors": ["almath/scenegraph/almathqigeometry.hpp", "almath/scenegraph/almatheigen.h: toEigenMatrix3, toEigenVector3, toEigenMatrix34, toALMathTransform"]}
{"id": "C64", "title": "The printed graph of a robot", "statement": "Printing a robot tree in the dot language writes one edge per joint, from its parent link to its child link and labelled with its name, a joint before those below it and siblings in the order of the document; the text determines the graph.", "quantifier": "all documents", "why_tests_cant": "Trees of any size and names of any kind.", "anchors": ["src/scenegraph/urdf.cpp: UrdfDotPrinterVisitor, RobotTree::traverse_joints"]}
{"id": "C65", "title": "Fixing and freeing joints", "statement": "makeJointFixed and makeJointFloating change the type of that joint, erase its axis and change nothing else; makeContinuousJointsFixed does so for exactly the continuous joints of the tree and returns their names, each once; doing it again changes nothing. They throw exactly when the joint does not exist or has a type that URDF does not have.", "quantifier": "all documents and names", "why_tests_cant": "Trees of any size.", "anchors": ["src/scenegraph/urdf.cpp: makeJointFixed, makeJointFloating, makeContinuousJointsFixed"]}
{"id": "C66", "title": "Products and inverses of transforms in single precision", "statement": "In float arithmetic the product of two transforms with finite coefficients up to 2^50 has no infinity and no NaN and each coefficient is off the exact one by at most 5/2^24 of the sum of the absolute values of its terms; the inverse has exactly the transposed rotation part and a translation of the same accuracy; a transform times its inverse is the identity up to its own distance to a rotation and to 2^-18.", "quantifier": "all transforms of finite floats (IEEE binary32, round to nearest) with coefficients up to 2^50", "why_tests_cant": "About 2^384 pairs of transforms; rounding errors depend on all bits.", "anchors": ["src/types/altransform.cpp: operator*, transformInverse"]}
{"id": "C67", "title": "Errors grow linearly along a chain of transforms", "statement": "The float product of n transforms, each within d of a rigid one, has a rotation part within n(5/4 d + 2^-20) of the exact product and moves every point w to within n(5/4 d + 2^-20)(|w| + nM) of the exact image, M bounding the translations; as long as that is at most 2^-15 the product passes isTransform with its default tolerance and is rebuilt bit for bit from its own vector.", "quantifier": "all chains of any length n with n(5/4 d + 2^-20) <= 1/4", "why_tests_cant": "Chains of any length, all floats; drift only shows on long chains and adversarial values.", "anchors": ["src/types/altransform.cpp: operator*, isTransform, Transform(const std::vector<float>&)"]}
{"id": "C68", "title": "Forward kinematics in single precision", "statement": "If the cos and sin of the C library are within e of the exact values, fromRotX/Y/Z are within 2e of the exact rotations, the transform of a Position6D within 7e + 2^-19 of the exact one with exactly its translation, and the product of n of them moves every point w as the exact rigid transforms do, up to n(9e + 2^-18)(|w| + nM).", "quantifier": "all cos and sin functions of accuracy e <= 1/100, all finite angles and positions, any number of joints", "why_tests_cant": "All angles, all chains, all C libraries.", "anchors": ["src/types/altransform.cpp: Transform::fromRotX, fromRotY, fromRotZ, from3DRotation, fromPosition"]}
{"id": "C69", "title": "Norms, distances and unit vectors in single precision", "statement": "For vectors of floats of norm between 2^-50 and 2^50 the norm is within 3/2^24 of the exact norm and the distance within 5/2^24 of the exact distance, relatively, without cancellation; normalize returns a vector within 6/2^24 of the exact unit vector, which isUnitVector accepts; dot and cross products are within 4/2^24 of the sum of the absolute values of their terms. Nothing of the kind holds outside that range.", "quantifier": "all vectors of finite floats with norms in that range", "why_tests_cant": "About 2^96 vectors.", "anchors": ["src/types/alposition3d.cpp: norm, normalize, distance, dotProduct, crossProduct, isUnitVector"]}
{"id": "C70", "title": "Planar moves and odometry in single precision", "statement": "If the cos and sin of the C library are within e of the exact values, the float product of two planar poses is the exact one up to 4/2^24 of the lengths plus e times the length of the move; the operator *=, which adds in another order, agrees with it up to 7/2^24 of the lengths and gives the same heading; the inverse is as accurate and has exactly the opposite heading. After n moves of at most M along x and y and T in heading the heading is exact up to n^2 T/2^24 and the position up to n M (2e + n^2 T/2^23 + n/2^20).", "quantifier": "all cos and sin functions of accuracy e <= 1/100, all finite poses up to 2^50, any number of moves", "why_tests_cant": "About 2^192 pairs of poses, any number of moves.", "anchors": ["src/types/alpose2d.cpp: operator*, operator*=, inverse"]}
{"id": "C71", "title": "Quaternions in single precision", "statement": "The float product of two quaternions of norm up to 2^50 is within 10/2^24 of the product of the norms of Hamilton's product; the product of n quaternions, each within d of a unit one, is within n(5/4 d + 2^-20) of the exact product, and its rotation matrix within nine times that of the exact rotation; the inverse is exact; normalize does not throw, returns the direction up to 2^-22, and at most doubles the distance to the exact attitude; the quaternion of an angle and an axis is within d + 3e + 2^-22 of the exact one; rotating a vector is right to (11 d + 2^-16) of its length.", "quantifier": "all quaternions of finite floats in those ranges, any number of factors, all cos and sin functions of accuracy e <= 1/100", "why_tests_cant": "About 2^256 pairs of quaternions, products of any length.", "anchors": ["src/types/alquaternion.cpp: operator*, norm, normalize, inverse, quaternionFromAngleAndAxisRotation", "src/tools/almath.cpp: operator*(Quaternion, Position3D), rotationFromQuaternion", "src/tools/altransformhelpers.cpp: transformFromQuaternion"]}
{"id": "C72", "title": "Equality operators compare every number, as IEEE does", "statement": "For Position2D, Position3D, Position6D, Velocity3D, Velocity6D, Rotation3D, Pose2D, Quaternion, Rotation and Transform, a == b is true exactly when each number of a is the same as the one of b: over the reals this is equality of values; in single precision a NaN anywhere makes it false, also for a == a, and +0 and -0 are the same. a != b is the contrary of a == b. The value constructed from one number holds it everywhere; the default one holds zeros, and is the zero of the addition.", "quantifier": "all pairs of values of the ten types, in exact arithmetic and in IEEE binary32 with NaN, infinities and signed zeros", "why_tests_cant": "A field left out of a comparison, or compared twice, is invisible to every test in which the other fields already decide; NaN and signed zeros are rarely in test data.", "anchors": ["src/types/alposition2d.cpp: operator==, operator!=, Position2D(float)", "src/types/alposition3d.cpp, alposition6d.cpp, alvelocity3d.cpp, alvelocity6d.cpp, alrotation3d.cpp, alpose2d.cpp, alquaternion.cpp, alrotation.cpp, altransform.cpp: operator==, operator!="]}
{"id": "C73", "title": "Polar coordinates", "statement": "fromPolarCoordinates(r, t) is at distance |r| of the origin; for r > 0 getAngle gives t back up to whole turns, and t itself for -pi < t <= pi; every point, also the origin, is rebuilt from its norm and getAngle, which is in ]-pi, pi], does not depend on the scale, and is the only angle with that property. A Pose2D made so looks in direction t.", "quantifier": "all radii, all angles, all points of the plane (reals)", "why_tests_cant": "An identity over the whole plane with a cut along the negative axis: tests take a few points per quadrant.", "anchors": ["src/types/alposition2d.cpp: fromPolarCoordinates, getAngle, norm", "src/types/alpose2d.cpp: fromPolarCoordinates, getAngle"]}
{"id": "C74", "title": "Differential motion between two transforms", "statement": "position6DFromTransformDiff(current, target) gives the difference of the translations, and the vector sin(th) u when the rotation from current to target is of angle th about the unit vector u. It is thus an approximation of the displacement: the angular part is within th^3/6 of the rotation vector th u and each point v of the frame ends within (1 - cos th)|v| of its place for target. Exchanging the arguments changes the sign. It is null exactly when the origins are the same and the relative rotation is null or half a turn.", "quantifier": "all pairs of rigid transforms, all angles from 0 to pi and axes, all points", "why_tests_cant": "An equality of real-valued functions; a unit test evaluates it at finitely many points and a sign or index slip can vanish at all of them (identity, axis-aligned rotations, zero translations).", "anchors": ["src/tools/altransformhelpers.cpp: position6DFromTransformDiff, position6DFromTransformDiffInPlace", "almath/tools/altransformhelpers.h: position6DFromTransformDiff"]}
{"id": "C75", "title": "Conversions between value types keep the motion", "statement": "A transform built from a rotation and a position moves a point by the rotation then the translation, gives both back, and is rigid exactly when the rotation is one; any transform is rebuilt from its rotation and its position. Its norm is the length of its translation, the same for its inverse. A Position6D from a Position3D is the pure translation; the quaternion and position of a Position6D represent the same transform as it does.", "quantifier": "all rotations, positions, roll, pitch, yaw (reals); rebuilding in any arithmetic", "why_tests_cant": "An equality of real-valued functions; a unit test evaluates it at finitely many points and a sign or index slip can vanish at all of them (identity, axis-aligned rotations, zero translations).", "anchors": ["src/tools/altransformhelpers.cpp: transformFromRotationPosition3D, position2DFromTransform, transformFromPosition6D", "src/tools/almath.cpp: position6DFromPosition3D, position6DFromVelocity6D, quaternionPosition3DFromPosition6D", "src/types/altransform.cpp: Transform::norm"]}
{"id": "C76", "title": "Edits of a robot document change what they should and nothing else", "statement": "Reading a URDF document and editing it with RobotTree (removing joints, changing the root link or its frame, making joints fixed or floating, moving masses, in any order and number) ends as the same edits of the records read in the document: same result, same exception, and the document read again gives exactly the new records, signs of zeros included, as long as the numbers written are finite. Whatever those records do not hold (materials, limits, dynamics, geometry, unknown attributes and elements, the order of the elements) is left as it was; elements disappear only when their joint or link is removed.", "quantifier": "all documents whose joints and links can be read, with links of at most one inertial element, all histories of edits, all C library functions", "why_tests_cant": "The number of documents and of sequences of edits is not bounded, and losing an attribute nobody reads in the tests goes unnoticed.", "anchors": ["src/scenegraph/urdf.cpp: RobotTreeP, premul, transport_root_link_frame, flip_root_link_joint, define_as_root_link, makeJointFixed, makeContinuousJointsFixed, squashJointMass, squashFixedJointsMass, makeMasslessJointsFixed, removeSubTreeIfJoint"]}
{"id": "C77", "title": "Numbers written in the code keep their value", "statement": "A decimal number written in the code (a threshold, pi) is the float or double nearest to it, an int is converted to float exactly up to 2^24 and to double up to 2^53 and to the nearest float beyond, and fmod of floats is exact: a remainder of the sign of the dividend, smaller than the divisor.", "quantifier": "all decimal fractions and integers in the range of the type, all finite floats and positive divisors", "why_tests_cant": "Tests look at the few constants they compare, not at the rounding of every one.", "anchors": ["almath/tools/altrigonometry.h: PI, _2_PI_, PI_2", "src/tools/almath.cpp: modulo2PIInPlace"]}
{"id": "C78", "title": "Rounding errors of the digital filter do not pile up", "statement": "With output weights summing to less than one in magnitude, the single precision digital filter gives for every sequence of inputs, however long, finite outputs within one fixed distance (a few units in the last place per weight, divided by one minus the sum of the output weights) of the exact solution of its difference equation.", "quantifier": "all finite weights with a contracting feedback, all finite non-zero gains, all sequences of bounded finite inputs of any length", "why_tests_cant": "A test runs the filter over a few hundred samples; a drift shows after millions.", "anchors": ["almath/dsp/digitalfilter.h: DigitalFilter", "src/dsp/digitalfilter.cpp: DigitalFilter::processFilter"]}
{"id": "C79", "title": "PID feedback in single precision stays close to the textbook law", "statement": "After any sequence of at most N (up to 4 million) calls with bounded commands and measures, the feedback of the single precision controller is finite and within an explicit distance of the textbook PID law evaluated exactly: a few units in the last place per term, the integral term losing at most N units in the last place of its bound.", "quantifier": "all finite parameters accepted by the constructor, all sequences of finite commands and measures bounded by M", "why_tests_cant": "Tests run a few steps with round numbers; the integral accumulates rounding errors over hours of control.", "anchors": ["almath/dsp/pidcontroller.h: PIDController", "src/dsp/pidcontroller.cpp: PIDController::computeFeedback"]}
{"id": "C80", "title": "Merged bodies in double precision keep the mass and the centre", "statement": "In double precision, squashFixedJointsMass and makeMasslessJointsFixed succeed on every well formed robot with non-negative finite masses, and the sum of the masses changes by at most one rounding (a factor between 1-2^-53 and 1+2^-53) per joint; squashInertial puts the centre of mass of two bodies within five roundings of the exact weighted mean, along each axis.", "quantifier": "all robots, with any number of links and joints, all finite non-negative masses whose sum is not next to overflow; all pairs of bodies of total mass between 2^-400 and 2^400", "why_tests_cant": "All doubles, all trees, all orders of merging.", "anchors": ["src/scenegraph/urdf.cpp: squashFixedJointsMass, makeMasslessJointsFixed", "almath/scenegraph/urdfeigen.h: squashInertial"]}
{"id": "C81", "title": "Clipping a step to an ellipse in single precision", "statement": "In single precision clipFootWithEllipse keeps every move inside the ellipse, clips every move which is outside by more than 1.1e-5, and puts clipped moves on the ellipse up to 2^-20, in the direction of the request, without infinities or NaN; clipping twice is clipping once, bit for bit.", "quantifier": "all half axes between 2^-20 and 2^20 m of any sign, all moves up to 2^40 m, all library functions cos, sin, atan2 with errors up to 1/100", "why_tests_cant": "All floats; whether a clipped move passes the test of the next call depends on the last bits.", "anchors": ["src/tools/avoidfootcollision.cpp: clipFootWithEllipse"]}
{"id": "C82", "title": "Crossing segments and points in boxes in single precision", "statement": "In single precision intersectionSegment2D decides rightly, and returns the crossing point accurately, for segments of coordinates up to 1 except when the crossing is at an end of a segment up to a margin, inversely proportional to the cross product of the directions and, along the first segment, to its extent along x; nearly vertical first segments do have crossings missed or reported off by a centimetre. The test of a point in a convex box is right whenever the point is further from the sides than a relative margin.", "quantifier": "all finite float coordinates in the stated ranges, all boxes with any number of corners", "why_tests_cant": "The answers near the boundaries depend on the last bits of all the coordinates.", "anchors": ["src/tools/avoidfootcollision.cpp: intersectionSegment2D, xPointsInsideBox"]}
{"id": "C83", "title": "Displacements in single precision", "statement": "A product of n Displacements in single precision, each standing for a rigid motion up to an error d on its quaternion, stands for the composition of the n motions: the error on the quaternion grows linearly with n and the error on the position quadratically, with stated constants, and no infinity or NaN appears; the Transform made of the product moves every point where the n motions move it, up to the same errors.", "quantifier": "all lists of displacements of any length n with n (5/4 d + 2^-20) <= 1/100 and translations up to 2^30", "why_tests_cant": "The errors of thousands of roundings pile up in ways no sample of products shows.", "anchors": ["src/types/aldisplacement.cpp: operator*=, operator*", "src/types/alquaternion.cpp: operator*", "src/tools/altransformhelpers.cpp: transformFromDisplacement"]}
{"id": "C84", "title": "Change of reference in single precision", "statement": "In single precision every function of the changeReference family turns positions, velocities and angular velocities by the rotation its transform stands for (the inverse one for the transposed variants), up to the error of the transform plus 2^-21 of their length, writes nothing but its output and makes no infinity or NaN; going to the other frame and back returns the position up to a stated relative error.", "quantifier": "all transforms of floats within 1/5 of a rotation, all finite vectors up to 2^50, all memories with an output distinct from the input", "why_tests_cant": "All floats; the errors depend on the last bits of fifteen numbers.", "anchors": ["src/tools/altransformhelpers.cpp: changeReferencePosition3D, changeReferenceVelocity6D, changeReferencePosition6D, changeReferenceTransposePosition3D, changeReferenceTransposeVelocity6D, changeReferenceTransposePosition6D, changeReferencePosition3DInPlace, changeReferenceTransposePosition3DInPlace"]}
{"id": "C85", "title": "Rotations of an angle about an axis in single precision", "statement": "Built from an angle and an axis of floats within d of a unit vector u, a rotation matrix is made of finite numbers and is the matrix of the rotation of that angle about u (Rodrigues' formula) up to 21 d + 9 e + 2^-18, e being the accuracy of cos and sin; an axis whose squared length differs from 1 by 2/100000 or more is refused with an exception, and one within 2^-20 of a unit vector never is.", "quantifier": "all finite angles, all unit vectors u and all axes of floats within d <= 2^-20 of them; for the refusal all finite axes with squared length up to 2^100", "why_tests_cant": "All floats; whether an axis is refused depends on its last bits.", "anchors": ["src/types/alrotation.cpp: rotationFromAngleDirection, Rotation::fromAngleDirection"]}
