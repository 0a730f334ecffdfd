# Formal model of phausamann/rigid-body-motion in Rocq (Coq 8.16.1)

## 1. Approach

The model is a shallow Gallina embedding of the Python code, function by
function and branch by branch, exceptions as values (`res A := Ok a | Raise e`).
Each model definition cites the file and lines in /repo it models and says where
it simplifies.

| part of /repo | model files | specification | proofs | properties |
|---|---|---|---|---|
| registry, forest, constructor (`reference_frames.py:15-265, 312-317, 1323-1336`, anytree) | `Base`, `NdArray`, `Frames` | `SpecForest` | `FrameProofs`, `WalkProofs`, `RegistryProofs`, `CtorProofs`, `InverseProofs` | `PropForest`, `PropLookup` |
| `TransformMatcher` (`core.py:25-315`), lookups | `Quat`, `Matcher` | `SpecQuat`, `SpecLookup` | `QuatProofs`, `LookupProofs`, `MovingProofs`, `TimeProofs`, `RouteProofs` | `PropLookup`, `PropMoving` |
| array transforms (`reference_frames.py:267-300, 590-775`), `rotate_vectors` (`utils.py:196-263`) | `Transform` | `SpecArray` | `NdProofs`, `RotProofs`, `ArrProofs`, `ArrTransProofs`, `ArrStaticProofs` | `PropTransform`, `PropRotate` |
| quaternion utilities (`utils.py:20-133, 266-383`), `_resolve_axis` | `Utils` | `SpecQuat` | `UtilsProofs`, `EulerProofs` | `PropUtils` |
| `coordinate_systems.py` | `Coord` | in `PropCoord` | `PropCoord` | `PropCoord` |
| velocity estimation (`core.py:726-830`, `estimators.py:63-233`) | `Velocity` | `SpecMotion` | `VelProofs`, `MotionProofs` | `PropVelocity`, `PropAngular` |
| velocity lookups and transforms (`reference_frames.py:303-310, 778-1300`) | `VelFrames` | `SpecMotion` | `VelFrameProofs`, `VelExamples` | `PropVelFrames` |
| estimators (`estimators.py:236-524`) | `Estim` | `SpecEstim` | `EstimProofs`, `SvdExist`, `ArcProofs`, `IcpProofs` | `PropEstim` |
| top-level functions and DataArrays (`core.py:356-654`, `__init__.py`) | `TopLevel` | `SpecTop` | `TopProofs`, `TopStep` | `PropTop`, `PropCoordTop`, `PropAxis` |
| alternative constructors (`reference_frames.py:335-542`) | `FrameCtors` | in `PropCtors` | `PropCtors` | `PropCtors` |
| `utils.py:136-193` (qinterp), `accessors.py` | `Qinterp` | in the `Prop` files | `PropQinterp`, `PropAccess` | `PropQinterp`, `PropAccess` |
| `core.py` (`_transform` with `what`, velocity DataArrays), `__init__.py` (velocity functions) | `TopVel` | `SpecTop`, in `PropTopVel` | `PropTopVel` | `PropTopVel` |
| `ros/transformer.py` (buffer and lookups; tf2's BufferCore, TimeCache and tf2_geometry_msgs/PyKDL are outside /repo and modelled from their source) | `Tf2` | `SpecTf2` | `Tf2Proofs`, `Tf2Walk`, `Tf2Load`, `Tf2Agree` | `PropTf2`, `Tf2Examples` |
| `utils.py` rotate_vectors (all arguments) | `Rotate` | in `PropRotateAll` | | `PropRotateAll` |
| `plotting.py` (what is drawn and the limits; not the drawing itself, figure creation, colours and formats) | `Plot` | in `PropPlot` | | `PropPlot` |
| `io.py` (the parsed csv; not pandas' parsing) | `Optitrack` | in `PropOptitrack` | | `PropOptitrack` |
| `ros/io.py` export | `Export` | in `PropDataset` | | `PropDataset` |
| `ros/visualization.py` (markers and the publisher's constructor) | `Viz` | in `PropViz` | `PropViz` | `PropViz` |
| `estimators.py` on DataArrays (63–524) | `TopEstim.v` | `SpecTop.v`, `SpecEstim.v`, first sections of the props | in the props | `PropTopEstim.v`, `PropTopFit.v` |
| `core.py` angular velocity modes and outliers (728–793) | `RotVec.v` | `SpecMotion.v`, first sections of the props | in the props | `PropRotVec.v`, `PropRotOut.v` |
| datetime64 → float64 conversions (`core.py` 37, 68–74, 739, 802; `ros/io.py` 357) | `DateTime.v` (Flocq) | first definitions of the props | in the props | `PropDateTime.v` |
| `ros/utils.py` 9–56, 89–118 | `RosUtils.v` | first definitions of the props | in the props | `PropRosUtils.v` |
| `core.py` 788–789, 816–817 (with scipy's `butter`, `filtfilt`) | `Filter.v` | `filtered` and first definitions of the props | `FilterProofs`, `FreqProofs`, `ResponseProofs` | `PropFilter.v`, `PropResponse.v` |
| numpy-quaternion's `squad`, called at `core.py` 71–77, 95–105, `utils.py` 183 | `Squad.v` | first definitions of the prop (`steady_motion`, `recorded`, `actual`, `records`) | `SquadProofs` | `PropSquad.v`, `PropSquadEx.v` |
| numpy-quaternion's `derivative` (scipy's interpolating cubic spline), called at `core.py` 761 | `Spline.v` | `is_spline`, `spline_slopes`, `spline_derivative` in `Spline.v` | `Taylor`, `SplineProofs`, `SplineError` | `PropConverge.v` |
| `reference_frames.py` `transform_vectors`, `transform_points` and `core.py` `_resample_array` on arrays with NaN | `NanArr.v` | `missing`, `holds`, `lost`, `neighbour`, `image_nan` in `PropNan.v` | in `PropNan.v` | `PropNan.v` |
| `reference_frames.py` `lookup_linear_velocity`, `lookup_angular_velocity`, `lookup_twist` with `cutoff`, `outlier_thresh`, `mode` | `LookVelOpts.v` | `turned`, `translations`, `rotations` in `PropLookOpts.v` | in `PropLookOpts.v` | `PropLookOpts.v` |
| `testing.py` `make_test_motion` (not the timestamps) | `TestMotion.v` | `swing`, `direction`, `rotates_by` in `PropTestMotion.v` | in `PropTestMotion.v` | `PropTestMotion.v`, `PropTestMotionEx.v` |
| `reference_frames.py` `transform_quaternions` and `core.py` `_resample_array` on arrays with NaN | `NanQuat.v` | `missing4`, `holds4`, `lost4`, `around`, `image_nan4` in `PropNanQuat.v` | in `PropNanQuat.v` | `PropNanQuat.v` |
| `ros/msg.py` | `RosMsg` | in `PropRosMsg` | `PropRosMsg` | `PropRosMsg` |
| `ros/io.py` | `Rosbag` | in `PropRosbag` | `PropRosbag`, `PropCache` | `PropRosbag`, `PropCache` |
| `ros/transformer.py`, `ros/visualization.py`, `ros/utils.py` | `Broadcast`, `Spin`, `TfTree` | in the `Prop` files | same | `PropBroadcast`, `PropMarker`, `PropSpin`, `PropTfTree` |

Specifications are independent of the model's helpers: Hamilton's product in
scalar/vector form, the sandwich rotation, Rodrigues' formula, "coordinates of a
point pushed up to an ancestor", sums of squares, derivatives of curves. Each
`Prop*.v` file starts with its own small specification section where needed, and
has an `Example` per theorem that shows a non-trivial case meeting the hypotheses.
`Examples.v` holds the concrete frames used there.

When the code violates a property, the full statement is refuted by a
`..._refuted` theorem with a concrete witness (or for every input of a class), and
the part of the property that does hold is a `..._partial` theorem; the manifest
says "partial".

`seeded/LOG.jsonl` records the wrong programs the theorems were tested against:
an edit of a model definition in a scratch copy, rebuilt with every broken proof
admitted, so that the list of failing theorems is complete.

## 2. Trusted base

* Coq's kernel (8.16.1) and its standard library. The axioms are those of the
  standard library's real numbers: `ClassicalDedekindReals.sig_forall_dec`,
  `ClassicalDedekindReals.sig_not_dec`,
  `FunctionalExtensionality.functional_extensionality_dep`, and
  `Classical_Prop.classic` where a stdlib lemma on reals uses it. Section 5 lists
  them theorem by theorem. Nearly every theorem lists the reals' axioms, also the
  ones about registry and tree, because frames store real-valued transforms.
* Libraries: Flocq's `Core` (no axioms of its own) for float64 rounding in C76.
* **Scalars**: float64 is modelled by exact reals. Rounding (but see C76), overflow,
  infinities and the `eps` shortcut of numpy-quaternion are outside the model.
  A NaN produced by 0/0 or x/0 is modelled as the pseudo-exception `NaNValue`
  ("the returned array contains NaN/inf"), or as an `option` entry where NaN is a
  legitimate output (angular velocity). Timestamps are reals; for datetime64 they
  are numbers of nanoseconds. ROS times are integers (secs, nsecs), with
  `Time.from_sec` truncating; the netCDF cache rounds to int32 multiples of 1e-4.
* **Library semantics written from knowledge of the libraries' documentation and
  source** (none is installed here): numpy (indexing, broadcasting, swapaxes,
  tile, gradient, searchsorted, unique, views), scipy `interp1d` (linear), anytree
  (`NodeMixin.parent`, `Walker`, `PreOrderIter`), numpy-quaternion
  (`rotate_vectors`, division, product, `from_rotation_vector`), xarray
  (dims/coords/attrs as finite maps), pandas `get_loc(method="nearest")`, rospy
  `Time`, rosbag (a list of timestamped messages ordered on reading).
* **Oracles** (explicit function parameters; their contracts are hypotheses of
  the theorems and each contract has a proved instance): `squad` (the installed function satisfies its
  contract: `C79_contract`; the theorems named `*_closed` in the `Closed*.v` files state the main
  results for it, without the hypotheses), quaternion
  `derivative` (specified as the interpolating cubic spline in C80, where `C80_contract` shows that
  the specification determines the result and can be met), `svd` (`SvdExist.some_svd_ok`), `from_rotation_matrix`
  (`shepperd_ok`), `eig`, nearest neighbour search (`nearest_first_ok`), message
  serialization.
* **Threads** (`Spin`): attribute reads and writes are atomic (CPython), each
  statement of the loop is one step.

## 3. Not modelled

* docs, `check_install.py`, `ExampleDataStore` downloads, `get_ros3d_widget`; of
  ipywidgets only the slider and the buttons, of matplotlib only what C65 needs;
* the ROS middleware itself (topics; tf2's buffer is modelled for C63 from its own
  source);
* `__del__`, direct assignment of frame attributes other than `parent`;
* floating point rounding, except the conversion of datetime timestamps (`DateTime.v`,
  C76) and the netCDF cache (C47).

## 4. Property by property

| id | status | files | what is modelled and how it is proved |
|----|----|----|----|
| C01 | proved | `PropForest` | heap of nodes with parent/children, anytree's setter, all API calls; invariant by induction on the call sequence |
| C02 | proved | `PropForest` | registry as insertion-ordered map; invariant |
| C03 | proved | `PropForest` | `_register`, `register_frame`; direct from one step in every reachable state |
| C04 | partial | `PropForest` | order of effects in the constructor; refuted (half-built child stays attached); partial: registry, parents and lookups unchanged |
| C05 | proved | `PropForest` | `_register(update=True)`; frame conditions and invariance of walks |
| C06 | partial | `PropForest` | same; refuted when registered under its own name; partial otherwise |
| C07 | partial | `PropForest` | `_deregister`, `clear`; frame conditions; the clause on `rf.deregister()` refuted |
| C08 | proved | `PropLookup` | `_walk` and the static path of TransformMatcher; induction over the path against the relation "coordinates pushed up" |
| C09 | proved | `PropLookup` | walk from a frame to itself |
| C10 | proved | `PropLookup` | group of rigid transforms along the path |
| C11 | proved | `PropLookup` | same |
| C12 | proved | `PropForest` | two trees have no walk; success by induction over the path |
| C13 | proved | `PropTransform` | static transforms; algebra over R |
| C14 | proved | `PropTransform` | same |
| C15 | proved | `ClosedLookup`, `PropLookup` | `_init_arrays(inverse=True)`; algebra, squad exact at its samples |
| C16 | proved | `PropLookup` | `_init_arrays`, `_verify_root`; case analysis on shapes |
| C17 | proved | `ClosedMoving`, `PropMoving` | `get_transformation` on moving frames; induction over the frames of the route |
| C18 | proved | `ClosedMoving`, `PropMoving` | `get_range`, `get_timestamps`; sorting and filtering lemmas |
| C19 | proved | `PropMoving` | `_transform_from_frame` of discrete frames; induction over events |
| C20 | proved | `PropMoving` | interp1d model; searchsorted on increasing grids |
| C21 | partial | `PropMoving` | array formula of rotate_vectors; refuted for non-unit rotations, proved for unit ones |
| C22 | proved | `ClosedTransform`, `PropTransform` | n-d array model of the three transforms; index algebra |
| C23 | partial | `PropAxisFour`, `PropAxisMoving`, `PropRotate` | Index algebra on n-d arrays (exchange of axes versus insertion of an axis); static frames from the looked-up transform, moving frames from the rows shared by all arrays with the same timestamps; where the last axis has length four, the interpolation of quaternions of any length is shown to return the sample at a sample time; counterexamples by evaluation and by the shape check. |
| C24 | partial | `PropRotate` | time_axis without timestamps; refuted, partial |
| C25 | partial | `PropRotate` | positions of quaternions and vectors; refuted, partial |
| C26 | partial | `PropRotate` | Rodrigues' formula, trigonometry; non-unit clause refuted |
| C27 | proved | `PropUtils` | `qinv`, `qmul`; algebra, induction over the argument list |
| C28 | partial | `PropUtils` | `qmean` with eig oracle; Cauchy-Schwarz; batch clause refuted |
| C29 | partial | `PropUtils` | `from_euler_angles`; trigonometry, case analysis on order strings; longer orders refuted |
| C30 | proved | `PropCoord` | own atan2; real trigonometry |
| C31 | partial | `PropCoord` | same |
| C32 | proved | `ClosedVelFrames`, `PropVelFrames`, `PropVelocity` | np.gradient model; field, list induction |
| C33 | partial | `PropVelocity` | masking and resampling; partial, refuted clauses |
| C34 | proved | `ClosedVelFrames`, `PropAngular`, `PropVelFrames` | derivatives of quaternion curves (`derivable_pt_lim`) |
| C35 | proved | `ClosedVelFrames`, `PropVelFrames` | product rule for composed rotations |
| C36 | proved | `ClosedVelFrames`, `PropVelFrames` | product rule with lever arm |
| C37 | partial | `ClosedVelFrames`, `PropVelFrames` | flag handling of the velocity lookups; refuted clause |
| C38 | partial | `PropEstim` | shortest arc; refuted for antiparallel vectors |
| C39 | proved | `PropEstim` | Kabsch: trace bound from the SVD |
| C40 | partial | `PropEstim` | same; refuted for reflections, partial |
| C41 | proved | `PropEstim` | ICP loop; induction on iterations |
| C42 | partial | `PropAxis` | top-level functions on plain arrays; axis=0 refuted where `axis or -1` is used |
| C43 | proved | `PropTop` | one DataArray transform, induction over chains |
| C44 | partial | `ClosedPose`, `PropPose`, `PropPoseLabels`, `PropTop` | labels of looked-up datasets: refuted for lookup_transform; for lookup_pose static routes by C11, moving routes by the labelled-series lemma of C69 composed with the lookup relation of C68, single poses by C70 |
| C45 | proved | `PropRosMsg` | message codecs; structural |
| C46 | partial | `PropRosbag`, `PropTopics` | write and read of bags; induction over samples, truncation bound |
| C47 | partial | `PropCache` | cache file per topic; refuted, partial |
| C48 | partial | `PropMarker` | sub-sampling by stride; refuted, exact characterisation |
| C49 | partial | `PropBroadcast` | publish(idx); refuted for idx 0 after spinning and float timestamps |
| C50 | partial | `PropSpin` | interleavings of spinning threads; measure argument on fair infinite schedules; races refuted |
| C51 | proved | `PropUtils` | `_resolve_axis`; lia |
| C52 | partial | `PropTfTree` | tree traversal handed to tf2; preorder invariant; refuted for incomplete children |
| C53 | partial | `PropMarker` | buttons; induction over click sequences; refuted at the last index |
| C54 | proved | `PropBroadcast` | rounds of the loop; induction over rounds |
| C55 | proved | `PropCoordTop` | `_replace_dim`, conversions; case analysis |
| C56 | proved | `PropMarker` | marker publisher; induction over calls |
| C57 | proved | `PropBroadcast` | handle_incoming_msg; nearest index lemma, induction over messages |
| C58 | partial | `PropCache` | crash points of the cache write; refuted, partial |
| C59 | partial | `ClosedCtors`, `PropCtors` | alternative constructors; reduction to new_frame and the child lookups of C15/C17 |
| C60 | proved | `PropQinterp` | axis permutations of an index function; every series of the result is the series of the input (list extensionality), relative to one-dimensional squad |
| C61 | proved | `PropAccess` | accessor on labelled arrays with an attrs heap; reduction to C60 and C27 |
| C62 | partial | `ClosedTopVel`, `PropTopVel`, `PropTopVelCoords` | labels and values of the lookups from C34/C32/C37; transforms: unpacking, coordinate resampling and relabelling around the frame's method (C35, C36); refuted by two labelled arrays of the same vector whose transforms disagree |
| C63 | partial | `PropTf2`, `Tf2Examples` | tf2 buffer, caches and walks modelled from tf2's source; the loaded buffer is characterised by induction over the calls, its walk computes the same product of edges as the library's; refuted for discrete frames between events, samples at time 0, a tree of one frame and non-unit rotations |
| C64 | partial | `PropRotateAll` | array arithmetic on positions (put/insert) for the swapped axes; refuted by a 4 x 2 x 2 array with qaxis = 0 |
| C65 | partial | `PropPlot` | axes reduced to limits and autoscale flags, autoscaling as an oracle with a contract; arrows from C22 and C64; refuted by a concrete frame and, for every axes, by a second plot |
| C66 | partial | `PropOptitrack` | the file as labelled columns; per body the three columns are found by filtering, orientations by C29; refuted by small exports |
| C67 | partial | `PropDataset` | induction over the messages; times exact because stamps are whole nanoseconds; round trip from C46 |
| C68 | proved | `ClosedConsist`, `PropConsist` | a relation "transform from i to j at time x" (product of the frames' own transforms up to a common ancestor) is shown unique, symmetric and transitive by induction on climbs; each row of a lookup satisfies it; same timestamps from C18 by membership of the route |
| C69 | proved | `ClosedSeries`, `PropSeries` | the unpacked call is shown equal to one method call plus _make_dataarray; the call from C22 with the relation of C68 at each kept time; resampled coordinates are exact at sample times (interpolation at a node, nearest at distance 0); chain by uniqueness of that relation |
| C70 | partial | `PropPose` | the unpacked call shown equal to one method call plus _make_dataarray with a new time dimension; rows from C22_single; values at each time by the lookup relation of C68; refusal by evaluating the axis check, wrong values by a concrete series of three rows |
| C71 | proved | `PropRefuse` | case analysis of the argument checks (shapes, axes, tree walk, timestamps) before any array is touched; frame conditions on the dictionary store for every outcome (PropRefuse.v) |
| C72 | partial | `ClosedViz`, `PropColour`, `PropViz` | hex digits by a decided table; the path from C17 (coordinates of the origin at each timestamp) and the slice lemma of C48 |
| C73 | proved | `PropTopEstim` | unpacking lemma for a labelled series (unpack_timed), relabelling lemma (relabel_make), then C32 and C34 on the data |
| C74 | partial | `PropTopFit` | unpacking lemma for v1 and v2 (reshape_lab), the multiset of point pairs from C39, then the optimality lemmas of C38-C41; the refutations by evaluation |
| C75 | partial | `PropRotOut`, `PropRotVec` | the rotation vector of about_axis u a is a u for |a| < 2 pi (atan2 inverse), gradients of polynomials (grad_line, grad_parabola); generic form of C33's suppression lemmas; refutations by two-sample arrays |
| C76 | partial | `PropDateTime` | Flocq's round to nearest even with 53 bits: half-ulp error, monotonicity, and the cell of a multiple of 256 ns (Znearest_imp); error propagation through the interpolation weights and the gradient (grad_slopes) |
| C77 | partial | `PropRosUtils` | invariant over all histories of events (hooks = started masters); exact arithmetic of the mean of differences and truncation |
| C78 | partial | `PropFilter`, `PropResponse` | the filter is a homomorphism (hom_filtfilt), constant series are fixed points of the initial state; NaN never leaves the state; frequency response: stability of the recursion for products of pole pairs, steady state, |b/a|^2 by the heptagon identities |
| C79 | partial | `PropSquad` | quaternion logarithm and power as rotation about an axis (unit_about); slerp along one axis is linear in the angle; induction over the route for the tree; slerp seen from either end (slerp_local, slerp_toward) for the changes of frame; counterexamples computed |
| C80 | proved | `PropConverge` | Taylor's theorem with remainder by the mean value theorem; spline slopes solve a tridiagonal system (both ways), stable by the maximum argument, solvable by elimination; residuals of the true derivative bounded by Taylor |
| C81 | proved | `ClosedLookVel`, `PropLookVel` | C80's bounds through the lookups: gradient bounds for vectors by projection on every direction; rotations keep lengths; samples shared by both velocities by convexity of the ranges |
| C82 | partial | `ClosedNan`, `PropNan`, `PropNanMore`, `PropNanQuat` | numbers and places of NaN computed side by side; which grid interval interp1d uses at a sample; C22 for the numbers; squad with NaN propagated operation by operation shows which four samples matter |
| C83 | proved | `ClosedOpts`, `PropLookOpts` | the estimate and the transform of its rows (C82) side by side; matching of two resampled arrays with NaN; C78 for the filter |
| C84 | partial | `PropBatch` | np.tile along the axis before the coordinates, then broadcasting T poses against the first axis; a violation on a concrete recording |
| C85 | proved | `PropTestMotion` | Row by row: the exponential of a rotation vector leaves it fixed and that of the opposite vector is the conjugate; the lookup through two frames with equal timestamps composes their samples (squad at the samples, C79) |
| C86 | proved | `PropInterp`, `PropInterpDir` | slerp against the straight line in quaternion space, Taylor along unit directions for the motion, the control points of squad by second differences of logarithms; then induction over the frames on the way |
| C87 | proved | `PropClock`, `PropClockVel` | simulation: every model function commutes with the change of clock (induction over the API calls, the lists of frames and of times), for the modelled squad and spline; linearity of the array transforms for velocities |
| C88 | proved | `PropLength` | simulation: every model function commutes with the scaling of translations (induction over the API calls, the lists of frames and of times); linearity of rotation, interpolation, gradient and cross product |
| C89 | proved | `PropLocal` | induction on the climbs to the lowest common ancestor: the walk in the second state is the walk in the first; case analysis of every API call for what it changes |
| C90 | proved | `PropSignEx`, `PropSignTop` | simulation: every model function commutes with a change of sign of the quaternions of a frame (induction over the API calls, the lists of frames and of times; the modelled squad and spline are odd), the rotation of vectors and the logarithmic derivative do not see the sign |
| C91 | proved | `PropOrder`, `PropRename` | renaming of frames as a simulation: every API call commutes with a permutation of the frames (induction over the calls); creations commute up to the transposition of the two new frames; the walk between corresponding frames is the image of the walk |
| C92 | proved | `PropNames` | induction over the history with an exact one-call characterisation of the registry (every call either assigns the name or leaves it) and the per-call effect on names, transforms and parents; the answers by C89's frames on the way |

## 5. Axioms listed by Print Assumptions

For every theorem in MANIFEST.json (generated; also printed during the build at the end of each `Prop*.v`).

* **Closed under the global context (no axioms)** (23 theorems): C24_default_partial, C46_topics, C47_names, C50_partial, C50_bound_partial, C50_refuted, C50_restart_refuted, C50_subscribe_refuted, C51_int, C51_tuple, C51_none, C53_partial, C53_range, C53_refuted, C53_stuck_refuted, C56_publish, C72_every_string, C77_refused, C77_init, C77_stub, C77_exit, C77_external, C77_raise_refuted

* **sig_forall_dec** (11 theorems): C27_refuse, C48_partial, C48_refuted, C48_short_refuted, C48_static_refuted, C60_quaternions, C60_floats, C60_samples, C61_qinterp, C61_qinterp_refused, C82_arithmetic

* **functional_extensionality_dep, sig_forall_dec** (92 theorems): C18_matcher_timestamps, C19_discrete_hold, C19_event_unique, C20_interpolation, C20_frame, C27_qmul, C27_qmul_float, C27_grouping, C27_qinv, C27_qinv_product, C27_qinv_float, C28_refuted, C28_batch_refuted, C28_partial, C32_constant_velocity, C32_constant_acceleration, C32_shape, C34_body_rate, C39, C40_partial, C40_refuted, C45_transform, C45_pose, C45_twist, C45_vector, C45_point, C45_quaternion, C45_repack, C45_refused, C46_partial, C46_refused, C46_others, C46_refuted, C46_empty_refuted, C46_listed, C46_written_topics, C47_partial, C47_rounded_partial, C47_errors, C47_refuted, C47_bags_refuted, C47_values_refuted, C49_partial, C49_current, C49_refused, C49_static, C49_refuted, C49_float_refuted, C53_publishes, C54_spin, C54_resume, C54_empty, C57_follow, C57_static, C58_refuted, C58_partial, C60_in_range, C61_qinv, C61_qinv_refused, C64_all, C65_points_partial, C65_points_refused, C65_points_refuted, C65_vectors, C65_vectors_refused, C67_odometry, C67_transforms, C67_roundtrip, C67_export, C67_export_refuted, C72_colour, C72_short, C72_bad_digit, C72_marker_partial, C72_arrow_refuted, C72_accepted, C72_negative_refuted, C73_linear, C73_linear_exact, C73_angular, C73_angular_rate, C74_transform, C74_rotation_partial, C77_interval, C77_interval_refuted, C77_single, C80_contract, C82_interpolation, C82_rotation, C86_converges, C87_estimates, C90_one_orientation

* **functional_extensionality_dep, sig_forall_dec, sig_not_dec** (209 theorems): C01_forest, C02_registry, C03_register_refused, C03_register_frame_refused, C03_free_name_accepted, C04_refuted, C04_constructor_partial, C04_register_frame_partial, C04_no_parent_partial, C05_update_register, C05_update_register_frame, C06_refuted, C06_partial, C07_deregister_frame, C07_clear_registry, C07_object_deregister_refuted, C07_object_deregister_partial, C08_static_lookup, C08_coords_unique, C09_self_lookup, C10_inverse, C11_compose, C12_different_trees_raise, C12_same_tree_succeeds, C13_point, C13_rigid, C14_quaternions, C15_static, C15_moving, C16_with_parent, C16_without_parent, C17_moving_lookup, C17_no_bare, C18_lookup_timestamps, C18_lookup_succeeds, C19_rows, C21_refuted, C21_unit_partial, C22_static_points, C22_static_vectors, C22_static_quaternions, C22_points, C22_vectors, C22_quaternions, C22_points_succeed, C22_vectors_succeed, C22_quaternions_succeed, C22_single, C23_refuted, C23_first_refuted, C23_vectors_partial, C23_quaternions_partial, C23_move_partial, C23_vectors_moving_partial, C23_quaternions_moving_partial, C23_move_moving_partial, C24_refuted, C24_partial, C25_refuted, C25_single_partial, C25_arrays_partial, C26_refuted, C26_turn, C26_isometry, C26_scale, C26_compose, C26_arrays_partial, C29_refuted, C29_angles, C29_rpy, C29_mixed, C29_refuse_partial, C32_lookup, C33_kept_partial, C33_flagged, C33_last, C33_succeeds, C33_smooth, C33_refuted, C33_leading_lost, C33_others_refused, C34_lookup, C35_reference_frame, C35_moving_frame, C36_reference_frame, C36_moving_frame, C37_refuted, C37_static, C37_moving_partial, C37_values, C37_twist, C38_refuted, C41, C42_vectors_partial, C42_quaternions_partial, C42_points_partial, C43_chain, C44_pose_partial, C44_pose_moving, C44_pose_start, C44_transform_partial, C44_transform_moving_partial, C44_refuted, C44_pose_labels, C44_transform_labels, C49_lookup, C52_partial, C52_no_expiry, C52_refuted, C59_dataset, C59_translation, C59_rotation, C59_matrix, C59_matrix_refused, C59_missing_refused, C59_rebuild_partial, C59_rebuild_static_refuted, C62_angular, C62_linear, C62_twist, C62_errors, C62_transform, C62_coordinates, C62_angular_reference_partial, C62_angular_moving_partial, C62_linear_reference_partial, C62_linear_moving_partial, C62_representation, C62_refuted, C63_filled, C64_floats_partial, C64_pairs_partial, C64_diagonal, C64_refused, C64_qaxis_refuted, C65_frame, C65_moving, C65_visible_partial, C65_visible_refuted, C65_quaternions, C66_poses_partial, C66_refused, C66_incomplete, C66_units_refuted, C66_order_refuted, C68_compose, C68_inverse, C68_same_times, C69_series, C69_chain, C70_single_partial, C70_named_refused, C70_named_refuted, C71_shape_refused, C71_target_refused, C71_rotate_refused, C71_top_refused, C71_inputs_kept, C72_path, C72_made, C72_root, C74_arc_refuted, C74_icp, C74_plain, C78_superposition, C78_rotation, C78_constant_velocity, C78_linear_defined, C78_constant_rate, C78_gain, C78_outlier_refuted, C78_nan_refuted, C81_reference_frame, C81_moving_frame, C81_reference_frame_linear, C81_moving_frame_linear, C82_vectors, C82_points, C82_succeed, C82_numbers, C82_static, C82_next_lost, C82_refuted, C82_single, C83_linear, C83_constant_velocity, C84_row_partial, C84_once_partial, C84_refused, C84_tiled, C85_motion, C85_refused, C87_history, C88_history, C89_between, C89_between_velocities, C89_calls, C89_calls_velocities, C89_apart, C90_history, C91_order, C91_renumbered, C91_trees, C92_names, C92_kept, C92_frames, C92_parents, C92_answers, C92_answers_velocities

* **classic, functional_extensionality_dep, sig_forall_dec, sig_not_dec** (143 theorems): C15_moving_closed, C17_moving_lookup_closed, C18_lookup_succeeds_closed, C22_points_closed, C22_vectors_closed, C22_quaternions_closed, C22_points_succeed_closed, C22_vectors_succeed_closed, C22_quaternions_succeed_closed, C22_single_closed, C23_zero_refuted, C23_any_shape_partial, C23_move_any_partial, C30_to_polar, C30_from_polar, C30_refuse, C31_to_spherical_partial, C31_from_spherical, C31_refuted, C31_refuse, C32_lookup_closed, C34_lookup_closed, C35_reference_frame_closed, C35_moving_frame_closed, C36_reference_frame_closed, C36_moving_frame_closed, C37_twist_closed, C38_partial, C42_coordinates_partial, C42_zero, C42_refuted, C42_single_refused, C44_pose_moving_closed, C44_pose_start_closed, C55_relabel, C55_keep, C55_refused, C59_dataset_closed, C59_translation_closed, C59_rotation_closed, C62_angular_closed, C62_linear_closed, C62_twist_closed, C62_representation_closed, C63_static, C63_moving_partial, C63_same, C63_available, C63_latest, C63_apply, C63_discrete_refuted, C63_zero_refuted, C63_single_refuted, C63_unit_refuted, C68_compose_closed, C68_inverse_closed, C69_series_closed, C69_chain_closed, C72_path_closed, C74_arc, C74_positions_refuted, C75_rotation_vector, C75_fixed_axis, C75_wrap_refuted, C75_axis_refuted, C75_modes, C75_outlier_partial, C75_outlier_refuted, C75_outlier_succeeds, C76_exact, C76_order, C76_distinct_refuted, C76_check_partial, C76_check_refuted, C76_interpolation, C76_close_refuted, C76_velocity, C76_stamp_partial, C76_stamp_refuted, C76_discrete, C78_cutoff, C79_contract, C79_constant_rate, C79_lookup, C79_sign_refuted, C79_half_turn, C79_parent_change, C79_child_change, C79_clock, C79_append, C80_linear, C80_angular, C80_linear_converges, C80_angular_converges, C81_linear, C81_angular, C81_twist, C81_recorded, C81_linear_closed, C81_angular_closed, C81_twist_closed, C81_reference_frame_closed, C81_moving_frame_closed, C81_reference_frame_linear_closed, C81_moving_frame_linear_closed, C81_recorded_closed, C82_quaternions, C82_quaternions_succeed, C82_quaternions_static, C82_quaternions_refuted, C82_vectors_closed, C82_points_closed, C82_succeed_closed, C82_orientations, C82_single_orientation, C83_angular, C83_twist, C83_constant_rate, C83_refused, C83_defaults, C83_linear_closed, C83_angular_closed, C83_twist_closed, C84_refuted, C85_compensated, C86_frame, C86_lookup, C86_lookup_turn, C86_points, C86_vectors, C86_orientations, C87_lookup, C87_arrays, C87_velocities, C87_transformed_velocities, C88_lookup, C88_arrays, C88_velocities, C88_transformed_velocities, C90_lookup, C90_arrays, C90_velocities, C90_transformed_velocities
