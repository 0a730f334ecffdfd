{"id": "C01", "title": "Frame forest stays well-formed", "statement": "After any sequence of API calls (including calls that raise) the frames form a forest: a frame is listed once among its parent's children and in no other frame's, a frame's parent always lists it, and following parents from any frame ends at a root.", "quantifier": "every finite sequence of constructor, register_frame, register, deregister, deregister_frame, clear_registry and parent-assignment calls, successful or raising, with any arguments", "why_tests_cant": "quantifies over unbounded call histories including interleaved failures", "anchors": ["rigid_body_motion/reference_frames.py:ReferenceFrame.__init__", "rigid_body_motion/reference_frames.py:_register", "rigid_body_motion/reference_frames.py:_deregister"]}
{"id": "C02", "title": "Registry entries carry the frame of that name", "statement": "After any sequence of API calls, every registry key occurs once and the frame stored under key n is a frame whose name is n.", "quantifier": "every finite sequence of constructor, register_frame, register, deregister, deregister_frame, clear_registry and parent-assignment calls, successful or raising, with any arguments", "why_tests_cant": "unbounded call histories", "anchors": ["rigid_body_motion/reference_frames.py:_register", "rigid_body_motion/reference_frames.py:_deregister", "rigid_body_motion/reference_frames.py:clear_registry"]}
{"id": "C03", "title": "Registering a taken name without update is refused", "statement": "register_frame / register without update=True on a name that is registered raises ValueError and the registry is exactly what it was; a nameless frame is refused the same way.", "quantifier": "every finite sequence of constructor, register_frame, register, deregister, deregister_frame, clear_registry and parent-assignment calls, successful or raising, with any arguments; every name and arguments", "why_tests_cant": "must hold in every reachable registry state", "anchors": ["rigid_body_motion/reference_frames.py:_register", "rigid_body_motion/reference_frames.py:register_frame"]}
{"id": "C04", "title": "A raising constructor or register_frame leaves no trace", "statement": "If ReferenceFrame(...) or register_frame(...) raises, then the registry and the frame tree (parents and children of all existing frames) are the same as before the call.", "quantifier": "every finite sequence of constructor, register_frame, register, deregister, deregister_frame, clear_registry and parent-assignment calls, successful or raising, with any arguments", "why_tests_cant": "the failure may occur at any of several points inside the call and in any state", "anchors": ["rigid_body_motion/reference_frames.py:ReferenceFrame.__init__", "rigid_body_motion/reference_frames.py:register_frame"]}
{"id": "C05", "title": "update=True replaces a frame and nothing else", "statement": "Registering a new frame object under a taken name with update=True makes the name resolve to the new frame, detaches the old frame from its parent, leaves every other name and every other frame's parent alone, and leaves every lookup between two frames that are not in the old frame's subtree unchanged; a lookup between a descendant of the old frame and a frame outside its subtree raises afterwards.", "quantifier": "every finite sequence of constructor, register_frame, register, deregister, deregister_frame, clear_registry and parent-assignment calls, successful or raising, with any arguments; all pairs of frames", "why_tests_cant": "all tree shapes, all pairs of frames", "anchors": ["rigid_body_motion/reference_frames.py:_register", "rigid_body_motion/reference_frames.py:ReferenceFrame.lookup_transform"]}
{"id": "C06", "title": "Re-registering a frame with update=True keeps its transforms", "statement": "Calling register(update=True) on a frame does not change any lookup that starts or ends at that frame.", "quantifier": "every finite sequence of constructor, register_frame, register, deregister, deregister_frame, clear_registry and parent-assignment calls, successful or raising, with any arguments", "why_tests_cant": "all histories before the call", "anchors": ["rigid_body_motion/reference_frames.py:_register"]}
{"id": "C07", "title": "Deregistering only affects names", "statement": "deregister_frame(n) and clear_registry remove exactly the named entries; they never change a lookup between frame objects, and rf.deregister() removes no other frame than rf.", "quantifier": "every finite sequence of constructor, register_frame, register, deregister, deregister_frame, clear_registry and parent-assignment calls, successful or raising, with any arguments", "why_tests_cant": "all registry states and tree shapes", "anchors": ["rigid_body_motion/reference_frames.py:_deregister", "rigid_body_motion/reference_frames.py:clear_registry", "rigid_body_motion/reference_frames.py:ReferenceFrame.deregister"]}
{"id": "C08", "title": "Static lookup maps coordinates of the same physical point", "statement": "If lookup_transform(A, B) returns (t, r) then for every point p, the point rot(r,p)+t expressed in B is the same physical point as p expressed in A: both have the same coordinates in the root of the tree, obtained by applying each frame's own rotation and translation upwards.", "quantifier": "all reachable frame forests of any size and depth, all pairs of frames connected through static frames, all points", "why_tests_cant": "unbounded trees and real-valued data", "anchors": ["rigid_body_motion/reference_frames.py:ReferenceFrame._walk", "rigid_body_motion/reference_frames.py:ReferenceFrame.lookup_transform", "rigid_body_motion/core.py:TransformMatcher.get_transformation"]}
{"id": "C09", "title": "Lookup from a frame to itself is the identity", "statement": "lookup_transform(A, A) is translation 0, rotation (1,0,0,0), timestamps None, in every state and for every frame, static or moving, complete or not.", "quantifier": "every finite sequence of constructor, register_frame, register, deregister, deregister_frame, clear_registry and parent-assignment calls, successful or raising, with any arguments; all frames", "why_tests_cant": "all states", "anchors": ["rigid_body_motion/reference_frames.py:ReferenceFrame.lookup_transform"]}
{"id": "C10", "title": "Swapping the frames inverts the lookup", "statement": "lookup_transform(B, A) is exactly the inverse of lookup_transform(A, B): rotations multiply to 1 and transforming a point forth and back returns it.", "quantifier": "all reachable frame forests of any size and depth, all pairs of frames connected through static frames, all points", "why_tests_cant": "unbounded trees, real data", "anchors": ["rigid_body_motion/reference_frames.py:ReferenceFrame.lookup_transform"]}
{"id": "C11", "title": "Lookups compose", "statement": "lookup A to C equals lookup B to C after lookup A to B, as an exact equality of translation and rotation, for any three frames of a tree whether or not B lies between A and C.", "quantifier": "all reachable frame forests of any size and depth, all pairs of frames connected through static frames, all points, all intermediate frames", "why_tests_cant": "unbounded trees, any intermediate frame", "anchors": ["rigid_body_motion/reference_frames.py:ReferenceFrame.lookup_transform", "rigid_body_motion/reference_frames.py:ReferenceFrame._walk"]}
{"id": "C12", "title": "Lookup succeeds exactly inside one tree", "statement": "For complete frames: a lookup between frames of different trees always raises, and a lookup between frames of the same tree connected by static frames with non-zero rotations always succeeds.", "quantifier": "every finite sequence of constructor, register_frame, register, deregister, deregister_frame, clear_registry and parent-assignment calls, successful or raising, with any arguments; all pairs of frames", "why_tests_cant": "all states and pairs", "anchors": ["rigid_body_motion/reference_frames.py:ReferenceFrame._walk"]}
{"id": "C13", "title": "Point and vector transforms are rigid", "statement": "With static frames transform_points applies the looked-up rotation and translation, preserves distances and orientation (scalar triple products), and transform_vectors of a difference of points is the difference of the transformed points.", "quantifier": "all reachable frame forests of any size and depth, all pairs of frames connected through static frames, all points", "why_tests_cant": "all real-valued inputs", "anchors": ["rigid_body_motion/reference_frames.py:ReferenceFrame.transform_points", "rigid_body_motion/reference_frames.py:ReferenceFrame.transform_vectors"]}
{"id": "C14", "title": "Quaternion transforms agree with vector transforms", "statement": "Transforming an orientation o and using it to rotate a vector gives the same as rotating the vector by o first and transforming the result; the transformed orientation has the norm of o times the norm of the lookup rotation.", "quantifier": "all reachable frame forests of any size and depth, all pairs of frames connected through static frames, all points, all quaternions", "why_tests_cant": "all real-valued inputs", "anchors": ["rigid_body_motion/reference_frames.py:ReferenceFrame.transform_quaternions"]}
{"id": "C15", "title": "inverse=True means the parent expressed in the frame", "statement": "A frame constructed with inverse=True from (t, r) makes lookup_transform(parent, frame) return exactly (t, r) (at every timestamp for a moving frame with unit rotations).", "quantifier": "all parents, all t, all non-zero r (unit r for moving frames), all timestamp arrays", "why_tests_cant": "all real-valued inputs", "anchors": ["rigid_body_motion/reference_frames.py:ReferenceFrame._init_arrays"]}
{"id": "C16", "title": "Constructor accepts exactly the documented shapes", "statement": "Construction with a parent succeeds iff timestamps are None or one-dimensional of length N, translation is None or of shape (3,) resp. (N,3), rotation is None or of shape (4,) resp. (N,4), and discrete implies timestamps; without a parent iff translation, rotation and timestamps are all None and discrete is False. Otherwise ValueError.", "quantifier": "all argument shapes of any dimensionality", "why_tests_cant": "all shapes", "anchors": ["rigid_body_motion/reference_frames.py:ReferenceFrame._init_arrays", "rigid_body_motion/reference_frames.py:ReferenceFrame._verify_root"]}
{"id": "C17", "title": "Moving lookup is right at each returned timestamp", "statement": "If a lookup between frames with unit rotations returns timestamps, then translation and rotation have one row per timestamp and at each of them the row maps coordinates of the same physical point, where each frame on the way contributes its own transform at that time (constant, last event, or interpolated).", "quantifier": "all reachable forests mixing static, discrete and continuous frames with unit rotations; all timestamps", "why_tests_cant": "unbounded trees, all sample counts", "anchors": ["rigid_body_motion/core.py:TransformMatcher.get_transformation", "rigid_body_motion/core.py:TransformMatcher._transform_from_frame"]}
{"id": "C18", "title": "Returned timestamps lie where everything is defined", "statement": "Timestamps chosen by a lookup or transform are a subset of the samples of the first timestamped array or else the first continuous frame on the path, contain every one of these samples inside the common range, are monotonic, and lie inside the range of every continuous frame and array involved, so the interpolation never raises an out-of-range error; with only discrete frames they are the sorted union of the event times.", "quantifier": "all lists of frames and arrays with any monotonic timestamps", "why_tests_cant": "all combinations and sizes", "anchors": ["rigid_body_motion/core.py:TransformMatcher.get_range", "rigid_body_motion/core.py:TransformMatcher.get_timestamps"]}
{"id": "C19", "title": "Discrete frames hold the last event", "statement": "A discrete frame sampled at time T has the transform of the last event at or before T, or of the first event if T precedes all events.", "quantifier": "all monotonic event times (repeats allowed), all T", "why_tests_cant": "all event sequences", "anchors": ["rigid_body_motion/core.py:TransformMatcher._transform_from_frame"]}
{"id": "C20", "title": "Continuous frames interpolate their samples", "statement": "A continuous frame sampled at one of its own (strictly increasing) timestamps has exactly the stored translation; between two neighbouring timestamps the translation is the linear interpolation of the neighbouring samples, and it is never NaN when it has at least two samples.", "quantifier": "all strictly increasing timestamps with at least two samples, all query times in range", "why_tests_cant": "all sample arrays", "anchors": ["rigid_body_motion/core.py:TransformMatcher._transform_from_frame"]}
{"id": "C21", "title": "A moving frame that does not move is a static frame", "statement": "Replacing a static transform by a timestamped one with the same translation and rotation in every row gives the same lookups at every timestamp.", "quantifier": "all transforms with non-zero rotation, all timestamps", "why_tests_cant": "all real-valued rotations", "anchors": ["rigid_body_motion/core.py:TransformMatcher.get_transformation", "rigid_body_motion/utils.py:rotate_vectors"]}
{"id": "C22", "title": "Array transforms act per sample", "statement": "transform_points / transform_vectors / transform_quaternions on an array of any dimensionality with the coordinates on the last axis and timestamps along any other axis return, at every index, the looked-up transform at that index's timestamp applied to the array resampled to it; no element depends on a neighbour in another dimension.", "quantifier": "all shapes and dimensionalities, all time axes, all data", "why_tests_cant": "all shapes", "anchors": ["rigid_body_motion/reference_frames.py:ReferenceFrame.transform_points", "rigid_body_motion/reference_frames.py:ReferenceFrame._validate_input", "rigid_body_motion/reference_frames.py:ReferenceFrame._expand_singleton_axes"]}
{"id": "C23", "title": "The axis argument only says where the coordinates are", "statement": "Moving the coordinate axis of the input and passing the new position as axis gives the same result with the axis moved.", "quantifier": "all shapes, all axis positions", "why_tests_cant": "all shapes", "anchors": ["rigid_body_motion/reference_frames.py:ReferenceFrame.transform_points", "rigid_body_motion/reference_frames.py:ReferenceFrame.transform_vectors"]}
{"id": "C24", "title": "time_axis without timestamps has no effect", "statement": "Without timestamps, passing time_axis does not change the result of a transform.", "quantifier": "all shapes and time axes", "why_tests_cant": "all shapes", "anchors": ["rigid_body_motion/reference_frames.py:ReferenceFrame.transform_points", "rigid_body_motion/reference_frames.py:ReferenceFrame._validate_input"]}
{"id": "C25", "title": "rotate_vectors pairs quaternions and vectors by position", "statement": "rotate_vectors(q, v, axis) with matching shapes returns at every position the vector at that position rotated by the quaternion at that position, for every position of the coordinate axis.", "quantifier": "all shapes of q, all positions of axis", "why_tests_cant": "all shapes", "anchors": ["rigid_body_motion/utils.py:rotate_vectors"]}
{"id": "C26", "title": "rotate_vectors is the rotation the quaternion stands for", "statement": "For q=(cos(a/2), sin(a/2) u), u unit, the result is v turned by angle a about u by the right-hand rule; lengths and angles are preserved, rotating by q2 and then q1 is rotating by q1*q2, q and -q agree, and a non-unit quaternion rotates like its normalisation.", "quantifier": "all real angles, axes, vectors, quaternions", "why_tests_cant": "continuum of inputs", "anchors": ["rigid_body_motion/utils.py:rotate_vectors"]}
{"id": "C27", "title": "qinv and qmul obey the group laws", "statement": "qinv(q) is a two-sided inverse for every non-zero q, qinv is an involution and reverses products; qmul multiplies left to right, is associative in any grouping of its arguments, multiplicative in norm, and refuses fewer than two arguments or mixed dtypes.", "quantifier": "all lists of quaternions of any length", "why_tests_cant": "any arity, all values", "anchors": ["rigid_body_motion/utils.py:qinv", "rigid_body_motion/utils.py:qmul"]}
{"id": "C28", "title": "qmean is the mean of its own inputs", "statement": "qmean returns the dominant eigenvector of the mean outer product of the quaternions along the averaged axis: the mean of copies of a unit q is q or -q, and the mean at one batch position depends only on that position.", "quantifier": "all unit quaternions, all batches", "why_tests_cant": "all values, all batch sizes", "anchors": ["rigid_body_motion/utils.py:qmean"]}
{"id": "C29", "title": "from_euler_angles chains the given rotations in the given order", "statement": "The result is the product in the given order of the rotations about x, y and z by the given angles, missing angles being skipped; it is a unit quaternion; arguments are refused iff none is given, rpy is mixed with single angles, shapes differ, or order is not a permutation of r, p, y.", "quantifier": "all angles, all argument combinations, all order strings", "why_tests_cant": "all reals and strings", "anchors": ["rigid_body_motion/utils.py:from_euler_angles"]}
{"id": "C30", "title": "Polar coordinates round-trip", "statement": "polar_to_cartesian inverts cartesian_to_polar everywhere, and cartesian_to_polar inverts polar_to_cartesian for r>0 and phi in (-pi, pi].", "quantifier": "all real x, y; all r>0, phi", "why_tests_cant": "continuum of inputs", "anchors": ["rigid_body_motion/coordinate_systems.py:cartesian_to_polar", "rigid_body_motion/coordinate_systems.py:polar_to_cartesian"]}
{"id": "C31", "title": "Spherical coordinates round-trip", "statement": "spherical_to_cartesian inverts cartesian_to_spherical everywhere, r is the length, theta the ISO inclination in [0, pi]; cartesian_to_spherical inverts spherical_to_cartesian for r>0, 0<theta<pi, -pi<phi<=pi.", "quantifier": "all real x, y, z", "why_tests_cant": "continuum of inputs", "anchors": ["rigid_body_motion/coordinate_systems.py:cartesian_to_spherical", "rigid_body_motion/coordinate_systems.py:spherical_to_cartesian"]}
{"id": "C32", "title": "Linear velocity estimates are exact for constant velocity", "statement": "estimate_linear_velocity of positions p0 + v*t sampled at any strictly increasing timestamps is v at every sample; for constant acceleration it is exact at all inner samples; the output has one row per input row.", "quantifier": "all p0, v, a, all strictly increasing timestamps, at least two samples", "why_tests_cant": "all sample counts and spacings", "anchors": ["rigid_body_motion/core.py:_estimate_linear_velocity", "rigid_body_motion/estimators.py:estimate_linear_velocity"]}
{"id": "C33", "title": "Outlier suppression keeps unflagged samples", "statement": "With outlier_thresh, samples whose flag does not exceed the threshold keep their velocity estimate, the last sample is always kept, inner flagged samples are linearly interpolated from kept neighbours, and smooth input (no second difference above half the threshold) is returned unchanged.", "quantifier": "all series, all thresholds", "why_tests_cant": "all series", "anchors": ["rigid_body_motion/core.py:_estimate_linear_velocity"]}
{"id": "C34", "title": "Angular velocity estimate is the body angular velocity", "statement": "In quaternion mode, if the differentiator is exact, the estimate w at each sample satisfies d/dt rot(q(t),p) = rot(q(t), w x p) for every p; rows with NaN give NaN rows in the same places and do not affect the other rows.", "quantifier": "all differentiable unit quaternion curves; all NaN patterns", "why_tests_cant": "continuum of curves", "anchors": ["rigid_body_motion/core.py:_estimate_angular_velocity"]}
{"id": "C35", "title": "Angular velocities add when the reference or moving frame changes", "statement": "transform_angular_velocity returns the true angular velocity wrt the new reference frame (resp. of the new moving frame), in the new frame, whenever array and estimated velocity are true: w(M/R') = w(M/R) + w(R/R').", "quantifier": "all differentiable motions, all frames", "why_tests_cant": "continuum of motions", "anchors": ["rigid_body_motion/reference_frames.py:ReferenceFrame.transform_angular_velocity"]}
{"id": "C36", "title": "Linear velocity transformation includes the lever arm", "statement": "transform_linear_velocity returns the true velocity wrt the new reference frame: v(M/R') = v(M/R) + v(R/R') + w(R/R') x t(M/R), and for a new moving frame v(M'/R) = v(M/R) + v(M'/M) + w(M/R) x t(M'/M), expressed in the new frame.", "quantifier": "all differentiable motions", "why_tests_cant": "continuum of motions", "anchors": ["rigid_body_motion/reference_frames.py:ReferenceFrame.transform_linear_velocity"]}
{"id": "C37", "title": "Velocity lookups return timestamps only when asked", "statement": "lookup_twist, lookup_linear_velocity and lookup_angular_velocity return timestamps iff return_timestamps=True; for a static transform they raise ValueError unless allow_static, in which case the velocity is zero.", "quantifier": "all frames, all flag combinations", "why_tests_cant": "all states and flags", "anchors": ["rigid_body_motion/reference_frames.py:ReferenceFrame.lookup_twist", "rigid_body_motion/reference_frames.py:ReferenceFrame.lookup_linear_velocity", "rigid_body_motion/reference_frames.py:ReferenceFrame.lookup_angular_velocity"]}
{"id": "C38", "title": "shortest_arc_rotation turns v1 onto v2 the short way", "statement": "For non-zero v1, v2 the result r is a unit quaternion with rot(r, v1)/|v1| = v2/|v2| and the rotation angle is the angle between v1 and v2.", "quantifier": "all pairs of non-zero vectors", "why_tests_cant": "continuum of inputs", "anchors": ["rigid_body_motion/estimators.py:shortest_arc_rotation"]}
{"id": "C39", "title": "best_fit_transform is the least-squares optimum", "statement": "No rotation and translation gives a smaller sum of squared residuals than the returned one, and the returned rotation is proper, also for coplanar or mirrored point sets.", "quantifier": "all point sets of equal size at least one, all competing rigid transforms, any valid SVD", "why_tests_cant": "continuum of inputs and competitors", "anchors": ["rigid_body_motion/estimators.py:best_fit_transform"]}
{"id": "C40", "title": "best_fit_rotation is the least-squares optimal rotation", "statement": "No rotation gives a smaller sum of squared residuals than the returned one, and the result is a proper rotation.", "quantifier": "all vector sets, all competing rotations, any valid SVD", "why_tests_cant": "continuum of inputs", "anchors": ["rigid_body_motion/estimators.py:best_fit_rotation"]}
{"id": "C41", "title": "ICP never gets worse and returns the transform it applied", "statement": "Along the iterations the sum of squared nearest-neighbour distances never increases, at most max_iterations iterations are made, and the returned (t, r) maps the input points exactly onto the final aligned points.", "quantifier": "all point sets, initial guesses, tolerances and iteration limits", "why_tests_cant": "all iteration counts", "anchors": ["rigid_body_motion/estimators.py:iterative_closest_point"]}
{"id": "C42", "title": "Top-level functions honour the axis argument", "statement": "For plain arrays the top-level transform, estimator and coordinate functions use the axis they are given, including axis=0.", "quantifier": "all axis values and shapes", "why_tests_cant": "all shapes", "anchors": ["rigid_body_motion/core.py:_maybe_unpack_dataarray"]}
{"id": "C43", "title": "A DataArray's frame attribute follows its data", "statement": "Chaining transforms of a DataArray with outof omitted equals one direct transform from the original frame to the last, and the frame attribute names the frame the data is expressed in after every step; the input's attrs are not modified.", "quantifier": "all chains of any length of registered static frames", "why_tests_cant": "unbounded chains", "anchors": ["rigid_body_motion/core.py:_transform", "rigid_body_motion/core.py:_make_dataarray"]}
{"id": "C44", "title": "Looked-up datasets are labelled with the frame they are expressed in", "statement": "Feeding the dataset of lookup_pose / lookup_transform back into transform_points with outof omitted gives the position of the looked-up frame's origin in the target frame.", "quantifier": "all static trees, all target frames", "why_tests_cant": "all trees", "anchors": ["rigid_body_motion/__init__.py:lookup_pose", "rigid_body_motion/__init__.py:lookup_transform", "rigid_body_motion/core.py:_make_transform_or_pose_dataset"]}
{"id": "C45", "title": "ROS messages round-trip", "statement": "Packing a transform, pose, twist, vector, point or quaternion into a ROS message and unpacking it returns the same numbers in the same order; the message carries x,y,z,w order.", "quantifier": "all real components", "why_tests_cant": "all values", "anchors": ["rigid_body_motion/ros/msg.py:make_transform_msg", "rigid_body_motion/ros/msg.py:unpack_transform_msg"]}
{"id": "C46", "title": "Rosbag write and read round-trips", "statement": "Writing timestamped transforms and loading the topic returns the same number of rows in the same order with the same translation and rotation, timestamps differing by less than a nanosecond; other topics are unaffected; wrong shapes are refused before anything is written. The reader's list of topics contains each topic on which samples were written exactly once, with its message type, and a topic can be loaded only if it is listed.", "quantifier": "all bag contents, all sequences of writes", "why_tests_cant": "all histories and sizes", "anchors": ["rigid_body_motion/ros/io.py:RosbagWriter.write_transform_stamped", "rigid_body_motion/ros/io.py:RosbagReader.load_messages"]}
{"id": "C47", "title": "A cached topic is the topic", "statement": "load_dataset(topic, cache=True) returns the same data as load_dataset(topic) for every topic of a bag, whatever topics were cached before.", "quantifier": "all sequences of cached loads, all topic names, all values", "why_tests_cant": "all histories and topic names", "anchors": ["rigid_body_motion/ros/io.py:RosbagReader.load_dataset", "rigid_body_motion/ros/io.py:RosbagReader._write_netcdf"]}
{"id": "C48", "title": "Marker publisher sub-samples to at most max_points", "statement": "The marker path has at most max_points points, taken from the translation in order, for any number of samples.", "quantifier": "all sample counts and max_points", "why_tests_cant": "all counts", "anchors": ["rigid_body_motion/ros/visualization.py:ReferenceFrameMarkerPublisher.__init__"]}
{"id": "C49", "title": "publish(idx) publishes sample idx", "statement": "Whatever was published before, publish(i) sends the transform and pose of sample i with its timestamp; publish() sends the current one.", "quantifier": "all indices, all publisher states", "why_tests_cant": "all histories", "anchors": ["rigid_body_motion/ros/transformer.py:ReferenceFrameTransformBroadcaster.publish"]}
{"id": "C50", "title": "stop() stops the publisher", "statement": "After stop() has been called following spin(), the publishing loop terminates in every schedule.", "quantifier": "all interleavings of the spinning thread and the caller", "why_tests_cant": "all schedules", "anchors": ["rigid_body_motion/ros/transformer.py:ReferenceFrameTransformBroadcaster._spin_blocking", "rigid_body_motion/ros/visualization.py:BaseMarkerPublisher._spin_blocking"]}
{"id": "C51", "title": "Axis resolution", "statement": "_resolve_axis maps every valid (possibly negative) axis or tuple of axes to the equivalent non-negative one, None to all axes, and raises IndexError for everything else.", "quantifier": "all integers and ndims", "why_tests_cant": "all integers", "anchors": ["rigid_body_motion/core.py:_resolve_axis"]}
{"id": "C52", "title": "Transformer receives the whole tree", "statement": "Transformer.from_reference_frame(f) hands the tf buffer, for every non-root frame of f's tree and nothing else, one static transform or one transform per timestamp, with parent and child names, in an order where a parent precedes its children.", "quantifier": "all reachable forests", "why_tests_cant": "unbounded trees", "anchors": ["rigid_body_motion/ros/transformer.py:Transformer.from_reference_frame"]}
{"id": "C53", "title": "Playback buttons step through the messages", "statement": "The forward and backward buttons move the index by skip (or step) and stay within the first and last message, from any index.", "quantifier": "all indices, steps and lengths", "why_tests_cant": "all values", "anchors": ["rigid_body_motion/ros/utils.py:play_publisher"]}
{"id": "C54", "title": "Spinning publishes the samples in order, cyclically", "statement": "The k-th message of a spinning broadcaster is sample k modulo the number of timestamps, and the waiting time before it is the difference of the timestamps (0 at wrap-around).", "quantifier": "all k, all sample counts", "why_tests_cant": "unbounded runs", "anchors": ["rigid_body_motion/ros/transformer.py:ReferenceFrameTransformBroadcaster._spin_blocking"]}
{"id": "C55", "title": "Coordinate transforms relabel only the coordinate dimension", "statement": "transform_coordinates on a DataArray replaces exactly the named dimension by the one of the new system, drops exactly the coordinates that contained it, keeps all others, refuses unsupported pairs of systems, and updates the coordinate_system attribute.", "quantifier": "all dims, coords and system names", "why_tests_cant": "all dims lists", "anchors": ["rigid_body_motion/__init__.py:transform_coordinates", "rigid_body_motion/core.py:_replace_dim"]}
{"id": "C56", "title": "A marker publisher publishes exactly the changes", "statement": "publish() of a marker publisher sends the marker if and only if it differs from the one last sent (or none was sent yet), for any sequence of publish() calls and changes of the marker in between.", "quantifier": "all sequences of publish calls and marker changes", "why_tests_cant": "all histories", "anchors": ["rigid_body_motion/ros/visualization.py:BaseMarkerPublisher.publish"]}
{"id": "C57", "title": "A subscribed broadcaster follows the incoming transforms", "statement": "A broadcaster created with subscribe=True publishes, for every incoming tf transform whose child frame is the subscribed frame and for no other, the sample whose timestamp is nearest to the time of the message.", "quantifier": "all sequences of incoming messages, all timestamps", "why_tests_cant": "all message histories", "anchors": ["rigid_body_motion/ros/transformer.py:ReferenceFrameTransformBroadcaster.handle_incoming_msg"]}
{"id": "C58", "title": "An interrupted cached load can be repeated", "statement": "If the process dies while load_dataset(topic, cache=True) is writing the cache, a later load_dataset(topic, cache=True) still returns the topic.", "quantifier": "all crash points, all bags and topics", "why_tests_cant": "all crash points", "anchors": ["rigid_body_motion/ros/io.py:RosbagReader.load_dataset", "rigid_body_motion/ros/io.py:RosbagReader._write_netcdf"]}
{"id": "C59", "title": "Frames built from labelled data and rotation matrices", "statement": "ReferenceFrame.from_dataset, from_translation_dataarray and from_rotation_dataarray create a child of the parent whose looked-up transform to the parent (with inverse=True: from the parent) is exactly the samples of the named variables at the times of the named coordinate, a missing array meaning no translation or no rotation; from_rotation_matrix creates a child whose lookup has no translation and turns vectors as the matrix does. Bad shapes and missing names are refused without creating anything. The dataset returned by lookup_transform(as_dataset=True) can be fed back to from_dataset and gives a frame with the same lookup.", "quantifier": "all forests, parents, datasets, sample counts, rotation matrices, inverse and discrete flags", "why_tests_cant": "unbounded number of samples and all rotations; needs the lookup of the created frame for every forest it is attached to", "anchors": ["rigid_body_motion/reference_frames.py:ReferenceFrame.from_dataset", "rigid_body_motion/reference_frames.py:ReferenceFrame.from_translation_dataarray", "rigid_body_motion/reference_frames.py:ReferenceFrame.from_rotation_dataarray", "rigid_body_motion/reference_frames.py:ReferenceFrame.from_rotation_matrix"]}
{"id": "C60", "title": "Quaternion interpolation of arrays", "statement": "qinterp(q, t_in, t_out, axis, qaxis) interpolates every quaternion series along axis independently: for any axis order (positive or negative axes, components on any axis, quaternion or float dtype) the result has the shape of q with len(t_out) along axis, and at every position of the other axes it holds the one-dimensional interpolation of the series at that position; at an input time the input quaternion is returned, and output times inside the input range never fail for unit quaternions.", "quantifier": "all array shapes, axes, series, output times", "why_tests_cant": "unbounded ranks, axis permutations and sample counts", "anchors": ["rigid_body_motion/utils.py:qinterp"]}
{"id": "C61", "title": "The DataArray accessor keeps labels and its input", "statement": ".rbm.qinterp(dim=t) and .rbm.qinv() return a new DataArray with the same dims, name and attributes and leave the input (and its attrs) unmodified; qinterp labels dim with the new times, keeps coordinates that do not depend on dim, and its values are the interpolation along dim from the old coordinate to the new one wherever the dims are; qinv inverts the quaternion at every position. Unknown dims, several dims or multi-dimensional targets are refused.", "quantifier": "all DataArrays, dim orders, coordinates, targets", "why_tests_cant": "all dim orders and shapes", "anchors": ["rigid_body_motion/accessors.py:DataArrayAccessor.qinterp", "rigid_body_motion/accessors.py:DataArrayAccessor.qinv"]}
{"id": "C62", "title": "Velocity DataArrays are what their labels say", "statement": "lookup_angular_velocity / lookup_linear_velocity (as_dataarray) and lookup_twist (as_dataset) return arrays over (time, cartesian_axis), with the times of the estimate as coordinate, labelled with the moving frame, the reference frame (by default the parent) and the representation frame (by default the reference) of the velocity they contain, and with motion type and units; a frame at rest gives ValueError, a root without reference TypeError. transform_angular_velocity / transform_linear_velocity of such an array with outof omitted take the frame from the label given by what, return the velocity their updated labels describe, keep the other labels and coordinates, and leave the input unmodified.", "quantifier": "all frame trees and motions, reference / represent_in / what / into arguments, labelled arrays", "why_tests_cant": "labels must be true for every combination of frames and arguments", "anchors": ["rigid_body_motion/core.py:_transform", "rigid_body_motion/core.py:_make_velocity_dataarray", "rigid_body_motion/core.py:_make_twist_dataset", "rigid_body_motion/__init__.py:lookup_twist", "rigid_body_motion/__init__.py:lookup_linear_velocity", "rigid_body_motion/__init__.py:lookup_angular_velocity", "rigid_body_motion/__init__.py:transform_angular_velocity", "rigid_body_motion/__init__.py:transform_linear_velocity"]}
{"id": "C63", "title": "A Transformer answers like the library", "statement": "For every frame tree that tf2 can hold (distinct names without slashes, unit rotations, increasing whole-nanosecond timestamps, at most 1000 links deep), Transformer.from_reference_frame succeeds, and its lookup_transform(target, source, time) returns what the library's lookup from source to target gives at that time: always for frames that do not move, and at the sampled times otherwise. It succeeds exactly when the time lies within the sampled range of every moving frame in between, can_transform says so beforehand, time 0 means the latest time available for all of them, and transform_vector / point / quaternion / pose apply the looked up transform.", "quantifier": "all frame trees built by the API, pairs of frames, times, vectors, quaternions and poses", "why_tests_cant": "the walk through tf2's buffer must agree with the library's walk for every tree, pair of frames and time", "anchors": ["rigid_body_motion/ros/transformer.py:Transformer", "rigid_body_motion/ros/transformer.py:Transformer.from_reference_frame", "rigid_body_motion/ros/transformer.py:Transformer.lookup_transform", "rigid_body_motion/ros/transformer.py:Transformer.can_transform", "rigid_body_motion/ros/transformer.py:Transformer.transform_vector", "rigid_body_motion/ros/transformer.py:Transformer.transform_pose"]}
{"id": "C64", "title": "rotate_vectors with all its arguments", "statement": "rotate_vectors(q, v, axis, qaxis, one_to_one=False) rotates every vector of v by every quaternion of q: the result has the shape of q (without the quaternion components) followed by that of v, and its vector at (iq, iv) is the vector at iv rotated by the quaternion at iq. Quaternions may be given as quaternion dtype or as floats with the components on axis qaxis, with the same result; one_to_one=True gives the diagonal of that. Vectors of other lengths give ValueError.", "quantifier": "all arrays of quaternions and vectors, of any shape, axis and qaxis", "why_tests_cant": "every shape, axis and pair of positions must be right", "anchors": ["rigid_body_motion/utils.py:rotate_vectors"]}
{"id": "C65", "title": "Plots show what is plotted", "statement": "plot_reference_frame of a frame that does not move draws its three axes of the given length from its origin, in the coordinates of the world frame (its own by default); moving frames give NotImplementedError. plot_points draws the points, plot_vectors an arrow from each base point (default: the origin) to base + length * vector, plot_quaternions the three images of the coordinate axes under each quaternion with length 1/2; arrays of other shapes give ValueError and leave the axes alone. Afterwards the axes have equal scale and everything drawn lies within their limits.", "quantifier": "all frame trees, arrays, base points, axes and their previous limits", "why_tests_cant": "the limits depend on all previous plots on the same axes and on every point drawn", "anchors": ["rigid_body_motion/plotting.py:plot_reference_frame", "rigid_body_motion/plotting.py:plot_points", "rigid_body_motion/plotting.py:plot_vectors", "rigid_body_motion/plotting.py:plot_quaternions"]}
{"id": "C66", "title": "OptiTrack import", "statement": "load_optitrack of a csv export returns exactly one entry for each rigid body of the file (none for markers). Its timestamps are the capture start time plus the time column, its positions are those of the file converted to metres, and its orientations are the unit quaternions that compose the file's rotations about X, Y and Z, in degrees, in the order of the file's rotation type; samples with blank cells give NaN. The three import formats contain the same poses. Other import formats and rotation types give ValueError, files without rigid bodies KeyError.", "quantifier": "all export files: numbers of bodies and samples, rotation types, length units, column orders", "why_tests_cant": "every file layout, unit, rotation order and pattern of missing samples must be right", "anchors": ["rigid_body_motion/io.py:load_optitrack", "rigid_body_motion/utils.py:from_euler_angles"]}
{"id": "C67", "title": "The dataset of a topic is its messages", "statement": "load_dataset of a topic contains, in order, the header times (to the nanosecond), positions, orientations (w, x, y, z) and, for odometry, linear and angular velocities of its messages, each under its own name. A dataset written with write_transform_stamped_dataset is loaded as the same dataset. export writes the dataset of the topic to the given file, or beside the bag, and leaves other files alone.", "quantifier": "all bags, topics, messages, datasets and files", "why_tests_cant": "every field of every message, for any number of messages and topics", "anchors": ["rigid_body_motion/ros/io.py:RosbagReader.load_dataset", "rigid_body_motion/ros/io.py:RosbagReader.load_messages", "rigid_body_motion/ros/io.py:RosbagWriter.write_transform_stamped_dataset", "rigid_body_motion/ros/io.py:RosbagReader.export"]}
{"id": "C68", "title": "Moving lookups agree with each other", "statement": "Looked-up transforms compose at every time at which they have a value: the transform from a to c is the one from a to b followed by the one from b to c, whether the three are static or moving. The transform from b to a is the inverse of the one from a to b at every common time. If at most one frame on the way is sampled continuously, both have the same timestamps.", "quantifier": "all frame graphs, triples of frames, times", "why_tests_cant": "needs every tree shape, mixture of static, discrete and continuous frames and every timestamp", "anchors": ["rigid_body_motion/reference_frames.py:ReferenceFrame.lookup_transform", "rigid_body_motion/core.py:TransformMatcher.get_transformation"]}
{"id": "C69", "title": "Labelled time series through moving frames", "statement": "transform_vectors, transform_points and transform_quaternions of a DataArray with timestamps succeed for any two frames of one tree and return exactly the samples whose times are in range of all continuously sampled frames on the way, in order. Each sample is mapped by the transform at its own time and keeps its timestamp and its values of every coordinate along the time dimension; other coordinates, dimensions, the name and unrelated attributes are kept, and the frame attributes name the destination. Transforming into j and then into k gives, for each of its samples, the value that transforming into k directly gives at that time.", "quantifier": "all frame graphs with static, discrete and continuous frames, array shapes, time axes, coordinates and timestamps", "why_tests_cant": "every combination of frames on the way, axis layout, dropped samples and coordinates must be right", "anchors": ["rigid_body_motion/__init__.py:transform_points", "rigid_body_motion/core.py:_transform", "rigid_body_motion/core.py:_make_dataarray", "rigid_body_motion/core.py:_maybe_unpack_dataarray", "rigid_body_motion/core.py:TransformMatcher.get_arrays"]}
{"id": "C70", "title": "A single labelled item becomes a time series", "statement": "transform_vectors, transform_points and transform_quaternions of a one-dimensional DataArray (one vector, point or orientation, no timestamps) along a way with moving frames return a DataArray with a new first dimension time holding the timestamps of the transform, in which row k is the image of the item under the transform at the k-th timestamp; other coordinates, name and attributes are kept and the frame attributes name the target. It must not matter whether the coordinate dimension is named with dim.", "quantifier": "every tree of frames, every route with moving frames and unit rotations, every item and set of labels, every way of giving outof, dim and axis", "why_tests_cant": "tests use one frame tree and one call form; the number of timestamps decides whether the named form raises or is silently wrong", "anchors": ["rigid_body_motion/core.py:_transform", "rigid_body_motion/core.py:_maybe_unpack_dataarray", "rigid_body_motion/core.py:_make_dataarray", "rigid_body_motion/reference_frames.py:ReferenceFrame.transform_points", "rigid_body_motion/core.py:TransformMatcher._resample_array"]}
{"id": "C71", "title": "Malformed transform calls are refused, and no call changes its inputs", "statement": "The transforms of vectors, points and orientations raise instead of returning a wrong array: an axis that does not exist raises IndexError; a wrong number of coordinates, timestamps that are not one-dimensional or not as many as samples raise ValueError; an unknown target raises ValueError, a target in another tree WalkError; decreasing timestamps, a missing source frame, a missing or doubly given dimension, a missing time coordinate are refused. rotate_vectors refuses vectors without three coordinates and axes that do not match. Whatever the outcome, a top-level call leaves the frames and the attributes of every existing array as they were, and a returned DataArray has an attribute dictionary of its own.", "quantifier": "all frame worlds, arrays, shapes, axes, timestamps, labels and argument combinations", "why_tests_cant": "tests raise on a handful of malformed calls; the property covers every shape, axis, argument combination and every existing array", "anchors": ["rigid_body_motion/reference_frames.py:_validate_input", "rigid_body_motion/reference_frames.py:ReferenceFrame.transform_points", "rigid_body_motion/core.py:_maybe_unpack_dataarray", "rigid_body_motion/core.py:_transform", "rigid_body_motion/utils.py:rotate_vectors"]}
{"id": "C72", "title": "A marker shows the path of the frame in the base frame", "statement": "A marker publisher for a frame with respect to a base (by default its parent) carries a line strip that is drawn in the axes of the base frame (frame_id is its name, pose zero), on the topic given or /<frame>/path, with the given width and colour; its points are every k-th of the timestamps of the lookup, in order, and each point is the position of the frame's origin at that timestamp, in coordinates of the base. A colour string #RRGGBBAA (either case) becomes its four bytes over 255, in [0, 1]; strings without alpha or with other characters are refused. get_marker gives the type, frame, scale, colour and pose that were asked for. A colour string is accepted exactly if its four pairs of characters can be read as hexadecimal numbers, and is refused with ValueError otherwise.", "quantifier": "all worlds reachable by registering frames, all frames and bases, static or moving frames on the way, all sample counts, all colour strings, scales, poses and marker types", "why_tests_cant": "tests look at one default marker; the claim is about every frame tree, every timestamp and every colour string", "anchors": ["rigid_body_motion/ros/visualization.py:hex_to_rgba", "rigid_body_motion/ros/visualization.py:get_marker", "rigid_body_motion/ros/visualization.py:ReferenceFrameMarkerPublisher.__init__"]}
{"id": "C73", "title": "Velocity estimators work on labelled time series", "statement": "estimate_linear_velocity of a DataArray gives the values the plain function gives for its data, with the time axis and spatial axis named by dim/timestamps wherever they are, under the same dimensions, coordinates and name; points that move uniformly get their velocity exactly. estimate_angular_velocity of a DataArray of rotations gives the plain function's values with the quaternion dimension replaced by cartesian_axis (x, y, z), the other dimensions and coordinates kept; unit quaternion curves get their body angular velocity at every time where the differentiator is exact. The input and its attributes are not changed; the result has a copy of them.", "quantifier": "all labelled arrays with an increasing time coordinate, all positions of the two dimensions, all ways of naming them, all numbers of other dimensions, sample counts and values", "why_tests_cant": "tests estimate one series with the default layout; the claim is about every layout, size and label set", "anchors": ["rigid_body_motion/estimators.py:estimate_linear_velocity", "rigid_body_motion/estimators.py:estimate_angular_velocity", "rigid_body_motion/core.py:_maybe_unpack_dataarray", "rigid_body_motion/core.py:_replace_dim"]}
{"id": "C74", "title": "Rotations and transforms fitted to labelled arrays", "statement": "shortest_arc_rotation of a DataArray returns a DataArray with the spatial dimension replaced by quaternion_axis (w, x, y, z), the other labels and the attributes kept, whose rotations take each vector of v1 to the direction of the corresponding vector of v2 by the shortest arc. best_fit_rotation, best_fit_transform and iterative_closest_point with a DataArray v1 of at least two dimensions, the vectors along any dimension (including the first), return new DataArrays named translation and rotation, labelled x, y, z and w, x, y, z, that hold the least-squares optimum (the ICP trajectory's result). Plain arrays give plain results. Labels of the second array are respected.", "quantifier": "all labelled and plain arrays, layouts, sizes, values, ways of naming the dimension; all SVD, rotation-matrix and nearest-neighbour routines that meet their contracts", "why_tests_cant": "optimality over all rotations and every layout of labelled data cannot be tested", "anchors": ["rigid_body_motion/estimators.py:shortest_arc_rotation", "rigid_body_motion/estimators.py:best_fit_rotation", "rigid_body_motion/estimators.py:best_fit_transform", "rigid_body_motion/estimators.py:iterative_closest_point", "rigid_body_motion/estimators.py:_reshape_vectors", "rigid_body_motion/estimators.py:_make_transform_dataarrays"]}
{"id": "C75", "title": "Angular velocity from rotation vectors and with outlier suppression", "statement": "estimate_angular_velocity with mode='rotation_vector' returns the body angular velocity for rotations of any quaternion length and array layout (at the inner samples of a uniformly accelerated rotation, at all samples for a constant rate); mode accepts exactly 'quaternion' and 'rotation_vector' (ValueError otherwise). With outlier_thresh, samples whose rotation vectors have second differences within the threshold keep their estimate and flagged ones are interpolated between their kept neighbours, for every array layout.", "quantifier": "all arrays, axes, times, rotation axes and rates, thresholds, mode strings", "why_tests_cant": "a test fixes a rotation, a rate and a layout; the wrap at a full turn and the dependence on a fixed axis only show for particular histories", "anchors": ["rigid_body_motion/core.py:_estimate_angular_velocity", "rigid_body_motion/estimators.py:estimate_angular_velocity"]}
{"id": "C76", "title": "Datetime timestamps keep their order and their samples", "statement": "With datetime64[ns] timestamps, distinct timestamps stay distinct and in order through the library: frames and arrays are accepted iff their timestamps do not decrease; a continuous frame is defined at every time between its first and last sample, equals its samples at their times and the straight line in between (up to the rounding of the times); constant velocities are estimated with an error that is small against the sampling interval; ROS messages carry the sample's time.", "quantifier": "all datetime timestamps (int64 nanoseconds; error bounds for 2006 to 2043), all sample values, array layouts", "why_tests_cant": "rounding to float64 merges timestamps only for particular pairs of instants; tests use seconds or coarse steps", "anchors": ["rigid_body_motion/core.py:TransformMatcher._check_timestamps", "rigid_body_motion/core.py:TransformMatcher._transform_from_frame", "rigid_body_motion/core.py:_estimate_linear_velocity", "rigid_body_motion/ros/io.py:RosbagWriter.write_transform_stamped_dataset", "rigid_body_motion/ros/transformer.py"]}
{"id": "C77", "title": "Starting a ROS node and the playing speed", "statement": "init_node without a running master is refused unless start_master is given, and then changes nothing. Otherwise it gives the process a node of the requested name; a master that was already running is left alone and the returned stub's shutdown stops nothing and warns, while a newly started master is stopped by the returned handle. No master started by init_node outlives the process, masters of others are never stopped, and a call that raises leaves no master behind. play_publisher plays consecutive messages at their mean time difference divided by the speed.", "quantifier": "all histories of init_node calls, shutdowns and outside starts/stops of masters; all timestamps, speeds and steps", "why_tests_cant": "depends on the interleaving of calls, external masters and process exit; the truncation to milliseconds shows only at particular rates", "anchors": ["rigid_body_motion/ros/utils.py:init_node", "rigid_body_motion/ros/utils.py:play_publisher"]}
{"id": "C78", "title": "Low-pass filter (cutoff) of the velocity estimators", "statement": "With cutoff, the estimates are low-pass filtered along the time: constant linear and angular velocities come out unchanged at every sample, the filter is linear and commutes with a change of axes, oscillations below the cutoff are kept and above it are removed (half the amplitude at the cutoff, without delay), samples without estimate (NaN) stay the only ones without estimate, and a call with a cutoff outside (0, 1) or too few samples is refused.", "quantifier": "all arrays, axes, time axes, timestamps, cutoffs, frequencies, amplitudes and phases", "why_tests_cant": "the response depends on real-valued cutoffs and frequencies and on series of any length; tests compare a few samples against stored values", "anchors": ["rigid_body_motion/core.py:_estimate_angular_velocity", "rigid_body_motion/core.py:_estimate_linear_velocity", "rigid_body_motion/estimators.py:estimate_linear_velocity", "rigid_body_motion/estimators.py:estimate_angular_velocity"]}
{"id": "C79", "title": "Interpolated orientation of a continuous frame", "statement": "Between its samples a continuous frame that translates at constant velocity and turns at a constant rate about a fixed axis, with at most half a turn between samples, has exactly its actual pose, also when looked up through a tree of such frames, each sampled at its own times. The interpolated orientation does not depend on the frame it is observed from, on a fixed mounting of the observed frame, on the unit or origin of the time stamps, nor on samples appended later. The sign of a quaternion, which has no meaning for an orientation, should not matter either: it does.", "quantifier": "all recordings (lengths, irregular sample times, unit rotations), times in range, axes, rates, trees of frames, rotations of the observer and of the mounting", "why_tests_cant": "tests resample a few recordings at a few times; interpolation must be right at every time of every recording, and numpy-quaternion's own tests do not cover its use through frames", "anchors": ["rigid_body_motion/core.py:Frame", "rigid_body_motion/core.py:TransformMatcher._transform_from_frame", "rigid_body_motion/core.py:TransformMatcher._resample_array", "rigid_body_motion/utils.py:qinterp"]}
{"id": "C80", "title": "Velocity estimates converge to the true velocity", "statement": "Estimating the linear velocity of a sampled smooth motion gives its true velocity up to M3 H^2/6 at inner samples and M2 H/2 at the first and last sample, where H is the largest time between samples and M2, M3 bound the second and third derivative; estimating the angular velocity in mode 'quaternion' gives the true body angular velocity up to 4 (1+rho)^2 M4 H^3 at every sample without NaN, where M4 bounds the fourth derivative of the quaternion and rho the unevenness of the sampling at the two ends. So any accuracy is reached by sampling densely enough.", "quantifier": "all smooth motions, all strictly increasing irregular time stamps, all array shapes and axes, all patterns of NaN", "why_tests_cant": "tests compare with simulated motions on one grid; the order of convergence concerns every motion and every sampling", "anchors": ["rigid_body_motion/core.py:_estimate_linear_velocity", "rigid_body_motion/core.py:_estimate_angular_velocity", "rigid_body_motion/estimators.py:estimate_linear_velocity", "rigid_body_motion/estimators.py:estimate_angular_velocity"]}
{"id": "C81", "title": "Velocities looked up between recorded frames converge to the true ones, and transforming velocities does not amplify errors", "statement": "If the transformation between two frames samples a smooth relative motion, lookup_linear_velocity, lookup_angular_velocity and lookup_twist return, at every sample in range of the moving frames on the way to the representation frame, the true relative velocity in the axes of that frame, up to the error bounds of C80; transform_angular_velocity returns velocities off by at most the error of its input plus the error of the looked-up velocity, transform_linear_velocity by at most the error of its input plus the error of the looked-up linear velocity plus (error of the angular velocity) x (distance) plus (angular velocity) x (error of the translation).", "quantifier": "all reachable frame trees, all pairs of frames and representation frames, all smooth motions and time stamps, all error sizes", "why_tests_cant": "tests check one recording within a tolerance; the bound concerns every recording, tree and sampling density", "anchors": ["rigid_body_motion/reference_frames.py:ReferenceFrame.lookup_linear_velocity", "rigid_body_motion/reference_frames.py:ReferenceFrame.lookup_angular_velocity", "rigid_body_motion/reference_frames.py:ReferenceFrame.lookup_twist", "rigid_body_motion/reference_frames.py:ReferenceFrame.transform_linear_velocity", "rigid_body_motion/reference_frames.py:ReferenceFrame.transform_angular_velocity"]}
{"id": "C82", "title": "Missing samples (NaN) in transformed arrays", "statement": "Transforming an array with missing samples gives NaN for exactly the samples that have a NaN coordinate, and the image of every other sample. Holds for arrays without timestamps between statically connected frames; violated for timestamped arrays, which are always resampled: the sample after a missing one is lost as well (and the first one if the second is missing), even when the timestamps are unchanged. All other samples are the exact images. For orientations four samples are lost around a missing one: the two before it, itself and the one after.", "quantifier": "all reachable frame trees, all pairs of frames, all array shapes and time axes, all patterns of NaN, all timestamps", "why_tests_cant": "no test transforms arrays with NaN; which samples survive depends on every pattern of missing samples", "anchors": ["rigid_body_motion/reference_frames.py:ReferenceFrame.transform_vectors", "rigid_body_motion/reference_frames.py:ReferenceFrame.transform_points", "rigid_body_motion/reference_frames.py:ReferenceFrame.transform_quaternions", "rigid_body_motion/core.py:TransformMatcher._resample_array", "rigid_body_motion/utils.py:rotate_vectors"]}
{"id": "C83", "title": "Options of the velocity lookups act as on the estimators", "statement": "lookup_linear_velocity, lookup_angular_velocity and lookup_twist called with mode, outlier_thresh and cutoff return what the estimators give with these options for the looked-up translations and rotations, in the axes of the representation frame, at every sample in range of the moving frames on the way; lookup_twist gives the two at their common timestamps (outlier_thresh acting on the linear part only). A sample for which the estimate is NaN is NaN in the result (and, because of the resampling of C82, so is the next sample). What the estimator refuses (a cutoff outside (0,1), 24 or fewer samples with a cutoff, an unknown mode) the lookup refuses with the same error. Filtering does not change the looked-up velocity of a frame in uniform motion or turning at a constant rate. With the options left at their defaults the lookups are those of C32, C34.", "quantifier": "all reachable frame trees, all frames and reference/representation frames, all timestamps, all cutoffs, thresholds and modes", "why_tests_cant": "tests call the lookups with default options on one recording; the claim is about every option value, every pattern of NaN and every tree", "anchors": ["rigid_body_motion/reference_frames.py:ReferenceFrame.lookup_linear_velocity", "rigid_body_motion/reference_frames.py:ReferenceFrame.lookup_angular_velocity", "rigid_body_motion/reference_frames.py:ReferenceFrame.lookup_twist", "rigid_body_motion/core.py:_estimate_linear_velocity", "rigid_body_motion/core.py:_estimate_angular_velocity"]}
{"id": "C84", "title": "Batches without timestamps between frames that move", "statement": "Transforming an array of items without timestamps into a frame that moves relative to it gives the image of every item at every returned time. Holds for a single item (C22), for an array (1, 3) or (1, 4) of one item, and for arrays of any shape when one time is returned. Violated otherwise: with two or more times, an array of two or more items (N, 3) is refused with ValueError, deeper arrays are refused unless their first axis has length 1 or the number of times T, and those come back with the axis before the coordinates repeated T times (each entry is the image, at the time of its first index, of the item it repeats).", "quantifier": "all reachable frame trees, all pairs of frames connected through moving frames, all array shapes, all numbers of returned times", "why_tests_cant": "tests transform single items or timestamped arrays; the outcome depends on every combination of array shape and number of times", "anchors": ["rigid_body_motion/reference_frames.py:ReferenceFrame.transform_vectors", "rigid_body_motion/reference_frames.py:ReferenceFrame.transform_points", "rigid_body_motion/reference_frames.py:ReferenceFrame.transform_quaternions", "rigid_body_motion/core.py:TransformMatcher._resample_array"]}
{"id": "C85", "title": "The test motion and its inverse cancel", "statement": "make_test_motion gives n samples of a sinusoidal motion: at every sample the displacement is along the axis of rotation and as long as the angle, the rotations are unit quaternions, with stack the samples are split into a third each about x, y and z, and the offset is turned along. A frame that follows the inverse motion (any offset), attached to a frame that follows the motion, does not move: looked up from where the motion takes place it is at the offset, unrotated, at every timestamp.", "quantifier": "all numbers of samples, frequencies, angles, sampling rates, offsets, both values of stack, all trees and timestamps the frames are registered with", "why_tests_cant": "the package's tests rely on the cancellation for one number of samples and one offset; it has to hold at every sample of every motion", "anchors": ["rigid_body_motion/testing.py:make_test_motion", "rigid_body_motion/reference_frames.py:ReferenceFrame.lookup_transform"]}
{"id": "C86", "title": "Between its samples a recorded frame is near its actual motion", "statement": "A moving frame whose data are samples, at most H apart, of a smooth motion (acceleration at most A, first and second derivative of the orientation quaternion at most L and B) has at every time within the recording a position within A*H^2/8 and an orientation within 8*(L^2+B)*H^2 of the actual ones. Hence lookup_transform, transform_points, transform_vectors and transform_quaternions through a tree of such frames, each recorded at times of its own, are at every returned time off by no more than a bound that grows with the number of frames passed and the distances, and that becomes as small as wanted when the frames are sampled densely enough.", "quantifier": "all smooth motions, all increasing sampling times, all times within the recordings, all trees of recorded and static frames, all points", "why_tests_cant": "tests compare at the samples or for one motion; the error between samples must be bounded for every motion and every time", "anchors": ["rigid_body_motion/utils.py:qinterp", "rigid_body_motion/core.py:TransformMatcher._transform_from_frame", "rigid_body_motion/reference_frames.py:ReferenceFrame.lookup_transform", "rigid_body_motion/reference_frames.py:ReferenceFrame.transform_points", "rigid_body_motion/reference_frames.py:ReferenceFrame.transform_vectors", "rigid_body_motion/reference_frames.py:ReferenceFrame.transform_quaternions"]}
{"id": "C87", "title": "Results do not depend on the unit and the origin of the time stamps", "statement": "If every time stamp given to the library is read on another clock (t becomes k*t+o with k > 0, for instance milliseconds since boot instead of seconds since the epoch), then every registration call has the same outcome, lookup_transform and the transforms of points, vectors and orientations return the same values (or raise the same exception) with their time stamps read on the new clock, and the velocities that are looked up, estimated or transformed are those of before divided by k.", "quantifier": "all sequences of API calls, all frames and targets, all arrays, all time stamps, all k > 0 and o", "why_tests_cant": "tests use a few recordings with one clock; that no comparison, interpolation or resampling step depends on the unit or origin must hold for every recording", "anchors": ["rigid_body_motion/core.py:TransformMatcher.get_range", "rigid_body_motion/core.py:TransformMatcher.get_timestamps", "rigid_body_motion/core.py:TransformMatcher._transform_from_frame", "rigid_body_motion/core.py:TransformMatcher._resample_array", "rigid_body_motion/reference_frames.py:ReferenceFrame.lookup_transform", "rigid_body_motion/reference_frames.py:ReferenceFrame.lookup_twist", "rigid_body_motion/reference_frames.py:ReferenceFrame.transform_linear_velocity"]}
{"id": "C88", "title": "Results do not depend on the unit of length", "statement": "If every translation given to the library is measured in another unit (multiplied by c, for instance 1000 for millimetres instead of metres), then every registration call has the same outcome, lookup_transform returns the same rotations and time stamps and the translations in the new unit (or raises the same exception), transform_points maps points in the new unit to points in the new unit, transform_vectors and transform_quaternions and the angular velocities do not change, and the linear velocities that are looked up or transformed come out in the new unit.", "quantifier": "all sequences of API calls, all frames and targets, all arrays and time stamps, all c", "why_tests_cant": "tests use a few poses in one unit; that no step has a built-in length scale or mixes up lengths and directions must hold for every configuration", "anchors": ["rigid_body_motion/core.py:TransformMatcher._transform_from_frame", "rigid_body_motion/core.py:TransformMatcher._resample_array", "rigid_body_motion/reference_frames.py:ReferenceFrame.lookup_transform", "rigid_body_motion/reference_frames.py:ReferenceFrame.transform_points", "rigid_body_motion/reference_frames.py:ReferenceFrame.lookup_twist", "rigid_body_motion/reference_frames.py:ReferenceFrame.transform_linear_velocity"]}
{"id": "C89", "title": "Answers depend only on the frames between the ones a call names", "statement": "A lookup or transform between two frames i and j of one tree, and the velocities of i with respect to j seen from m, depend only on the parents and transforms of the frames on the way between them: two histories that agree on those give the same results or the same exceptions, whatever other frames exist. In particular no API call (constructing, registering, deregistering, clearing, updating, assigning a parent), whether it succeeds or raises, changes these answers unless it moves a frame on the way: hanging a whole tree below another one does not change lookups inside it. Two trees are only ever joined by assigning a parent.", "quantifier": "all reachable states, all pairs of histories, all frames, all API calls, all arrays and options", "why_tests_cant": "tests build a few trees; independence from every other frame and every other call must hold for all forests and histories", "anchors": ["rigid_body_motion/reference_frames.py:ReferenceFrame._walk", "rigid_body_motion/reference_frames.py:ReferenceFrame._get_matcher", "rigid_body_motion/reference_frames.py:ReferenceFrame.lookup_transform", "rigid_body_motion/reference_frames.py:ReferenceFrame.transform_points", "rigid_body_motion/reference_frames.py:ReferenceFrame.lookup_twist", "rigid_body_motion/reference_frames.py:_register"]}
{"id": "C90", "title": "q and -q are the same orientation: negating the quaternions given for a frame changes no result but quaternion signs", "statement": "A quaternion and its negative stand for the same orientation. Replacing, in any history, all the rotations given to the constructors of some frames by their negatives leaves every API call's outcome the same (same exceptions, same frames, same registry), every lookup's timestamps and translations the same and its rotations the same up to one common sign; transformed points and vectors are the same, transformed quaternions the same up to one common sign; looked-up linear velocities, angular velocities and twists, and transformed velocities, are the same.", "quantifier": "all histories, all choices of the frames whose quaternions are negated, all pairs of frames, all arrays and options", "why_tests_cant": "a test compares one pair of quaternions; the two descriptions must be indistinguishable through every tree, every interpolation and every velocity estimate", "anchors": ["rigid_body_motion/reference_frames.py:ReferenceFrame.lookup_transform", "rigid_body_motion/reference_frames.py:ReferenceFrame.lookup_twist", "rigid_body_motion/reference_frames.py:ReferenceFrame.lookup_angular_velocity", "rigid_body_motion/core.py:TransformMatcher", "rigid_body_motion/utils.py:qinterp", "rigid_body_motion/utils.py:rotate_vectors", "rigid_body_motion/core.py:_estimate_angular_velocity"]}
{"id": "C91", "title": "The order in which frames are created does not matter", "statement": "Two creations (constructor or register_frame) that do not mention each other may be made in either order: whatever calls came before and come after, every later call has the same outcome, every name means the corresponding frame, and every lookup, transform and velocity has the same answer or the same exception. More generally two histories that build the same trees with the same transforms, in any order and among any other frames, answer all questions about these frames alike.", "quantifier": "all histories, all pairs of creations (successful or not) that do not mention each other, all later calls, all frames, arrays and options; all pairs of histories with corresponding trees", "why_tests_cant": "a test fixes one order; the independence is over all pairs of histories and all continuations", "anchors": ["rigid_body_motion/reference_frames.py:register_frame", "rigid_body_motion/reference_frames.py:_register", "rigid_body_motion/reference_frames.py:ReferenceFrame.__init__", "rigid_body_motion/reference_frames.py:ReferenceFrame.lookup_transform", "rigid_body_motion/core.py:_resolve_rf"]}
{"id": "C92", "title": "Names keep their meaning, frames keep their name and transform", "statement": "After any sequence of calls a registered name stands for what the last successful call about that name said (register, register_frame, deregister, deregister_frame, clear_registry), and for what it stood for before if there was none: creating and moving frames, registering other names and calls that raise do not change it. A frame is never destroyed, renamed or given another transform, and its parent changes only by assignment to parent or when its name is given to another frame. So the answers about two frames, the target given as object or by name, survive every history that moves no frame on the way between them.", "quantifier": "all reachable states, all further histories of any length with successful and raising calls, all names and frames, all arrays and options", "why_tests_cant": "the claim is about every continuation of every history; tests make a handful of calls", "anchors": ["rigid_body_motion/reference_frames.py:_register", "rigid_body_motion/reference_frames.py:_deregister", "rigid_body_motion/reference_frames.py:clear_registry", "rigid_body_motion/reference_frames.py:register_frame", "rigid_body_motion/reference_frames.py:ReferenceFrame.register", "rigid_body_motion/core.py:_resolve_rf"]}
