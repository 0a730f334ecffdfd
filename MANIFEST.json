{
 "claims": [
  {
   "property": "C01",
   "status": "proved",
   "theorems": [
    "C01_forest"
   ],
   "note": ""
  },
  {
   "property": "C02",
   "status": "proved",
   "theorems": [
    "C02_registry"
   ],
   "note": ""
  },
  {
   "property": "C03",
   "status": "proved",
   "theorems": [
    "C03_register_refused",
    "C03_register_frame_refused",
    "C03_free_name_accepted"
   ],
   "note": ""
  },
  {
   "property": "C04",
   "status": "partial",
   "theorems": [
    "C04_refuted",
    "C04_constructor_partial",
    "C04_register_frame_partial",
    "C04_no_parent_partial"
   ],
   "note": "Violated by the code: a raising constructor with a parent leaves the new frame attached. Proved: exactly what persists."
  },
  {
   "property": "C05",
   "status": "proved",
   "theorems": [
    "C05_update_register",
    "C05_update_register_frame"
   ],
   "note": ""
  },
  {
   "property": "C06",
   "status": "partial",
   "theorems": [
    "C06_refuted",
    "C06_partial"
   ],
   "note": "Violated by the code: re-registering the same object detaches it."
  },
  {
   "property": "C07",
   "status": "partial",
   "theorems": [
    "C07_deregister_frame",
    "C07_clear_registry",
    "C07_object_deregister_refuted",
    "C07_object_deregister_partial"
   ],
   "note": "rf.deregister() can remove another frame of the same name."
  },
  {
   "property": "C08",
   "status": "proved",
   "theorems": [
    "C08_static_lookup",
    "C08_coords_unique"
   ],
   "note": ""
  },
  {
   "property": "C09",
   "status": "proved",
   "theorems": [
    "C09_self_lookup"
   ],
   "note": ""
  },
  {
   "property": "C10",
   "status": "proved",
   "theorems": [
    "C10_inverse"
   ],
   "note": ""
  },
  {
   "property": "C11",
   "status": "proved",
   "theorems": [
    "C11_compose"
   ],
   "note": ""
  },
  {
   "property": "C12",
   "status": "proved",
   "theorems": [
    "C12_different_trees_raise",
    "C12_same_tree_succeeds"
   ],
   "note": ""
  },
  {
   "property": "C13",
   "status": "proved",
   "theorems": [
    "C13_point",
    "C13_rigid"
   ],
   "note": ""
  },
  {
   "property": "C14",
   "status": "proved",
   "theorems": [
    "C14_quaternions"
   ],
   "note": ""
  },
  {
   "property": "C15",
   "status": "proved",
   "theorems": [
    "C15_static",
    "C15_moving",
    "C15_moving_closed"
   ],
   "note": "Moving: squad contract 'exact at the samples' (hypothesis, instantiated)."
  },
  {
   "property": "C16",
   "status": "proved",
   "theorems": [
    "C16_with_parent",
    "C16_without_parent"
   ],
   "note": ""
  },
  {
   "property": "C17",
   "status": "proved",
   "theorems": [
    "C17_moving_lookup",
    "C17_no_bare",
    "C17_moving_lookup_closed"
   ],
   "note": "For unit rotations, as in the property; squad contract: unit in, unit out."
  },
  {
   "property": "C18",
   "status": "proved",
   "theorems": [
    "C18_lookup_timestamps",
    "C18_matcher_timestamps",
    "C18_lookup_succeeds",
    "C18_lookup_succeeds_closed"
   ],
   "note": ""
  },
  {
   "property": "C19",
   "status": "proved",
   "theorems": [
    "C19_discrete_hold",
    "C19_event_unique",
    "C19_rows"
   ],
   "note": ""
  },
  {
   "property": "C20",
   "status": "proved",
   "theorems": [
    "C20_interpolation",
    "C20_frame"
   ],
   "note": ""
  },
  {
   "property": "C21",
   "status": "partial",
   "theorems": [
    "C21_refuted",
    "C21_unit_partial"
   ],
   "note": "False for non-unit rotations: rotate_vectors on arrays divides by |q| instead of |q|^2."
  },
  {
   "property": "C22",
   "status": "proved",
   "theorems": [
    "C22_static_points",
    "C22_static_vectors",
    "C22_static_quaternions",
    "C22_points",
    "C22_vectors",
    "C22_quaternions",
    "C22_points_succeed",
    "C22_vectors_succeed",
    "C22_quaternions_succeed",
    "C22_single",
    "C22_points_closed",
    "C22_vectors_closed",
    "C22_quaternions_closed",
    "C22_points_succeed_closed",
    "C22_vectors_succeed_closed",
    "C22_quaternions_succeed_closed",
    "C22_single_closed"
   ],
   "note": "Coordinates last, unit rotations on the way for timestamped arrays, at least two strictly increasing timestamps; squad is an oracle with stated contracts."
  },
  {
   "property": "C23",
   "status": "partial",
   "theorems": [
    "C23_refuted",
    "C23_first_refuted",
    "C23_zero_refuted",
    "C23_vectors_partial",
    "C23_quaternions_partial",
    "C23_move_partial",
    "C23_vectors_moving_partial",
    "C23_quaternions_moving_partial",
    "C23_move_moving_partial",
    "C23_any_shape_partial",
    "C23_move_any_partial"
   ],
   "note": "Refuted for transform_points (the translation is added along the last axis), for coordinates on the first axis with timestamps (refused), and for timestamped arrays whose last axis has length 4 and somewhere holds four zeros (interpolated as quaternions: NaN). Proved for vectors and orientations through static frames (any axis) and through moving frames (any axis but the first, any time axis, any lengths; with the last axis of length 4 only where the four entries are not all zero), for the squad that is installed."
  },
  {
   "property": "C24",
   "status": "partial",
   "theorems": [
    "C24_refuted",
    "C24_partial",
    "C24_default_partial"
   ],
   "note": "Refuted: time_axis other than 0 transposes. Proved: the result is exactly the transposed result."
  },
  {
   "property": "C25",
   "status": "partial",
   "theorems": [
    "C25_refuted",
    "C25_single_partial",
    "C25_arrays_partial"
   ],
   "note": "Refuted for early coordinate axes with >=2-d quaternion arrays."
  },
  {
   "property": "C26",
   "status": "partial",
   "theorems": [
    "C26_refuted",
    "C26_turn",
    "C26_isometry",
    "C26_scale",
    "C26_compose",
    "C26_arrays_partial"
   ],
   "note": "Refuted for arrays of non-unit quaternions."
  },
  {
   "property": "C27",
   "status": "proved",
   "theorems": [
    "C27_qmul",
    "C27_qmul_float",
    "C27_grouping",
    "C27_refuse",
    "C27_qinv",
    "C27_qinv_product",
    "C27_qinv_float"
   ],
   "note": "equal shapes; entries must be nonzero for qinv (otherwise numpy yields NaN/inf)"
  },
  {
   "property": "C28",
   "status": "partial",
   "theorems": [
    "C28_refuted",
    "C28_batch_refuted",
    "C28_partial"
   ],
   "note": "qmean permutes eigenvector entries and reads batch 0: refuted for every eig; holds unbatched with strictly descending eigenvalues"
  },
  {
   "property": "C29",
   "status": "partial",
   "theorems": [
    "C29_refuted",
    "C29_angles",
    "C29_rpy",
    "C29_mixed",
    "C29_refuse_partial"
   ],
   "note": "order strings with extra letters after a permutation are accepted (refuted); everything else proved"
  },
  {
   "property": "C30",
   "status": "proved",
   "theorems": [
    "C30_to_polar",
    "C30_from_polar",
    "C30_refuse"
   ],
   "note": "signed zeros not modelled"
  },
  {
   "property": "C31",
   "status": "partial",
   "theorems": [
    "C31_to_spherical_partial",
    "C31_from_spherical",
    "C31_refuted",
    "C31_refuse"
   ],
   "note": "a point at the origin yields NaN (refuted); everything else proved"
  },
  {
   "property": "C32",
   "status": "proved",
   "theorems": [
    "C32_constant_velocity",
    "C32_constant_acceleration",
    "C32_shape",
    "C32_lookup",
    "C32_lookup_closed"
   ],
   "note": "Any time axis and any coordinate axis other than it, unequal spacing allowed."
  },
  {
   "property": "C33",
   "status": "partial",
   "theorems": [
    "C33_kept_partial",
    "C33_flagged",
    "C33_last",
    "C33_succeeds",
    "C33_smooth",
    "C33_refuted",
    "C33_leading_lost",
    "C33_others_refused"
   ],
   "note": "(N,3) arrays, time first. Kept samples keep their estimate when at least two are kept; with a single kept sample even it becomes NaN (C33_refuted), and samples before the first kept one become NaN (C33_leading_lost). Every other array shape or time axis is refused (C33_others_refused). Translations have three coordinates: (N,M) arrays with M other than 3 are outside the documented domain and not modelled."
  },
  {
   "property": "C34",
   "status": "proved",
   "theorems": [
    "C34_body_rate",
    "C34_lookup",
    "C34_lookup_closed"
   ],
   "note": "Any axes and NaN patterns; the differentiator (quaternion.calculus.derivative) is an oracle assumed exact on the series it is called with."
  },
  {
   "property": "C35",
   "status": "proved",
   "theorems": [
    "C35_reference_frame",
    "C35_moving_frame",
    "C35_reference_frame_closed",
    "C35_moving_frame_closed"
   ],
   "note": "(N,3) arrays with timestamps; given array and looked-up angular velocity that are true at the sample times, the result is the true angular velocity of the composed motion (examples: C35_example, C35_moving_example)"
  },
  {
   "property": "C36",
   "status": "proved",
   "theorems": [
    "C36_reference_frame",
    "C36_moving_frame",
    "C36_reference_frame_closed",
    "C36_moving_frame_closed"
   ],
   "note": "(N,3) arrays with timestamps; given true inputs at the sample times, the result is the derivative of the composed motion (examples: C36_example, C36_moving_example)"
  },
  {
   "property": "C37",
   "status": "partial",
   "theorems": [
    "C37_refuted",
    "C37_static",
    "C37_moving_partial",
    "C37_values",
    "C37_twist",
    "C37_twist_closed"
   ],
   "note": "static lookup with allow_static returns timestamps although not asked for (refuted); everything else holds"
  },
  {
   "property": "C38",
   "status": "partial",
   "theorems": [
    "C38_partial",
    "C38_refuted"
   ],
   "note": "Full property except pairs of exactly opposite vectors, for which the code returns NaN (C38_refuted). Concrete case: C38_example."
  },
  {
   "property": "C39",
   "status": "proved",
   "theorems": [
    "C39"
   ],
   "note": "Array level, any axis > 0 (axis 0 is C42). The SVD and matrix-to-quaternion contracts have the instances some_svd and shepperd (svd_exists, shepperd_ok); C39_example."
  },
  {
   "property": "C40",
   "status": "partial",
   "theorems": [
    "C40_partial",
    "C40_refuted"
   ],
   "note": "Proved when the moments have a positive determinant; refuted in general for every valid svd and every from_rotation_matrix.  C40_example."
  },
  {
   "property": "C41",
   "status": "proved",
   "theorems": [
    "C41"
   ],
   "note": "Two arrays of any shapes; run described by icp_run in SpecEstim. C41_example with instances of all three contracts."
  },
  {
   "property": "C42",
   "status": "partial",
   "theorems": [
    "C42_vectors_partial",
    "C42_quaternions_partial",
    "C42_points_partial",
    "C42_coordinates_partial",
    "C42_zero",
    "C42_refuted",
    "C42_single_refused"
   ],
   "note": "False of the code: axis=0 is treated as the default, the last axis, by every top-level function (C42_zero, C42_refuted); single plain points are refused by transform_coordinates. Proved for the other axis values for vectors, orientations, points on the last axis, coordinate systems; estimators in C38-C40."
  },
  {
   "property": "C43",
   "status": "proved",
   "theorems": [
    "C43_chain"
   ],
   "note": "Chains of any length through statically connected registered frames, for points, vectors and orientations, untimed and timed. C43_example and C43_timed_example meet the hypotheses."
  },
  {
   "property": "C44",
   "status": "partial",
   "theorems": [
    "C44_pose_partial",
    "C44_pose_moving",
    "C44_pose_start",
    "C44_transform_partial",
    "C44_transform_moving_partial",
    "C44_refuted",
    "C44_pose_moving_closed",
    "C44_pose_start_closed",
    "C44_pose_labels",
    "C44_transform_labels"
   ],
   "note": "False of the code for lookup_transform: its dataset is expressed in into but labelled with outof (C44_refuted). Proved for lookup_pose on every kind of route: static (C44_pose_partial), moving (C44_pose_moving: the kept times, values at each time, agreement with direct lookups, labels), static pose and moving target (C44_pose_start); for lookup_transform with explicit outof=into on static and on moving routes. C44_pose_labels, C44_transform_labels: every label and every value of both datasets, and nothing older is changed."
  },
  {
   "property": "C45",
   "status": "proved",
   "theorems": [
    "C45_transform",
    "C45_pose",
    "C45_twist",
    "C45_vector",
    "C45_point",
    "C45_quaternion",
    "C45_repack",
    "C45_refused"
   ],
   "note": "Time stamps at or after the epoch."
  },
  {
   "property": "C46",
   "status": "partial",
   "theorems": [
    "C46_partial",
    "C46_refused",
    "C46_others",
    "C46_refuted",
    "C46_empty_refuted",
    "C46_topics",
    "C46_listed",
    "C46_written_topics"
   ],
   "note": "False of the code in two cases: bag records are stamped with the wall clock and read in that order, so a clock that steps back reorders samples (C46_refuted); an empty write cannot be loaded (C46_empty_refuted). C46_partial: any bag, any sequence of writes with a monotone clock."
  },
  {
   "property": "C47",
   "status": "partial",
   "theorems": [
    "C47_partial",
    "C47_rounded_partial",
    "C47_errors",
    "C47_names",
    "C47_refuted",
    "C47_bags_refuted",
    "C47_values_refuted"
   ],
   "note": "False of the code: two topics or two bags can share a cache file (C47_refuted, C47_bags_refuted), values are stored as int32 multiples of 0.0001 (C47_values_refuted). Proved for any history when the topic has a file of its own and values are representable (C47_partial) or below 214748 (within 0.00005)."
  },
  {
   "property": "C48",
   "status": "partial",
   "theorems": [
    "C48_partial",
    "C48_refuted",
    "C48_short_refuted",
    "C48_static_refuted"
   ],
   "note": "At most max_points exactly when max_points divides the number of samples; 2*max-1 samples are all kept, fewer than max_points raises ValueError, static frames raise."
  },
  {
   "property": "C49",
   "status": "partial",
   "theorems": [
    "C49_partial",
    "C49_current",
    "C49_refused",
    "C49_static",
    "C49_lookup",
    "C49_refuted",
    "C49_float_refuted"
   ],
   "note": "publish(idx) is proved for datetime samples; publish(0) after a spin round sends the current sample; float timestamps refuted."
  },
  {
   "property": "C50",
   "status": "partial",
   "theorems": [
    "C50_partial",
    "C50_bound_partial",
    "C50_refuted",
    "C50_restart_refuted",
    "C50_subscribe_refuted"
   ],
   "note": "Under every fair infinite schedule a spinning worker stops after stop(); not when stop is called before the worker starts, on restart, or with a subscription."
  },
  {
   "property": "C51",
   "status": "proved",
   "theorems": [
    "C51_int",
    "C51_tuple",
    "C51_none"
   ],
   "note": ""
  },
  {
   "property": "C52",
   "status": "partial",
   "theorems": [
    "C52_partial",
    "C52_no_expiry",
    "C52_refuted"
   ],
   "note": "For trees of complete frames; a failed constructor leaves an incomplete child that makes the call raise."
  },
  {
   "property": "C53",
   "status": "partial",
   "theorems": [
    "C53_partial",
    "C53_range",
    "C53_refuted",
    "C53_stuck_refuted",
    "C53_publishes"
   ],
   "note": "Forward from any index and backward from any index but the last; at the last message the backward button does nothing (refuted)."
  },
  {
   "property": "C54",
   "status": "proved",
   "theorems": [
    "C54_spin",
    "C54_resume",
    "C54_empty"
   ],
   "note": "For series with datetime timestamps not before 1970."
  },
  {
   "property": "C55",
   "status": "proved",
   "theorems": [
    "C55_relabel",
    "C55_keep",
    "C55_refused"
   ],
   "note": "All dims, coordinates, systems and ways to name the dimension; C55_example meets the hypotheses. The array may not have another dimension that is already called like the new one, and a coordinate with the name of the new dimension is replaced by its labels."
  },
  {
   "property": "C56",
   "status": "proved",
   "theorems": [
    "C56_publish"
   ],
   "note": "Stated up to message serialization."
  },
  {
   "property": "C57",
   "status": "proved",
   "theorems": [
    "C57_follow",
    "C57_static"
   ],
   "note": "For strictly increasing datetime timestamps."
  },
  {
   "property": "C58",
   "status": "partial",
   "theorems": [
    "C58_refuted",
    "C58_partial"
   ],
   "note": "False of the code: a partially written cache file makes every later cached load of the topic fail. Proved: other topics and uncached loads are unaffected."
  },
  {
   "property": "C59",
   "status": "partial",
   "theorems": [
    "C59_dataset",
    "C59_translation",
    "C59_rotation",
    "C59_matrix",
    "C59_matrix_refused",
    "C59_missing_refused",
    "C59_rebuild_partial",
    "C59_rebuild_static_refuted",
    "C59_dataset_closed",
    "C59_translation_closed",
    "C59_rotation_closed"
   ],
   "note": "Everything but the round trip is proved; the round trip dataset -> frame is proved for moving transforms and false for static ones, whose dataset has no time coordinate (KeyError)."
  },
  {
   "property": "C60",
   "status": "proved",
   "theorems": [
    "C60_quaternions",
    "C60_floats",
    "C60_in_range",
    "C60_samples"
   ],
   "note": "Relative to the one-dimensional squad of numpy-quaternion (total inside the range, exact at samples); hypotheses met by C60_example."
  },
  {
   "property": "C61",
   "status": "proved",
   "theorems": [
    "C61_qinterp",
    "C61_qinterp_refused",
    "C61_qinv",
    "C61_qinv_refused"
   ],
   "note": "xarray interp and sel of auxiliary coordinates along dim are parameters."
  },
  {
   "property": "C62",
   "status": "partial",
   "theorems": [
    "C62_angular",
    "C62_linear",
    "C62_twist",
    "C62_errors",
    "C62_transform",
    "C62_coordinates",
    "C62_angular_reference_partial",
    "C62_angular_moving_partial",
    "C62_linear_reference_partial",
    "C62_linear_moving_partial",
    "C62_representation",
    "C62_refuted",
    "C62_angular_closed",
    "C62_linear_closed",
    "C62_twist_closed",
    "C62_representation_closed"
   ],
   "note": "Lookups proved. Transforms: proved when the array is represented in the frame that is changed (the documented precondition); refuted otherwise: the representation_frame label is ignored, so the new labels are untrue. C62_coordinates: the other coordinates of the array, along time (of any number of dimensions) or not, are those of the array at the kept times. The options cutoff, outlier_thresh and mode are the subject of C83."
  },
  {
   "property": "C63",
   "status": "partial",
   "theorems": [
    "C63_filled",
    "C63_static",
    "C63_moving_partial",
    "C63_same",
    "C63_available",
    "C63_latest",
    "C63_apply",
    "C63_discrete_refuted",
    "C63_zero_refuted",
    "C63_single_refuted",
    "C63_unit_refuted"
   ],
   "note": "tf2 and PyKDL are modelled from their own source, not from /repo. Moving frames: agreement at times where every frame on the way has a sample or does not turn (elsewhere tf2 slerps where the library uses squad). False for discrete frames between their events, for a sample at time 0, for a tree of one frame and for non-unit rotations."
  },
  {
   "property": "C64",
   "status": "partial",
   "theorems": [
    "C64_all",
    "C64_floats_partial",
    "C64_pairs_partial",
    "C64_diagonal",
    "C64_refused",
    "C64_qaxis_refuted"
   ],
   "note": "Proved for quaternion dtype arrays of any shape and for float arrays with the components on the last or last but one axis; for an earlier qaxis the code swaps axes and the quaternions come out transposed (C64_qaxis_refuted). The pairs (one_to_one=True) are for unit quaternions, see C25."
  },
  {
   "property": "C65",
   "status": "partial",
   "theorems": [
    "C65_frame",
    "C65_moving",
    "C65_visible_partial",
    "C65_visible_refuted",
    "C65_points_partial",
    "C65_points_refused",
    "C65_points_refuted",
    "C65_vectors",
    "C65_vectors_refused",
    "C65_quaternions"
   ],
   "note": "What is drawn, refusals and equal scale are proved. Not everything drawn is visible: plot_reference_frame writes the z limits to the y axis (C65_visible_refuted; C65_visible_partial gives a condition under which all is visible), and the first call fixes the limits, so a later plot on the same axes may lie outside (C65_points_refuted; C65_points_partial for axes with autoscaling on). matplotlib autoscaling is an oracle with a contract."
  },
  {
   "property": "C66",
   "status": "partial",
   "theorems": [
    "C66_poses_partial",
    "C66_refused",
    "C66_incomplete",
    "C66_units_refuted",
    "C66_order_refuted"
   ],
   "note": "Proved for the units metres and centimetres and columns in the order X, Y, Z. False otherwise: millimetres are not converted (C66_units_refuted), and the axis labels of the columns are ignored for rotations and numpy positions (C66_order_refuted). pandas reading of the csv text, date parsing and rounding of seconds to ns are oracles."
  },
  {
   "property": "C67",
   "status": "partial",
   "theorems": [
    "C67_odometry",
    "C67_transforms",
    "C67_roundtrip",
    "C67_export",
    "C67_export_refuted"
   ],
   "note": "Loading and the round trip are proved (bags recorded in chronological order; times in whole nanoseconds, in exact arithmetic). export with a str path, as documented, raises AttributeError, and the default file is the same for all topics of a bag (C67_export_refuted)."
  },
  {
   "property": "C68",
   "status": "proved",
   "theorems": [
    "C68_compose",
    "C68_inverse",
    "C68_same_times",
    "C68_compose_closed",
    "C68_inverse_closed"
   ],
   "note": "unit rotations on the way; squad of unit rotations assumed unit (oracle contract)"
  },
  {
   "property": "C69",
   "status": "proved",
   "theorems": [
    "C69_series",
    "C69_chain",
    "C69_series_closed",
    "C69_chain_closed"
   ],
   "note": "unit rotations on the way and unit orientations; squad oracle contract: total, unit, exact at samples"
  },
  {
   "property": "C70",
   "status": "partial",
   "theorems": [
    "C70_single_partial",
    "C70_named_refused",
    "C70_named_refuted"
   ],
   "note": "Proved when the dimension is not named (axis omitted or -1). Naming it (dim=...) hands axis=0 to the method although the item is tiled along a new first axis: vectors and points are refused unless there are exactly three timestamps (C70_named_refused), and then silently wrong (C70_named_refuted)."
  },
  {
   "property": "C71",
   "status": "proved",
   "theorems": [
    "C71_shape_refused",
    "C71_target_refused",
    "C71_rotate_refused",
    "C71_top_refused",
    "C71_inputs_kept"
   ],
   "note": "methods of ReferenceFrame, rotate_vectors and the three top-level transforms; the exact exception where the code decides it first, otherwise that no result is returned"
  },
  {
   "property": "C72",
   "status": "partial",
   "theorems": [
    "C72_path",
    "C72_made",
    "C72_root",
    "C72_colour",
    "C72_short",
    "C72_bad_digit",
    "C72_marker_partial",
    "C72_arrow_refuted",
    "C72_path_closed",
    "C72_accepted",
    "C72_every_string",
    "C72_negative_refuted"
   ],
   "note": "Path, colours, refusals proved. get_marker: all types but Marker.ARROW, whose number 0 is taken for \"not given\" (C72_arrow_refuted). Case: C72_example. Malformed strings: exactly those Python's int(., 16) reads are accepted, so a component can be negative (C72_negative_refuted)."
  },
  {
   "property": "C73",
   "status": "proved",
   "theorems": [
    "C73_linear",
    "C73_linear_exact",
    "C73_angular",
    "C73_angular_rate"
   ],
   "note": "mode=\"quaternion\", no cutoff or outlier threshold; for the rates the differentiator is assumed exact on the curves"
  },
  {
   "property": "C74",
   "status": "partial",
   "theorems": [
    "C74_arc",
    "C74_arc_refuted",
    "C74_transform",
    "C74_rotation_partial",
    "C74_icp",
    "C74_plain",
    "C74_positions_refuted"
   ],
   "note": "a labelled v1 of shortest_arc_rotation is refused if the vectors are along its first dimension or that dimension has no coordinate; the labels of v2 are ignored (refuted); best_fit_rotation as in C40"
  },
  {
   "property": "C75",
   "status": "partial",
   "theorems": [
    "C75_rotation_vector",
    "C75_fixed_axis",
    "C75_wrap_refuted",
    "C75_axis_refuted",
    "C75_modes",
    "C75_outlier_partial",
    "C75_outlier_refuted",
    "C75_outlier_succeeds"
   ],
   "note": "Rotation-vector mode is exact for rotations about a fixed axis with angles inside (-2 pi, 2 pi); refuted when the angle passes 2 pi (off by 4 pi over the step) and for tumbling motions. Outlier suppression holds for two-axis arrays; arrays with more axes are refused."
  },
  {
   "property": "C76",
   "status": "partial",
   "theorems": [
    "C76_exact",
    "C76_order",
    "C76_distinct_refuted",
    "C76_check_partial",
    "C76_check_refuted",
    "C76_interpolation",
    "C76_close_refuted",
    "C76_velocity",
    "C76_stamp_partial",
    "C76_stamp_refuted",
    "C76_discrete"
   ],
   "note": "Timestamps are rounded to float64 (256 ns near today): the order is kept, but timestamps up to 254 ns apart can become one, small steps back are accepted, frames with closer samples are NaN at them, ROS stamps are off by up to 368 ns (all refuted); with samples more than 256 ns (734 ns for velocities) apart everything holds with explicit error bounds. Values are computed in exact arithmetic."
  },
  {
   "property": "C77",
   "status": "partial",
   "theorems": [
    "C77_refused",
    "C77_init",
    "C77_stub",
    "C77_exit",
    "C77_external",
    "C77_raise_refuted",
    "C77_interval",
    "C77_interval_refuted",
    "C77_single"
   ],
   "note": "Refuted parts: a call that raises because the process has a node of another name leaves a master running (until exit); the playing interval is truncated to whole milliseconds, so recordings above 1 kHz play without delay."
  },
  {
   "property": "C78",
   "status": "partial",
   "theorems": [
    "C78_superposition",
    "C78_rotation",
    "C78_constant_velocity",
    "C78_linear_defined",
    "C78_constant_rate",
    "C78_gain",
    "C78_cutoff",
    "C78_outlier_refuted",
    "C78_nan_refuted"
   ],
   "note": "Proved except the claim on NaN, which is refuted: one sample without estimate (suppressed outlier, missing orientation) makes the whole filtered series NaN. The filter of scipy is modelled in exact arithmetic. For angular velocities the differentiator is assumed exact on the curves (as in C34)."
  },
  {
   "property": "C79",
   "status": "partial",
   "theorems": [
    "C79_contract",
    "C79_constant_rate",
    "C79_lookup",
    "C79_sign_refuted",
    "C79_half_turn",
    "C79_parent_change",
    "C79_child_change",
    "C79_clock",
    "C79_append"
   ],
   "note": "Sign independence fails (C79_sign_refuted: samples 1, 1, -1 of a frame at rest interpolate to a turn). C79_child_change excludes a sample that is the exact negative of the one before. C79_half_turn shows that the bound of half a turn is needed. C79_contract discharges the contract of the squad oracle used by other properties. numpy-quaternion is modelled from its own source, read from memory of release 2023.0.3, in exact arithmetic."
  },
  {
   "property": "C80",
   "status": "proved",
   "theorems": [
    "C80_linear",
    "C80_angular",
    "C80_contract",
    "C80_linear_converges",
    "C80_angular_converges"
   ],
   "note": "The differentiator of numpy-quaternion is specified as the interpolating not-a-knot cubic spline (what scipy computes); how scipy computes it is not modelled, a concrete function meeting the specification is given and the specification is shown to determine the result. Real arithmetic; mode rotation_vector is C75."
  },
  {
   "property": "C81",
   "status": "proved",
   "theorems": [
    "C81_linear",
    "C81_angular",
    "C81_twist",
    "C81_reference_frame",
    "C81_moving_frame",
    "C81_reference_frame_linear",
    "C81_moving_frame_linear",
    "C81_recorded",
    "C81_linear_closed",
    "C81_angular_closed",
    "C81_twist_closed",
    "C81_reference_frame_closed",
    "C81_moving_frame_closed",
    "C81_reference_frame_linear_closed",
    "C81_moving_frame_linear_closed",
    "C81_recorded_closed"
   ],
   "note": "Default options (no outlier threshold, cutoff or rotation_vector mode). Quaternion samples must follow one continuous curve. Concrete recording with np_squad and np_derivative: C81_example."
  },
  {
   "property": "C82",
   "status": "partial",
   "theorems": [
    "C82_vectors",
    "C82_points",
    "C82_succeed",
    "C82_numbers",
    "C82_static",
    "C82_next_lost",
    "C82_refuted",
    "C82_quaternions",
    "C82_quaternions_succeed",
    "C82_quaternions_static",
    "C82_quaternions_refuted",
    "C82_vectors_closed",
    "C82_points_closed",
    "C82_succeed_closed",
    "C82_arithmetic",
    "C82_interpolation",
    "C82_rotation",
    "C82_orientations",
    "C82_single",
    "C82_single_orientation"
   ],
   "note": "\"Only the missing samples are lost\" holds for arrays without timestamps (C82_static, C82_quaternions_static); for timestamped arrays it is refuted (C82_refuted, C82_next_lost for every tree and array, C82_quaternions_refuted) and the exact outcome of every sample is proved (C82_vectors, C82_points; C82_quaternions for the squad that is installed). Coordinates on the last axis. C82_single, C82_single_orientation: single items without timestamps through moving frames. C82_arithmetic, C82_interpolation, C82_rotation, C82_orientations: the operations on floats that the computation of the NaN places rests on."
  },
  {
   "property": "C83",
   "status": "proved",
   "theorems": [
    "C83_linear",
    "C83_angular",
    "C83_twist",
    "C83_constant_velocity",
    "C83_constant_rate",
    "C83_refused",
    "C83_defaults",
    "C83_linear_closed",
    "C83_angular_closed",
    "C83_twist_closed"
   ],
   "note": "numpy-quaternion derivative and squad are parameters with their contracts; C83_example runs the library squad"
  },
  {
   "property": "C84",
   "status": "partial",
   "theorems": [
    "C84_row_partial",
    "C84_once_partial",
    "C84_refused",
    "C84_tiled",
    "C84_refuted"
   ],
   "note": "violated for batches of two or more items with two or more times (C84_refuted); C84_refused and C84_tiled say what happens instead"
  },
  {
   "property": "C85",
   "status": "proved",
   "theorems": [
    "C85_motion",
    "C85_compensated",
    "C85_refused"
   ],
   "note": "The timestamps pandas makes are not modelled (any increasing timestamps in C85_compensated)."
  },
  {
   "property": "C86",
   "status": "proved",
   "theorems": [
    "C86_frame",
    "C86_lookup",
    "C86_lookup_turn",
    "C86_points",
    "C86_vectors",
    "C86_orientations",
    "C86_converges"
   ],
   "note": "Positions and orientations of one frame, lookups and transformed points through trees; the orientation distance is that of the unit quaternions of a sign-continuous recording."
  },
  {
   "property": "C87",
   "status": "proved",
   "theorems": [
    "C87_history",
    "C87_lookup",
    "C87_arrays",
    "C87_velocities",
    "C87_transformed_velocities",
    "C87_estimates"
   ],
   "note": "For the modelled squad and spline derivative; transformed velocities for arrays with the default axes (coordinates last, time first); in exact arithmetic."
  },
  {
   "property": "C88",
   "status": "proved",
   "theorems": [
    "C88_history",
    "C88_lookup",
    "C88_arrays",
    "C88_velocities",
    "C88_transformed_velocities"
   ],
   "note": "for all API histories; points and linear velocities with the coordinates on the last axis and time first (the defaults)"
  },
  {
   "property": "C89",
   "status": "proved",
   "theorems": [
    "C89_between",
    "C89_between_velocities",
    "C89_calls",
    "C89_calls_velocities",
    "C89_apart"
   ],
   "note": "frames given as objects in the velocity theorems (a name resolves to its object, C02)"
  },
  {
   "property": "C90",
   "status": "proved",
   "theorems": [
    "C90_history",
    "C90_lookup",
    "C90_arrays",
    "C90_velocities",
    "C90_transformed_velocities",
    "C90_one_orientation"
   ],
   "note": "For the modelled np_squad interpolation and spline derivative. Points and vectors with the coordinates on the last axis, velocities with the default axes; entries are compared at valid indices. Sign flips between samples of one frame are not covered: they change results (C79_sign_refuted)."
  },
  {
   "property": "C91",
   "status": "proved",
   "theorems": [
    "C91_order",
    "C91_renumbered",
    "C91_trees"
   ],
   "note": "Creations with update=False and names not yet registered. The order of a frame's children (visible in anytree renderings) does depend on the order of creation and is not part of the claim."
  },
  {
   "property": "C92",
   "status": "proved",
   "theorems": [
    "C92_names",
    "C92_kept",
    "C92_frames",
    "C92_parents",
    "C92_answers",
    "C92_answers_velocities"
   ],
   "note": "Histories are sequences of calls of the public API; attributes of a frame overwritten by hand, and arrays changed in place after they were passed to a constructor, are outside the model."
  }
 ]
}