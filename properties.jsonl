{"id": "C01", "title": "Time values are always non-decreasing", "statement": "Every Time object that any sequence of public operations (construction, +, -, indexing by a slice, union, resample) returns successfully has non-decreasing values; inputs that would violate it are rejected with ValueError and never stored.", "quantifier": "all operation sequences and all input lists of time values", "why_tests_cant": "The set of operation chains is infinite; tests sample a few literals and never chains of operations.", "anchors": ["weldx/time.py: Time.__init__", "weldx/time.py: Time.__add__", "weldx/time.py: Time.__sub__", "weldx/time.py: Time.__getitem__", "weldx/time.py: Time.resample", "weldx/time.py: Time.union"]}
{"id": "C02", "title": "Arithmetic keeps moments and reference times consistent", "statement": "For an absolute t and a time delta d: the moments of t+d (and d+t) are the moments of t shifted by d, (t+d)-d has the moments and reference time of t, t-t' of two absolute times is relative and equals the difference of moments, absolute+absolute and delta-absolute are errors, and delta/delta arithmetic never creates a reference time.", "quantifier": "all times, all deltas, all reference times (explicit or implicit)", "why_tests_cant": "The result depends on three independent flags per operand (absolute, explicit reference, scalar); unit tests only cover chosen combinations and a few dates.", "anchors": ["weldx/time.py: Time.__add__", "weldx/time.py: Time.__radd__", "weldx/time.py: Time.__sub__", "weldx/time.py: Time.__rsub__", "weldx/time.py: Time.reference_time"]}
{"id": "C03", "title": "Time deltas plus reference time reproduce the moments", "statement": "For each absolute Time t, adding t.reference_time to t.as_timedelta() gives exactly the stored moments, and rebuilding Time(t.as_timedelta(), t.reference_time) gives a Time with the same moments and the same reference_time. Through as_quantity/_convert_quantity the moments survive and the reference_time becomes the first moment, so that it is kept exactly if it was the first moment.", "quantifier": "all absolute times, explicit or implicit reference time", "why_tests_cant": "Holds for arbitrary nanosecond values and reference times; tests check selected dates.", "anchors": ["weldx/time.py: Time.as_timedelta", "weldx/time.py: Time.as_quantity", "weldx/time.py: Time._convert_quantity", "weldx/time.py: Time.reference_time"]}
{"id": "C04", "title": "Time.union is the sorted set union", "statement": "The union of any non-empty list of duplicate-free time lists is strictly increasing, contains exactly the values contained in one of the inputs, and does not depend on the order or grouping of the inputs.", "quantifier": "all finite lists of Time objects", "why_tests_cant": "Unbounded number of inputs and interleavings of values; order independence quantifies over permutations.", "anchors": ["weldx/time.py: Time._union_class", "weldx/time.py: Time._union_instance"]}
{"id": "C05", "title": "Time.resample keeps the boundaries", "statement": "resample(n) returns exactly n values, resample(dt) returns values spaced by dt except possibly the last step which is in (0, dt]; in both cases first and last value equal the original minimum and maximum, and the result is sorted; invalid arguments raise.", "quantifier": "all times with at least two values, all n and all dt", "why_tests_cant": "Depends on divisibility of arbitrary integers; tests use three or four literals.", "anchors": ["weldx/time.py: Time.resample"]}
{"id": "C06", "title": "Time.equals tests time values and reference_time", "statement": "equals of two non empty Time objects compares values of the same kind pointwise (a scalar with each value of an index) and the explicitly passed reference times; it is True exactly if all of these agree, and raises a ValueError exactly for two indexes of different lengths. It is reflexive and symmetric, and transitive among objects of one length; True implies equal values and equal public reference_time if both are scalar or both are indexes. It does not decide equality of values and reference_time as documented: an implicit reference time differs from the same explicit one.", "quantifier": "all pairs of Time objects", "why_tests_cant": "Needs all pairs, including implicit reference times and different lengths.", "anchors": ["weldx/time.py: Time.equals", "weldx/time.py: Time.__eq__", "weldx/time.py: Time.reference_time"]}
{"id": "C07", "title": "Rigid transformations form a group under + and invert", "statement": "For valid static coordinate systems: + is associative, LocalCoordinateSystem() is neutral, invert is a two sided inverse and involutive, invert(a+b)=invert(b)+invert(a), and (a+b)-b = a, (a-b)+b = a; pointwise in time for time dependent systems sharing a time axis.", "quantifier": "all orthogonal orientations and all coordinates", "why_tests_cant": "Algebraic identities over a continuum of matrices and vectors.", "anchors": ["weldx/transformations/local_cs.py: LocalCoordinateSystem.__add__", "weldx/transformations/local_cs.py: LocalCoordinateSystem.__sub__", "weldx/transformations/local_cs.py: LocalCoordinateSystem.invert", "weldx/util/xarray.py: xr_matmul"]}
{"id": "C08", "title": "Orientations stay orthonormal and handedness multiplies", "statement": "If the inputs pass _check_and_normalize_orientation, every system produced by +, - and invert has an orthonormal orientation; its determinant is the product of the operands' determinants, so right handed systems never produce left handed ones.", "quantifier": "all operation trees over valid systems", "why_tests_cant": "Unbounded composition depth over a continuum of values.", "anchors": ["weldx/transformations/local_cs.py: LocalCoordinateSystem.__add__", "weldx/transformations/local_cs.py: LocalCoordinateSystem.__sub__", "weldx/transformations/local_cs.py: LocalCoordinateSystem.invert", "weldx/transformations/local_cs.py: LocalCoordinateSystem._check_and_normalize_orientation"]}
{"id": "C09", "title": "from_axis_vectors with two axes builds a right handed system", "statement": "Whichever axis is omitted, if the two given axes are orthogonal and non-zero the constructed orientation is orthonormal with determinant +1 and its given columns are the normalised inputs; with all three axes left handed inputs are accepted.", "quantifier": "all pairs of orthogonal non-zero vectors and each omitted position", "why_tests_cant": "Continuum of vectors; the modular index arithmetic must be right for each position.", "anchors": ["weldx/transformations/local_cs.py: LocalCoordinateSystem.from_axis_vectors", "weldx/transformations/local_cs.py: LocalCoordinateSystem._check_and_normalize_orientation"]}
{"id": "C10", "title": "Resetting the reference time keeps the moments", "statement": "reset_reference_time / the time_ref setter shifts the stored deltas so that every absolute time stamp is unchanged when a reference time existed, and leaves the deltas untouched otherwise; sequences of resets depend only on the last reference time.", "quantifier": "all time axes and all sequences of resets", "why_tests_cant": "Sequences of resets are unbounded and dates are arbitrary.", "anchors": ["weldx/transformations/local_cs.py: LocalCoordinateSystem.reset_reference_time", "weldx/util/xarray.py: WeldxAccessor.time_ref", "weldx/util/xarray.py: WeldxAccessor.reset_reference_time"]}
{"id": "C11", "title": "Linear interpolation reproduces samples, is bounded and constant outside", "statement": "Interpolating sorted samples (t_i,v_i): at t_i the value is v_i; before the first and after the last time the edge value is returned; every result lies between the minimum and maximum of the samples; between neighbours the graph is the straight line.", "quantifier": "all non-empty strictly increasing sample lists and all target times", "why_tests_cant": "Unbounded number of samples and real valued data.", "anchors": ["weldx/util/xarray.py: xr_interp_like", "weldx/util/xarray.py: xr_interp_coordinates_in_time", "weldx/transformations/local_cs.py: LocalCoordinateSystem._interp_time_coordinates"]}
{"id": "C12", "title": "Resampling to a finer grid never changes the interpolated motion", "statement": "If a sample list is interpolated to any grid that contains the original time points, interpolating the result again gives, at all times, the same value as interpolating the original (so interpolating to a time union first is harmless).", "quantifier": "all sample lists, all refining grids, all times", "why_tests_cant": "Quantifies over all grids; needs an inductive argument.", "anchors": ["weldx/util/xarray.py: xr_interp_like", "weldx/transformations/cs_manager.py: CoordinateSystemManager.time_union", "weldx/transformations/cs_manager.py: CoordinateSystemManager.get_cs"]}
{"id": "C13", "title": "get_cs(a,b,time) and get_cs(b,a,time) are inverse at every time", "statement": "For neighbouring systems the transformation returned for one direction is the inverse of the one returned for the opposite direction at the same time: at the times of the stored system, before and after them, and at all times if the orientation is constant or the system is an expression. Between the times of a rotating system this fails (refuted).", "quantifier": "all time dependent systems and all requested times", "why_tests_cant": "Fails or holds depending on times between the samples; tests only compare at sample times.", "anchors": ["weldx/transformations/cs_manager.py: CoordinateSystemManager._get_cs_on_edge", "weldx/transformations/cs_manager.py: CoordinateSystemManager._add_edges", "weldx/transformations/local_cs.py: LocalCoordinateSystem.interp_time", "weldx/transformations/local_cs.py: LocalCoordinateSystem.invert"]}
{"id": "C14", "title": "The coordinate system graph is always a tree", "statement": "After any sequence of add_cs, delete_cs and merge starting from a fresh manager, successful or failing, the graph is a tree containing the root: nodes are unique, each edge has its reverse edge, exactly one direction is 'defined', and between any two systems there is exactly one simple path.", "quantifier": "all operation sequences", "why_tests_cant": "Unbounded operation sequences and arbitrary tree shapes.", "anchors": ["weldx/transformations/cs_manager.py: CoordinateSystemManager.add_cs", "weldx/transformations/cs_manager.py: CoordinateSystemManager._add_edges", "weldx/transformations/cs_manager.py: CoordinateSystemManager.delete_cs", "weldx/transformations/cs_manager.py: CoordinateSystemManager.merge"]}
{"id": "C15", "title": "Static transformations are path independent", "statement": "In every manager reachable by add_cs (both directions of definition and updates) and delete_cs with static systems there is an assignment of absolute poses such that get_cs(a,b) = pose(a) relative to pose(b) for all a, b; hence get_cs(a,b)+get_cs(b,c) = get_cs(a,c), get_cs(a,a) is the identity and get_cs(b,a) = invert(get_cs(a,b)).", "quantifier": "all reachable managers and all triples of systems", "why_tests_cant": "Requires an invariant over unbounded histories and tree shapes.", "anchors": ["weldx/transformations/cs_manager.py: CoordinateSystemManager.get_cs", "weldx/transformations/cs_manager.py: CoordinateSystemManager._get_cs_on_edge", "weldx/transformations/cs_manager.py: CoordinateSystemManager._update_local_coordinate_system"]}
{"id": "C16", "title": "transform_data is consistent and invertible", "statement": "Transforming points from a to b and then b to c equals transforming from a to c; transforming there and back returns the original points; distances between points are preserved.", "quantifier": "all reachable static managers, systems and point clouds", "why_tests_cant": "Continuum of data and unbounded trees.", "anchors": ["weldx/transformations/cs_manager.py: CoordinateSystemManager.transform_data", "weldx/transformations/cs_manager.py: CoordinateSystemManager.get_data"]}
{"id": "C17", "title": "add_cs keeps reference times all-or-none", "statement": "In a manager without own reference time, after any sequence of add_cs and delete_cs calls either all or none of the time dependent systems have a reference time; a call violating this raises and changes nothing.", "quantifier": "all sequences of add_cs/delete_cs calls", "why_tests_cant": "The guard combines five flags with accumulated state; all histories must be covered.", "anchors": ["weldx/transformations/cs_manager.py: CoordinateSystemManager.add_cs", "weldx/transformations/cs_manager.py: CoordinateSystemManager.uses_absolute_times"]}
{"id": "C18", "title": "merge keeps reference times all-or-none", "statement": "Merging two managers that satisfy the all-or-none rule, if it succeeds, gives a manager that satisfies it, except in one case that merge does not check: self has no own reference time but systems with absolute times, other has an own reference time and systems with time deltas. In that case the result violates the rule.", "quantifier": "all pairs of valid managers with one common system", "why_tests_cant": "The guard is a disjunction of three conditions over both managers; the missing combination is not in the tests.", "anchors": ["weldx/transformations/cs_manager.py: CoordinateSystemManager.merge"]}
{"id": "C19", "title": "merge then unmerge restores both managers", "statement": "If other is merged into a manager without subsystems and nothing else happens, unmerge returns one instance with the nodes, edges, data, name, root, reference time and nested subsystems of other, and self is exactly what it was before; the same for any number of merges. If self had subsystems before, those are separated as well, so the list of subsystems is not restored. unmerge never raises.", "quantifier": "all pairs of managers for which merge succeeds", "why_tests_cant": "Arbitrary trees, arbitrary position of the common node relative to both roots.", "anchors": ["weldx/transformations/cs_manager.py: CoordinateSystemManager.merge", "weldx/transformations/cs_manager.py: CoordinateSystemManager.unmerge", "weldx/transformations/cs_manager.py: CoordinateSystemManager.subsystems", "weldx/transformations/cs_manager.py: CoordinateSystemManager.remove_subsystems"]}
{"id": "C20", "title": "Systems added after merging are not lost by unmerge", "statement": "Coordinate systems added after merging are kept in the current instance by unmerge if they are not attached below a system that came with a subsystem; those attached to a system of a subsystem are lost in all returned instances, although the docstring says they are kept.", "quantifier": "all histories merge; add_cs*; unmerge", "why_tests_cant": "Depends on where systems were added; tests only look at systems attached to the common node or check the warning.", "anchors": ["weldx/transformations/cs_manager.py: CoordinateSystemManager.unmerge"]}
{"id": "C21", "title": "unmerge returns each merged manager's own data", "statement": "After several merges, unmerge gives back each sub-instance with exactly the data it had when it was merged, provided no later merge has its common system inside an earlier subsystem; otherwise the earlier sub-instance also contains the data of the later one.", "quantifier": "all sequences of merges", "why_tests_cant": "Only visible when a later merge attaches at a node of an earlier subsystem and carries data there.", "anchors": ["weldx/transformations/cs_manager.py: CoordinateSystemManager.subsystems", "weldx/transformations/cs_manager.py: CoordinateSystemManager._subsystem_common_node_data"]}
{"id": "C22", "title": "delete_cs removes exactly the subtree", "statement": "delete_cs(x, True) removes x and all its descendants and nothing else: every other node, its data and every edge between surviving nodes is unchanged; with delete_children=False it raises and changes nothing if x has children; the root cannot be deleted; unknown names are ignored.", "quantifier": "all reachable managers and all names", "why_tests_cant": "Arbitrary trees.", "anchors": ["weldx/transformations/cs_manager.py: CoordinateSystemManager.delete_cs", "weldx/transformations/cs_manager.py: CoordinateSystemManager.get_child_system_names", "weldx/transformations/cs_manager.py: CoordinateSystemManager.get_parent_system_name"]}
{"id": "C23", "title": "Surviving subsystems stay intact after delete_cs", "statement": "After delete_cs every subsystem that is still listed has all its members in the graph and connected to each other, so it can still be extracted; a subsystem is dropped if one of its original members or the path to it is deleted.", "quantifier": "all reachable managers with any number of merged subsystems", "why_tests_cant": "Interaction of two tests in the code with arbitrary tree shapes.", "anchors": ["weldx/transformations/cs_manager.py: CoordinateSystemManager.delete_cs", "weldx/transformations/cs_manager.py: CoordinateSystemManager.subsystems"]}
{"id": "C24", "title": "delete_cs drops only affected subsystems", "statement": "A subsystem none of whose members is deleted stays registered if the names of the subsystems are unique; with two subsystems of the same name it can be dropped together with an affected one.", "quantifier": "all reachable managers", "why_tests_cant": "Only wrong if two merged managers have the same name, which the tests never do.", "anchors": ["weldx/transformations/cs_manager.py: CoordinateSystemManager.delete_cs", "weldx/transformations/cs_manager.py: CoordinateSystemManager.merge"]}
{"id": "C25", "title": "Data names are globally unique", "statement": "After any sequence of assign_data, delete_data, add_cs, delete_cs and merge a data name occurs at most once in the whole manager, so _find_data returns the unique owner; assigned data is retrieved unchanged until deleted.", "quantifier": "all operation sequences", "why_tests_cant": "Unbounded sequences over arbitrary trees.", "anchors": ["weldx/transformations/cs_manager.py: CoordinateSystemManager.assign_data", "weldx/transformations/cs_manager.py: CoordinateSystemManager.delete_data", "weldx/transformations/cs_manager.py: CoordinateSystemManager._find_data", "weldx/transformations/cs_manager.py: CoordinateSystemManager.data_names", "weldx/transformations/cs_manager.py: CoordinateSystemManager.merge"]}
{"id": "C26", "title": "Merged managers are independent objects", "statement": "Operations on a manager (assigning or deleting data, merging, deleting) change another manager only through objects both refer to: managers without common objects never influence each other, and data at the systems a manager had before a merge (the common one included) is its own. The stronger claim, that a merged manager is independent of the one merged into it and of extracted instances, is false: the data dictionaries of the other manager's systems and its list of subsystem records are shared.", "quantifier": "all operation sequences after a merge", "why_tests_cant": "Aliasing of the inner data dictionaries is invisible unless both objects are inspected after a mutation of one.", "anchors": ["weldx/transformations/cs_manager.py: CoordinateSystemManager.merge", "weldx/transformations/cs_manager.py: CoordinateSystemManager.assign_data", "weldx/transformations/cs_manager.py: CoordinateSystemManager.subsystems"]}
{"id": "C27", "title": "relabel renames and nothing else", "statement": "Relabelling one system to a new name gives an isomorphic manager with the same transformations and data; with subsystems it raises and changes nothing. Relabelling to a name in use succeeds and merges two systems, so that the graph is no tree any more.", "quantifier": "all managers and all names", "why_tests_cant": "The target name may already exist; tests only use fresh names.", "anchors": ["weldx/transformations/cs_manager.py: CoordinateSystemManager.relabel"]}
{"id": "C28", "title": "Failed operations leave the manager unchanged", "statement": "If add_cs, delete_cs, merge or assign_data raises, the manager is unchanged; delete_data of an unknown name leaves it unchanged if no subsystem record lists the name, but it can change a stale record before it raises.", "quantifier": "all managers, operations and arguments", "why_tests_cant": "Exhaustive over failure paths and states.", "anchors": ["weldx/transformations/cs_manager.py: CoordinateSystemManager.add_cs", "weldx/transformations/cs_manager.py: CoordinateSystemManager.merge", "weldx/transformations/cs_manager.py: CoordinateSystemManager.delete_data"]}
{"id": "C29", "title": "Saving and loading a manager keeps it", "statement": "A manager with two or more systems and without expressions written to ASDF and read again has the same name, reference time, systems, data, transformations and subsystem records, and the same root if the root is its first system; this is so for every manager built with the constructor and the operations other than renaming. (As first stated, for all managers and with the same root, it is refuted.)", "quantifier": "all reachable managers", "why_tests_cant": "Depends on history (relabelled root, only a root, expressions).", "anchors": ["weldx/tags/core/transformations/coordinate_system_hierarchy.py: CoordinateSystemManagerConverter", "weldx/transformations/cs_manager.py: CoordinateSystemManager._from_yaml_tree", "weldx/transformations/cs_manager.py: CoordinateSystemManager._from_subsystem_graph"]}
{"id": "C30", "title": "Manager equality is symmetric and sound", "statement": "CoordinateSystemManager.__eq__ is reflexive. True implies the same name, reference time, the same systems with equal data, and the same transformations; each subsystem of the first manager is in the second one. It is symmetric if both managers have subsystems or none of them has; a manager without subsystems equals the same manager with subsystems, but not the other way round. The root system is not compared.", "quantifier": "all pairs of managers", "why_tests_cant": "Asymmetric cases need particular pairs of contents.", "anchors": ["weldx/transformations/cs_manager.py: CoordinateSystemManager.__eq__", "weldx/util/util.py: compare_nested"]}
{"id": "C31", "title": "Reference time of the system returned by get_cs follows the documented table", "statement": "With a time the returned system has the reference time passed to the function, else the one of the manager, else (several edges) the one of the passed time; without time the one of the manager; dates for systems with deltas and no reference time of the manager are an error. The rows of the documented table that promise the lowest reference time of the systems do not hold (refuted).", "quantifier": "all combinations of function/CSM/CS reference times and times", "why_tests_cant": "Combinatorial table with arbitrary dates; tests use deltas that start at zero.", "anchors": ["weldx/transformations/cs_manager.py: CoordinateSystemManager.get_cs", "weldx/transformations/cs_manager.py: CoordinateSystemManager._get_cs_on_edge", "weldx/transformations/cs_manager.py: CoordinateSystemManager.time_union"]}
{"id": "C32", "title": "Directed trees survive the DiGraph converter", "statement": "For every directed tree (any mixture of edge directions, any attributes) build_graph(build_tree(g, root)) has the same nodes, edges, directions and attributes; graphs that are not trees are rejected.", "quantifier": "all finite directed trees and every node as start", "why_tests_cant": "Unbounded recursive structure.", "anchors": ["weldx/tags/core/graph.py: build_tree", "weldx/tags/core/graph.py: build_graph", "weldx/tags/core/graph.py: DiGraphConverter"]}
{"id": "C33", "title": "Step interpolation returns the last sample at or before the time", "statement": "TimeSeries/GenericSeries 'step' interpolation returns the value of the greatest sample time not after the query and the first value before the first sample.", "quantifier": "all sample lists, all query times", "why_tests_cant": "Unbounded data.", "anchors": ["weldx/util/xarray.py: xr_interp_like", "weldx/core/time_series.py: TimeSeries._interp_time_discrete"]}
{"id": "C34", "title": "Evaluating a series keeps its interpolation method", "statement": "Evaluating all dimensions of a discrete series at once gives its value (linear or step) at every combination of coordinates, in any order of the arguments; for linear series evaluating one dimension after the other gives the same. Refuted: the result of an evaluation is always linear, so step series evaluated step by step give other values unless the remaining dimensions are evaluated at their own coordinates.", "quantifier": "all discrete series, both interpolation methods, all evaluation orders", "why_tests_cant": "Requires all two-step evaluations; tests evaluate once.", "anchors": ["weldx/core/generic_series.py: GenericSeries._evaluate_array", "weldx/core/generic_series.py: GenericSeries.__call__"]}
{"id": "C35", "title": "Partial evaluation of expression series is order independent", "statement": "Fixing variables of an expression based GenericSeries group by group, in any order and grouping, gives the same value as fixing all at once, the remaining variables are the difference, and unknown names raise. Refuted: the coordinates of dimensions fixed in earlier steps are lost, single values are refused in a partial evaluation, and a symbol given in place of its dimension becomes the dimension of the result.", "quantifier": "all expressions, all partitions and orders of the variables", "why_tests_cant": "All orders over arbitrary expressions.", "anchors": ["weldx/core/generic_series.py: GenericSeries._evaluate_expr", "weldx/core/generic_series.py: GenericSeries.__call__", "weldx/core/math_expression.py: MathematicalExpression.evaluate", "weldx/core/math_expression.py: MathematicalExpression.set_parameter", "weldx/core/math_expression.py: MathematicalExpression.get_variable_names"]}
{"id": "C36", "title": "Measurement chains are trees rooted at the source", "statement": "After any sequence of add_transformation/create_transformation calls the chain graph is a tree rooted at the source signal, signal names are unique, and every transformation connects two existing signals; failing calls change nothing. A type of transformation is two letters for analog and digital in either case; everything else is a ValueError. A transformation needs a type or a function, and the function exactly one variable.", "quantifier": "all call sequences", "why_tests_cant": "Unbounded sequences and branchings.", "anchors": ["weldx/measurement.py: MeasurementChain.add_transformation", "weldx/measurement.py: MeasurementChain.create_transformation", "weldx/measurement.py: SignalTransformation"]}
{"id": "C37", "title": "Signals along a chain are type and unit consistent", "statement": "Along every edge of a chain the output signal's type and unit are those computed from the input signal and the transformation, and analog/digital type changes occur exactly at AD and DA transformations. The added signal has the given data.", "quantifier": "all chains", "why_tests_cant": "All chains and transformation types.", "anchors": ["weldx/measurement.py: MeasurementChain._determine_output_signal_type", "weldx/measurement.py: MeasurementChain._determine_output_signal_unit", "weldx/measurement.py: SignalTransformation"]}
{"id": "C38", "title": "Measurement chains survive serialisation", "statement": "from_dict(to_dict(c)) and the ASDF converter restore all signals and transformations, and subsequent default additions attach at the same signal as before.", "quantifier": "all chains incl. branching ones", "why_tests_cant": "Only branching chains with a particular last added signal show the difference.", "anchors": ["weldx/measurement.py: MeasurementChain.from_dict", "weldx/measurement.py: MeasurementChain.to_dict", "weldx/measurement.py: MeasurementChain._prev_added_signal"]}
{"id": "C39", "title": "Chains do not share data", "statement": "Attaching data to a signal of one measurement chain never changes another chain.", "quantifier": "all pairs of chains built from the same source", "why_tests_cant": "Only visible with two chains sharing a source object.", "anchors": ["weldx/measurement.py: MeasurementChain.add_signal_data", "weldx/measurement.py: MeasurementChain.from_equipment"]}
{"id": "C40", "title": "Shape validation implements the documented pattern language", "statement": "_compare_lists / _validate_instance_shape accept a shape exactly if it matches the expected list in the documented language (number, a~b range, name, ~ wildcard, (optional) from left to right, ... ; read from the end if the list begins with optional or arbitrary dimensions), and the returned names are the numbers of every match. None as wildcard does not work (refuted) and a missing named dimension raises IndexError (refuted).", "quantifier": "all shapes and all expected lists", "why_tests_cant": "Infinite pattern language.", "anchors": ["weldx/asdf/validators.py: _compare", "weldx/asdf/validators.py: _compare_lists", "weldx/asdf/validators.py: _validate_expected_list", "weldx/asdf/validators.py: _custom_shape_validator"]}
{"id": "C41", "title": "The range comparison returns a bool for each well formed range", "statement": "_compare(n, r) returns True exactly if n lies in the documented range and False otherwise, for numbers and ranges, except that a range without upper limit raises WxSyntaxError for every number below it (refuted), and the format check accepts ranges of letters that always raise (refuted).", "quantifier": "all integers and all range strings passing the format check", "why_tests_cant": "All open, closed and half open ranges.", "anchors": ["weldx/asdf/validators.py: _compare", "weldx/asdf/validators.py: _is_range_format_valid"]}
{"id": "C42", "title": "Every expected key is validated", "statement": "If every expected key of a nested specification is present, the node is accepted exactly if all shapes match with the same number for the same name at all places. Refuted for missing keys: the validation ends at the first missing key whatever follows; a conflict of names below the first level raises TypeError.", "quantifier": "all instances and all specifications", "why_tests_cant": "Depends on the order of keys in nested dictionaries.", "anchors": ["weldx/asdf/validators.py: _custom_shape_validator"]}
{"id": "C43", "title": "compare_nested is an equivalence relation on nested structures", "statement": "compare_nested(a, b) is True exactly if every item reachable in a is reachable under the same path in b, the leaves are of the same type and equal, and every container with a leaf has the same length or the same keys as its counterpart, apart from falsy keys. So it is reflexive, True for all equal structures, and True in both directions implies equality for structures without falsy keys. It is neither symmetric nor transitive: containers of a without leaves may have further items in b, lists and tuples are not told apart, falsy keys are ignored, containers that are referenced twice are compared once.", "quantifier": "all nested lists, tuples, dicts and leaves", "why_tests_cant": "All pairs of unbounded nested structures.", "anchors": ["weldx/util/util.py: compare_nested", "weldx/util/util.py: _EqCompareNested._visit", "weldx/util/util.py: dataclass_nested_eq"]}
{"id": "C44", "title": "Hashing a file in chunks equals hashing its content", "statement": "Hashing a file in chunks of any size but zero gives the digest of its content (with size zero it is the digest of the empty file). A saved ExternalFile has the hash of its content and, if asked for, the content; loading gives it back, writes it to a directory without the original file and refuses a content with another hash. asdf_save_content does not survive, so saving a loaded file again loses the content.", "quantifier": "all file contents and chunk sizes", "why_tests_cant": "Unbounded contents.", "anchors": ["weldx/util/external_file.py: ExternalFile.calculate_hash", "weldx/util/external_file.py: ExternalFile.write_to"]}
{"id": "C45", "title": "Metadata and structure survive to_yaml_tree", "statement": "to_yaml_tree leaves no None below the root, writes trees without None unchanged, keeps every other entry of a dictionary and adds nothing; lists keep their length exactly if they have no None. wx_metadata and wx_user come back and are removed from the tree, unless they consist of Nones; objects whose tree is not a dictionary can not have metadata.", "quantifier": "all nested trees", "why_tests_cant": "None inside lists is not tested.", "anchors": ["weldx/asdf/types.py: to_yaml_tree_metadata", "weldx/asdf/types.py: from_yaml_tree_metadata", "weldx/asdf/types.py: WeldxConverter"]}
{"id": "C46", "title": "Serialising a dataclass does not change it", "statement": "to_yaml_tree of a class made with dataclass_serialization_class leaves an object unchanged exactly if all its lists of strings are sorted; otherwise it sorts them in the object itself and changes nothing else. Without sort_string_lists the object stays.", "quantifier": "all objects", "why_tests_cant": "Tests compare the loaded object with the already mutated one.", "anchors": ["weldx/asdf/util.py: dataclass_serialization_class"]}
{"id": "C47", "title": "The highest tag version is selected", "statement": "get_highest_tag_version returns a tag of the list such that none is newer (first differing number decides) and returns None only for no tags; it refuses lists in which no base is a prefix of all tags, which accepts some lists with two bases. select_tag returns the last tag in string order, which is the newest only while all numbers have one digit.", "quantifier": "all version lists", "why_tests_cant": "Two digit components are not in tests.", "anchors": ["weldx/asdf/util.py: get_highest_tag_version", "weldx/asdf/util.py: uri_match", "weldx/asdf/types.py: WeldxConverter.select_tag"]}
{"id": "C48", "title": "Protected file entries cannot be changed through the view", "statement": "No sequence of operations on the dictionary view of a WeldxFile without clear changes the protected entries or gives answers that depend on them; all other entries behave like a dict. clear keeps the protected entries if all of them exist, otherwise it raises KeyError and loses those before the missing one.", "quantifier": "all operation sequences", "why_tests_cant": "Unbounded sequences including failing operations.", "anchors": ["weldx/asdf/util.py: _ProtectedViewDict", "weldx/asdf/file.py: WeldxFile"]}
{"id": "C49", "title": "copy and write_to respect overwrite=False", "statement": "With overwrite=False copy raises FileExistsError and leaves an existing file alone if it is no ASDF file; the constructor never changes such a file. An existing ASDF file is overwritten by copy also with overwrite=False; write_to overwrites in any case.", "quantifier": "all files and paths", "why_tests_cant": "Tests only check a non-ASDF existing file.", "anchors": ["weldx/asdf/file.py: WeldxFile.copy", "weldx/asdf/file.py: WeldxFile._handle_file_input", "weldx/asdf/file.py: WeldxFile.write_to"]}
{"id": "C50", "title": "WeldxFile behaves like a dict", "statement": "update, pop, popitem, get, setdefault and item access of WeldxFile have the effects of a dict, for all sequences of calls, and all but setdefault the same return values (a missing default is None). setdefault returns nothing; get without default does not raise; popitem returns an arbitrary item.", "quantifier": "all operation sequences", "why_tests_cant": "Sequences.", "anchors": ["weldx/asdf/file.py: WeldxFile.setdefault", "weldx/asdf/file.py: WeldxFile.pop", "weldx/asdf/file.py: WeldxFile.popitem"]}
{"id": "C51", "title": "TimedeltaIndex frequency aliases survive", "statement": "The conversion of frequency names maps multiples of fixed frequencies to the same multiple of a current name of the same length and is idempotent; anchored weeks get a meaningless name. A TimedeltaIndex comes back if it has no frequency, or if its converted frequency is its step; an empty index can not be written.", "quantifier": "all frequency strings", "why_tests_cant": "Replacement is a substring substitution; only few aliases are tested.", "anchors": ["weldx/tags/time/timedeltaindex.py: _handle_converted_pd_tdi_units"]}
{"id": "C52", "title": "LocalCoordinateSystem survives serialisation", "statement": "Converting to a tree and back gives exactly the same system if parts that count as neutral are static and exactly neutral and no scalar time is left over. Values are kept up to the numpy tolerances, the time axis and the reference time are kept exactly if a part with a time axis is written, and expressions are kept. Refuted: a resting system with a time axis becomes static; a rotation in place loses the time axis of its coordinates; displacements below 1e-8 vanish; a left over scalar time is lost.", "quantifier": "all systems", "why_tests_cant": "Systems that are time dependent but unity valued are not tested.", "anchors": ["weldx/tags/core/transformations/local_coordinate_system.py: LocalCoordinateSystemConverter"]}
{"id": "C53", "title": "Triangulated closed raster is watertight", "statement": "For closed meshes made from any number >=2 of profiles with any number >=3 of points every directed edge of the triangulation occurs exactly once and its reverse exactly once; so the surface is closed, consistently oriented and every edge has exactly two triangles.", "quantifier": "all numbers of profiles and points", "why_tests_cant": "Unbounded sizes; tests use one or two sizes and only counts.", "anchors": ["weldx/geometry.py: SpatialData._shape_triangles", "weldx/geometry.py: SpatialData._shape_profile_triangles", "weldx/geometry.py: SpatialData._shape_front_back_triangles"]}
{"id": "C54", "title": "Triangle indices are valid and blocks are disjoint", "statement": "All indices of SpatialData.from_geometry_raster lie inside the point array, each block of profiles only refers to its own points, the number of triangles is the closed form, and the open mesh has exactly the front and back outlines as boundary. The triangles of the sides traverse every edge of the first outline in one direction only, against the order of the points if the ordering is clockwise and along it otherwise, and they are the first triangles of the closed mesh.", "quantifier": "all numbers and sizes of raster blocks", "why_tests_cant": "Unbounded number of blocks.", "anchors": ["weldx/geometry.py: SpatialData.from_geometry_raster", "weldx/geometry.py: SpatialData._shape_triangles"]}
{"id": "C55", "title": "Rasterising a shape repeats no point", "statement": "The raster of a connected shape contains each segment's points once: joints are not duplicated, the final point is appended exactly if the shape is open.", "quantifier": "all connected shapes and raster widths", "why_tests_cant": "The test uses a shape starting at the origin which hides the broadcasting of the comparison.", "anchors": ["weldx/geometry.py: Shape.rasterize", "weldx/geometry.py: _vector_is_close"]}
{"id": "C56", "title": "Segment rasters start and end at the segment's end points", "statement": "A segment raster has max(round(length/width)+1,2) points, equally spaced in the position coordinate, first and last are point_start and point_end.", "quantifier": "all lengths, all raster widths > 0", "why_tests_cant": "Continuum of lengths and widths.", "anchors": ["weldx/geometry.py: DynamicShapeSegment.rasterize", "weldx/geometry.py: LineSegment", "weldx/geometry.py: ArcSegment"]}
{"id": "C57", "title": "Arc segments stay on their circle and meet both end points", "statement": "For every valid arc (start, end, center, winding) the parametrisation starts at start, ends at end, has constant distance to the center and runs in the given winding direction.", "quantifier": "all valid arcs", "why_tests_cant": "Continuum, trigonometric identities.", "anchors": ["weldx/geometry.py: ArcSegment.__init__", "weldx/geometry.py: ArcSegment._calculate_arc_angle", "weldx/geometry.py: ArcSegment._update_internals_and_get_series", "weldx/geometry.py: ArcSegment._check_valid"]}
{"id": "C58", "title": "construct_with_radius finds the requested circle", "statement": "For a radius of at least half the distance the constructed center has the distance radius to both points and lies on the requested side; for smaller radii the center is the midpoint.", "quantifier": "all point pairs, radii and flags", "why_tests_cant": "Continuum with sign flags.", "anchors": ["weldx/geometry.py: ArcSegment.construct_with_radius"]}
{"id": "C59", "title": "Reflections are involutive isometries fixing the line", "statement": "apply_reflection / apply_reflection_across_line map points of the line to themselves, applied twice give the original shape, preserve distances and flip the arc winding; a reflected connected shape is connected and arcs stay valid.", "quantifier": "all lines and shapes", "why_tests_cant": "Continuum.", "anchors": ["weldx/geometry.py: Shape.apply_reflection", "weldx/geometry.py: Shape.apply_reflection_across_line", "weldx/geometry.py: ArcSegment.apply_transformation"]}
{"id": "C60", "title": "Shapes stay connected", "statement": "Every Shape reachable by construction, add_segments, add_line_segments, translation, invertible transformation, reflection and linear interpolation is connected; unconnected additions are rejected and leave the shape unchanged.", "quantifier": "all operation sequences", "why_tests_cant": "Unbounded.", "anchors": ["weldx/geometry.py: Shape._check_segments_connected", "weldx/geometry.py: Shape.add_segments", "weldx/geometry.py: Shape.add_line_segments", "weldx/geometry.py: Shape.interpolate", "weldx/geometry.py: Shape.apply_transformation"]}
{"id": "C61", "title": "Line interpolation runs between its inputs", "statement": "linear_interpolation gives segment a at weight<=0, b at weight>=1, is affine in between and always yields a valid segment.", "quantifier": "all segments and weights", "why_tests_cant": "Continuum; degenerate intermediate segments.", "anchors": ["weldx/geometry.py: LineSegment.linear_interpolation"]}
{"id": "C62", "title": "Traces are continuous", "statement": "For traces of linear and radial horizontal segments local_coordinate_system is the pose of somebody who walks the distance along the lines and bends from the given start: there are no jumps in position or heading, a trace continues at the end of its first part, and _get_segment_index returns the segment containing the position. False for dynamic segments that do not start at the origin.", "quantifier": "all segment lists and positions", "why_tests_cant": "Unbounded lists and continuum.", "anchors": ["weldx/geometry.py: Trace._create_lookups", "weldx/geometry.py: Trace._get_segment_index", "weldx/geometry.py: Trace.local_coordinate_system", "weldx/geometry.py: RadialHorizontalTraceSegment", "weldx/geometry.py: LinearHorizontalTraceSegment"]}
{"id": "C63", "title": "Radial trace segments follow a circle", "statement": "Points of a RadialHorizontalTraceSegment have the constant distance radius to the center, the heading is the tangent and turns by the angle, direction by the winding, and the length is radius*angle; radius and angle must be positive.", "quantifier": "all radii, angles and windings", "why_tests_cant": "Continuum.", "anchors": ["weldx/geometry.py: RadialHorizontalTraceSegment"]}
{"id": "C64", "title": "VariableProfile returns the given profiles at their locations", "statement": "local_profile(location_i) is profile i, every location in between is given by the scheme of the enclosing interval with the relative position as weight, locations outside are clamped to the first/last profile. That every successfully constructed VariableProfile can be evaluated everywhere is false: a single profile raises IndexError, arcs can not be interpolated.", "quantifier": "all profile lists and locations", "why_tests_cant": "Unbounded lists; degenerate one-profile case.", "anchors": ["weldx/geometry.py: VariableProfile.__init__", "weldx/geometry.py: VariableProfile._segment_index", "weldx/geometry.py: VariableProfile.local_profile"]}
{"id": "C65", "title": "Geometry trace raster covers the trace", "statement": "The raster locations of _rasterize_trace start at 0, end at the trace length, are strictly increasing and equally spaced, and their number is the one nearest to the requested width; widths that are not positive raise ValueError.", "quantifier": "all lengths and raster widths", "why_tests_cant": "Continuum with rounding.", "anchors": ["weldx/geometry.py: Geometry._rasterize_trace"]}
{"id": "C66", "title": "has_cw_ordering is determined by the signed area", "statement": "For a closed polygon has_cw_ordering is False exactly if the (counter-clockwise) signed area is positive, it is invariant under translation and rotation of the start point, and reversing a polygon of non-zero area flips it.", "quantifier": "all polygons", "why_tests_cant": "Unbounded polygons.", "anchors": ["weldx/geometry.py: has_cw_ordering"]}
{"id": "C67", "title": "cross_sect_area equals the closed form of the gap", "statement": "For I-, V-, HV-, VV- and DV-Grooves with consistent parameters cross_sect_area equals the analytic gap area and does not depend on the drawing width.", "quantifier": "all parameter values", "why_tests_cant": "Continuum of parameters.", "anchors": ["weldx/welding/groove/iso_9692_1.py: IsoBaseGroove.cross_sect_area", "weldx/welding/groove/iso_9692_1.py: _compute_cross_sect_shape_points", "weldx/welding/groove/iso_9692_1.py: IGroove", "weldx/welding/groove/iso_9692_1.py: VGroove", "weldx/welding/groove/iso_9692_1.py: HVGroove"]}
{"id": "C68", "title": "Groove faces have the specified angles", "statement": "The faces of the profile returned by to_profile include the specified groove angles, root faces have height c and the root gap is b (VV-, V-, DV-Groove).", "quantifier": "all parameter values", "why_tests_cant": "Continuum; tests only check that the profile can be created or compare areas.", "anchors": ["weldx/welding/groove/iso_9692_1.py: VVGroove.to_profile", "weldx/welding/groove/iso_9692_1.py: VGroove.to_profile", "weldx/welding/groove/iso_9692_1.py: DVGroove.to_profile"]}
{"id": "C69", "title": "Every consistent DUGroove has a profile", "statement": "For parameters with t = h1 + h2 + c to_profile succeeds: all arcs are valid and all segments are connected.", "quantifier": "all parameter values with t=h1+h2+c", "why_tests_cant": "Only wrong for h1 != h2 and c != 0.", "anchors": ["weldx/welding/groove/iso_9692_1.py: DUGroove.to_profile"]}
{"id": "C70", "title": "Negative parameters are rejected", "statement": "Creating any groove with a negative parameter raises ValueError (documented in get_groove).", "quantifier": "all groove classes and parameters", "why_tests_cant": "Only some classes are tested.", "anchors": ["weldx/welding/groove/iso_9692_1.py: IsoBaseGroove.__post_init__", "weldx/welding/groove/iso_9692_1.py: get_groove", "weldx/welding/groove/iso_9692_1.py: DVGroove", "weldx/welding/groove/iso_9692_1.py: DUGroove", "weldx/welding/groove/iso_9692_1.py: DHVGroove", "weldx/welding/groove/iso_9692_1.py: DHUGroove"]}
{"id": "C71", "title": "Default heights fill the thickness", "statement": "If heights of a double sided groove are omitted, the completed heights satisfy h1 + h2 + c = t.", "quantifier": "all parameter values and omitted combinations", "why_tests_cant": "Three omission patterns over a continuum.", "anchors": ["weldx/welding/groove/iso_9692_1.py: _set_default_heights"]}
{"id": "C72", "title": "Both sides of a double sided groove extend equally and the area is the gap area", "statement": "For DHV/DHU grooves left and right workpiece have the same drawing width, so that cross_sect_area is the gap area.", "quantifier": "all parameter values", "why_tests_cant": "Only visible if the width is enlarged.", "anchors": ["weldx/welding/groove/iso_9692_1.py: DHVGroove.to_profile", "weldx/welding/groove/iso_9692_1.py: DHUGroove.to_profile", "weldx/welding/groove/iso_9692_1.py: _compute_cross_sect_shape_points"]}
{"id": "C73", "title": "Welding speed balances the filler volume", "statement": "compute_welding_speed: speed times groove area equals the wire volume per time for all positive inputs, is linear in the wire feed and inversely proportional to the area.", "quantifier": "all positive inputs", "why_tests_cant": "Continuum.", "anchors": ["weldx/welding/util.py: compute_welding_speed"]}
{"id": "C74", "title": "Orientation predicates are consistent", "statement": "point_left_of_line is antisymmetric under swapping the line's end points, invariant under translation and rotation, zero exactly for points on the line; vector_points_to_left_of_vector agrees with it.", "quantifier": "all points", "why_tests_cant": "Continuum.", "anchors": ["weldx/transformations/util.py: point_left_of_line", "weldx/transformations/util.py: vector_points_to_left_of_vector", "weldx/transformations/util.py: reflection_sign"]}
{"id": "C75", "title": "interp_time keeps the pose at every requested moment", "statement": "LocalCoordinateSystem.interp_time(time, time_ref) returns a system that has, at every requested time, the pose of the original system at the same moment (whatever the two reference times are), whose times are the requested ones; static systems and time None are returned unchanged; if only one side has a reference time a TypeError is raised. Every valid system has exactly one, orthonormal pose at every time. A new system whose orientations and coordinates have different times has the sorted union of both.", "quantifier": "all valid systems (discrete or expression), all increasing requests, all pairs of reference times", "why_tests_cant": "the identity has to hold for all combinations of reference time offsets and overlap of the axes; tests use a handful of tables", "anchors": ["weldx/transformations/local_cs.py: LocalCoordinateSystem.interp_time", "weldx/transformations/local_cs.py: LocalCoordinateSystem._interp_time_orientation", "weldx/transformations/local_cs.py: LocalCoordinateSystem._interp_time_coordinates", "weldx/transformations/local_cs.py: LocalCoordinateSystem._unify_time_axis"]}
{"id": "C76", "title": "A time independent system on the left of + takes over the times of the right system", "statement": "If the left operand of + is not time dependent, the sum has the times and the reference time of the right operand and is the pointwise composition (docstring of __add__). Fails for systems that were interpolated to a single time: they keep that time value and freeze the right operand.", "quantifier": "all pairs of a static left and any discrete right system", "why_tests_cant": "the defect needs a system with a left over scalar time coordinate", "anchors": ["weldx/transformations/local_cs.py: LocalCoordinateSystem.__add__", "weldx/transformations/local_cs.py: LocalCoordinateSystem.interp_time"]}
{"id": "C77", "title": "get_cs composes the stored systems pointwise in time", "statement": "At every requested time the system returned by get_cs(a, b, time) is the composition of the systems stored on the edges of the unique path from a to b, each one evaluated at the moment of its own time axis that belongs to the requested one (reference times of system, manager and request). Without time argument the requested times are the union of the times of the systems on the path: each of their times is contained and nothing else.", "quantifier": "all reachable managers with valid time dependent, static and expression based systems, all pairs of systems and all increasing times", "why_tests_cant": "The composition has arbitrary length and mixes interpolation, inversion and conversion of reference times; tests evaluate a few fixed trees at a few times.", "anchors": ["weldx/transformations/cs_manager.py: CoordinateSystemManager.get_cs", "weldx/transformations/cs_manager.py: CoordinateSystemManager.time_union", "weldx/transformations/cs_manager.py: CoordinateSystemManager._get_cs_on_edge", "weldx/transformations/cs_manager.py: CoordinateSystemManager._add_edges"]}
{"id": "C78", "title": "Arcs and bevels of U-, HU- and UV-Grooves", "statement": "For consistent parameters to_profile of the U-, HU- and UV-Groove succeeds, both workpieces are connected, the arc lies on the circle of radius R that the bevel touches, and the bevel leans by the angle beta up to the top face.", "quantifier": "all thicknesses, angles, radii, root faces/heights and drawing widths with the arc ending below the top face", "why_tests_cant": "The position of the arc depends on trigonometric expressions of up to four parameters; the tests compare a few grooves against recorded rasters.", "anchors": ["weldx/welding/groove/iso_9692_1.py: UGroove.to_profile", "weldx/welding/groove/iso_9692_1.py: HUGroove.to_profile", "weldx/welding/groove/iso_9692_1.py: UVGroove.to_profile"]}
{"id": "C79", "title": "Trace.rasterize gives points of the trace", "statement": "rasterize returns n+1 points, n nearest to length/width and at least 1, point i being the position of local_coordinate_system(i*length/n); consecutive points are at most length/n apart; widths that are not positive raise ValueError.", "quantifier": "all lists of linear and radial segments, start systems and widths", "why_tests_cant": "Unbounded lists, continuum of widths and loop over segment boundaries.", "anchors": ["weldx/geometry.py: Trace.rasterize", "weldx/geometry.py: Trace.local_coordinate_system"]}
{"id": "C80", "title": "Positions outside of a trace", "statement": "Positions behind the end of a trace with a straight end are served with the system at the end; the analogous claim in front of a straight start is false: the position is the start, but the heading is reversed. Bends are continued on their circle.", "quantifier": "all traces of linear and radial segments and all positions outside", "why_tests_cant": "Continuum; the tests only use positions on the trace.", "anchors": ["weldx/geometry.py: Trace.local_coordinate_system", "weldx/geometry.py: DynamicTraceSegment.local_coordinate_system", "weldx/geometry.py: DynamicTraceSegment._get_tangent_vec_discrete"]}
{"id": "C81", "title": "Cross sections of a geometry are congruent to the profile", "statement": "Geometry raster with a constant profile: n+1 cross sections at i*length/n; each lies in the plane through the trace point normal to the heading and has the same distances between its points as the raster of the profile.", "quantifier": "all profiles, traces of linear and radial segments and raster widths", "why_tests_cant": "Continuum of poses and profiles.", "anchors": ["weldx/geometry.py: Geometry._rasterize_constant_profile", "weldx/geometry.py: Geometry._get_transformed_profile_data", "weldx/geometry.py: Geometry._profile_raster_data_3d"]}
{"id": "C82", "title": "A WeldxFile is in sync with its file", "statement": "After the constructor the file contains the tree of the object, after close with synchronisation the changed tree, which can be read again. A file opened for reading is never changed by the constructor or close. Only a non-empty tree replaces the content of an existing file.", "quantifier": "all files, trees, modes and file system states", "why_tests_cant": "Needs all combinations of existing files, modes, trees and flags.", "anchors": ["weldx/asdf/file.py: WeldxFile", "weldx/asdf/file.py: WeldxFile._write_tree", "weldx/asdf/file.py: WeldxFile.close", "weldx/asdf/file.py: WeldxFile.sync"]}
{"id": "C83", "title": "Custom schemas validate what they are given for", "statement": "With one custom schema the content is valid whenever a file is opened or written. With a pair, the first is used when a file is opened and the second when a tree is passed; an opened file is however written with the schema for reading, and replacing the content of a file requires its old content to be valid for the schema for writing.", "quantifier": "all files, trees and schemas", "why_tests_cant": "Pairs of schemas with later writes are not tested.", "anchors": ["weldx/asdf/file.py: WeldxFile", "weldx/asdf/file.py: WeldxFile._handle_custom_schema", "weldx/asdf/file.py: WeldxFile.close"]}
{"id": "C84", "title": "copy keeps content and settings", "statement": "A copy has the content, mode, synchronisation flag and custom schema of the original, if that has the same schema for reading and writing. With two schemas the copy has one of them for both; the dictionary of keyword arguments is shared and changed, so a schema can get from one file to another.", "quantifier": "all files and targets", "why_tests_cant": "Needs the combination of a schema pair and copy.", "anchors": ["weldx/asdf/file.py: WeldxFile.copy", "weldx/asdf/file.py: WeldxFile.custom_schema", "weldx/asdf/file.py: WeldxFile"]}
{"id": "C85", "title": "A failing constructor changes no existing file", "statement": "If the constructor of WeldxFile raises, all files that existed before are unchanged; wrong modes and trees for read only files are refused before any file is touched. A new file that fails validation is left behind empty and makes the next attempt raise FileExistsError.", "quantifier": "all inputs and file system states", "why_tests_cant": "Tests do not look at the disk after exceptions.", "anchors": ["weldx/asdf/file.py: WeldxFile", "weldx/asdf/file.py: WeldxFile._handle_path", "weldx/asdf/file.py: WeldxFile._handle_file_input"]}
{"id": "C86", "title": "Interpolating a time series keeps its values at the requested moments", "statement": "The result of TimeSeries.interp_time has, at each requested moment, the value that the series has there: the sample, the interpolated value, the step value, the constant or the value of the expression. Relative times count from the reference time of the series. Repeating the interpolation changes nothing.", "quantifier": "all series, interpolation methods and requested times", "why_tests_cant": "Tests use a handful of times and compare numbers of one series each.", "anchors": ["weldx/core/time_series.py: TimeSeries.interp_time", "weldx/core/time_series.py: TimeSeries._interp_time_discrete", "weldx/core/time_series.py: TimeSeries._interp_time_expression"]}
{"id": "C87", "title": "Reference time of an interpolated time series", "statement": "The result of interp_time on discrete values has the reference time of the requested times, also if the series itself is absolute and the times are relative: then the result is relative. An expression keeps its own reference time.", "quantifier": "all series and requested times", "why_tests_cant": "Tests never look at the reference time of the result for relative requests.", "anchors": ["weldx/core/time_series.py: TimeSeries.interp_time", "weldx/core/time_series.py: TimeSeries.reference_time"]}
{"id": "C88", "title": "Saving and loading a time series keeps its values", "statement": "A discrete series with at least two values is read back identically from its tree. A constant keeps its value, but loses its time and reference time. An expression without reference time is kept; a reference time is lost and the values at absolute times change.", "quantifier": "all series", "why_tests_cant": "Round trip tests use no reference times with expressions and compare with an equality that ignores them.", "anchors": ["weldx/tags/core/time_series.py: TimeSeriesConverter.to_yaml_tree", "weldx/tags/core/time_series.py: TimeSeriesConverter.from_yaml_tree", "weldx/tags/time/time.py: TimeConverter"]}
{"id": "C89", "title": "Equal time series have equal values", "statement": "The comparison of time series is reflexive and symmetric; equal discrete series have the same times, reference time, method and values. Equal expressions have equal values if their reference times are equal; the comparison does not look at these.", "quantifier": "all pairs of time series", "why_tests_cant": "Needs all pairs; tests compare few examples.", "anchors": ["weldx/core/time_series.py: TimeSeries.__eq__", "weldx/core/time_series.py: TimeSeries.reference_time"]}
{"id": "C90", "title": "Interpolating a manager in time keeps the poses at the requested moments", "statement": "interp_time changes nothing but the systems on the edges: names, structure, data, subsystems and directions stay. At each requested moment every concerned system has the same pose as before; it is given at exactly the requested times with the requested reference time, or does not depend on time; the opposite edge stores its inverse. All other systems are unchanged up to the reference time of the manager. False: a manager with reference time refuses time deltas that get_cs accepts; a call that names the root fails half way and leaves old inverses; without times an expression makes the call fail; an object used for two edges gets a reference time that the stored inverse lacks.", "quantifier": "all managers that are trees, all strictly increasing times, any list of systems, in place or not", "why_tests_cant": "Tests interpolate a few systems and compare times and values of selected edges; errors half way and shared objects do not occur.", "anchors": ["weldx/transformations/cs_manager.py: CoordinateSystemManager.interp_time", "weldx/transformations/cs_manager.py: CoordinateSystemManager.get_parent_system_name", "weldx/transformations/local_cs.py: LocalCoordinateSystem.interp_time", "weldx/transformations/local_cs.py: LocalCoordinateSystem.invert"]}
{"id": "C91", "title": "Interpolating a copy of a manager leaves all existing objects unchanged", "statement": "Without in_place interp_time changes neither the manager nor any existing coordinate system, even if it raises, and the returned manager has no system in common with them. In place an existing coordinate system is either unchanged or gets the reference time of the manager and nothing else, and only if it belongs to a defined edge. That the systems of the caller stay unchanged is false.", "quantifier": "all managers, shared objects included, all arguments, successful calls and errors", "why_tests_cant": "Tests do not look at the objects that were passed to add_cs after the call.", "anchors": ["weldx/transformations/cs_manager.py: CoordinateSystemManager.interp_time", "weldx/transformations/local_cs.py: LocalCoordinateSystem.reset_reference_time"]}
{"id": "C92", "title": "Tag patterns and the validation of property tags", "statement": "uri_match holds iff the uri is of the form the pattern describes: '**' any text, '*' text without '/', everything else itself; for a list of patterns iff one of them does. WxPropertyTagValidator reports exactly the properties whose tag matches no pattern, once and in document order; more patterns never add reports. False: an accepted property need not have a wanted tag, values of types without a known tag pass always.", "quantifier": "all patterns, lists of patterns, uris and nodes", "why_tests_cant": "Tests try two tags against two patterns; the meaning of the stars and values without tags do not occur.", "anchors": ["weldx/asdf/validators.py: WxPropertyTagValidator.validate", "weldx/asdf/util.py: uri_match"]}
{"id": "C93", "title": "A pattern selects the first converter and the highest matching tag", "statement": "get_converter_for_tag returns the first registered converter with a matching pattern, None iff there is none, and warns iff two match. get_highest_tag_version returns a matching tag of the extension that no matching tag exceeds, None iff no tag matches; with one base tag and readable versions it succeeds and does not depend on the order of the extension. False: a result does not mean that only one base tag matched.", "quantifier": "all lists of converters, extensions and patterns, any total order of versions", "why_tests_cant": "Tests look up single tags of the installed extension.", "anchors": ["weldx/asdf/util.py: get_converter_for_tag", "weldx/asdf/util.py: get_highest_tag_version"]}
{"id": "C94", "title": "Unit validation reports exactly the values with a wrong or without unit", "statement": "The wx_unit validator reports the position of every value next to a leaf of the validation dictionary that has no unit or a unit of another dimension, and nothing else, also before an exception. It ends without exception iff the nested dictionaries exist in the document and all units are readable. Units of the same dimension can be exchanged. False: missing values are reported (a missing leaf is accepted, a missing mapping raises KeyError); unreadable expectations are always noticed.", "quantifier": "all documents and validation dictionaries, any unit registry", "why_tests_cant": "Tests validate a handful of documents with fixed units.", "anchors": ["weldx/asdf/validators.py: _walk_validator", "weldx/asdf/validators.py: _unit_validator", "weldx/asdf/util.py: _get_instance_units", "weldx/tags/core/data_array.py: DataArrayConverter.units_from_tagged"]}
{"id": "C95", "title": "The content of a quality standard", "statement": "QualityStandard(dir) succeeds iff all manifest files are named <standard>-<version>.<ext> for one standard and have id and tags. get_mappings(v) returns the id with the text of the manifest of v and each uri with the text of its schema file (of the last tag with that uri); KeyError iff no manifest is of version v, and it succeeds iff all its schema files exist. Without a version the highest one is used, independent of the order of the files; the order of the directory does not matter with one manifest per version. False: it never matters (std-1.yml beside std-1.yaml); every standard has a latest version (none without manifests).", "quantifier": "all directories with manifests and schemas, any totally ordered version type and parser", "why_tests_cant": "Tests use one directory with two versions.", "anchors": ["weldx/config.py: QualityStandard.__init__", "weldx/config.py: QualityStandard.get_mappings", "weldx/config.py: QualityStandard._map_file_content"]}
{"id": "C96", "title": "Registering, loading and enabling quality standards", "statement": "After adding a standard its name stands for it and other names are unaffected; of several with one name the last one counts. Enabling adds exactly the manifest and schema mapping of the chosen version after what was enabled before, fails with KeyError for unknown names, and changes nothing on an error. Loading the installed standards registers all that the entry points return, in order, iff all of it are standards; otherwise TypeError with those before the first other value registered. False: loading is all or nothing; enabling another version replaces the first one.", "quantifier": "all registries, standards, entry points and versions", "why_tests_cant": "Tests add and enable one standard per test and reset the configuration.", "anchors": ["weldx/config.py: Config.add_quality_standard", "weldx/config.py: Config.enable_quality_standard", "weldx/config.py: Config.load_installed_standards"]}
{"id": "C97", "title": "Sources and transformations of measurement equipment are chosen by name", "statement": "Equipment can be created iff no two sources and no two transformations have the same name; get_source and get_transformation find exactly the one with the name (KeyError otherwise). from_equipment creates the chain of the only source, or of the named one among several, ValueError without a choice; add_transformation_from_equipment adds what add_transformation adds for the chosen transformation. from_parameters creates a chain that shares nothing with any other chain. False: the given name is respected (it is ignored for a single source).", "quantifier": "all equipment, names, chains and units", "why_tests_cant": "Tests use equipment with one or two entries and existing names.", "anchors": ["weldx/measurement.py: MeasurementEquipment.__post_init__", "weldx/measurement.py: MeasurementEquipment.get_source", "weldx/measurement.py: MeasurementEquipment.get_transformation", "weldx/measurement.py: MeasurementChain.from_equipment", "weldx/measurement.py: MeasurementChain.from_parameters", "weldx/measurement.py: MeasurementChain.add_transformation_from_equipment"]}
{"id": "C98", "title": "A chain knows the equipment and the data of its signals", "statement": "After any calls, get_equipment of a signal is the equipment of the call that added it (None without), KeyError iff there is no such signal, and this equipment contains the transformation (or source) of the signal. Failing calls change nothing. Attached data is never replaced; it can be attached iff the signal exists and has none, and does not affect the other signals.", "quantifier": "all chains, all sequences of additions with and without equipment and of attached data", "why_tests_cant": "Tests check get_equipment after two additions.", "anchors": ["weldx/measurement.py: MeasurementChain.get_equipment", "weldx/measurement.py: MeasurementChain.get_signal_data", "weldx/measurement.py: MeasurementChain.add_signal_data", "weldx/measurement.py: MeasurementChain.add_transformation_from_equipment"]}
{"id": "C99", "title": "Equality of measurement chains", "statement": "Two chains are equal iff they have the same name, equal sources and source equipment, equal signals under the same names and the same connections; it is an equivalence. False: equal chains have the same transformations or equipment - networkx compares the edges without their attributes, so chains with different transformations of the same names and resulting signals are equal.", "quantifier": "all chains", "why_tests_cant": "Tests compare chains that differ in their names or signals.", "anchors": ["weldx/measurement.py: MeasurementChain.__eq__"]}
{"id": "C100", "title": "xr_check_coords accepts exactly the coordinates that fulfil the reference", "statement": "xr_check_coords returns True iff every entry of the reference is fulfilled: the coordinate is present (or optional), has the values, one of the types, the unit and the dimensionality. Otherwise the error is that of the first failing check (values, type, unit, dimensionality) of the first failing entry: KeyError, ValueError, TypeError, ValueError, DimensionalityError. Required values that differ are met exactly. False: accepted values are always equal (a single value is repeated), a dimensionless unit may be given as empty string, the resolution of time types is checked consistently.", "quantifier": "all coordinates, references, units and data types", "why_tests_cant": "Tests check a few references against one data array.", "anchors": ["weldx/util/xarray.py: xr_check_coords", "weldx/util/xarray.py: _check_dtype", "weldx/util/xarray.py: xr_check_dimensionality"]}
{"id": "C101", "title": "Discrete series fulfil the constraints of their class", "statement": "A data array is accepted for a derived series iff it has the required dimensions, a compatible unit, compatible units for its dimensions and the required coordinates, independent of the iteration order of sets; GenericSeries accepts everything. A SpatialSeries has the dimensions s and c, a dimensionless coordinate s that carries units and exactly the coordinates x, y, z.", "quantifier": "all data arrays, all derived classes, all iteration orders", "why_tests_cant": "Tests define a few derived classes and single violations.", "anchors": ["weldx/core/generic_series.py: GenericSeries._check_constraints_discrete", "weldx/core/generic_series.py: GenericSeries._check_req_items", "weldx/core/spatial_series.py: SpatialSeries"]}
{"id": "C102", "title": "Expression series fulfil the constraints of their class", "statement": "The units of the variables are the given, else the required ones, else dimensionless; KeyError iff one belongs to no variable. An expression is accepted iff variables, dimensions, resulting unit, units of the dimensions and coordinates of the parameters fulfil the constraints. The two test evaluations ensure that free dimensions differ from each other and from all dimensions of parameters. False: a required dimension may be a renamed variable (KeyError); the required coordinates of a dimension are ensured (parameters without coordinates and renamed variables pass).", "quantifier": "all expressions, parameters, dimensions, units and derived classes", "why_tests_cant": "Tests check one violation for each constraint.", "anchors": ["weldx/core/generic_series.py: GenericSeries._init_expression", "weldx/core/generic_series.py: GenericSeries._init_get_updated_units", "weldx/core/generic_series.py: GenericSeries._init_get_updated_dims", "weldx/core/generic_series.py: GenericSeries._test_expr", "weldx/core/generic_series.py: GenericSeries._check_constraints_expression", "weldx/core/generic_series.py: GenericSeries._check_units_and_coords", "weldx/core/generic_series.py: GenericSeries._get_expression_dims"]}
{"id": "C103", "title": "A geometry with a variable profile shows the local profile in every section", "statement": "The raster of a geometry with a VariableProfile has n+1 sections, n the rounded quotient of trace length and raster width. Section i is the raster of the profile at the fraction i/n of the profile's locations, put into the coordinate system at the fraction i/n of the trace; the raster exists iff all these profiles exist and can be rasterised. The ends show the first and the last profile; a profile that does not vary gives the raster of the constant profile. Errors: ValueError for a trace width <= 0, otherwise that of the first failing section. False: a VariableProfile of a single profile can be rasterised; stack=False keeps the shapes apart.", "quantifier": "all traces of lines and bends, all variable profiles, all raster widths", "why_tests_cant": "Tests compare one geometry with two or three profiles at a handful of locations.", "anchors": ["weldx/geometry.py: Geometry._rasterize_variable_profile", "weldx/geometry.py: Geometry._get_local_profile_data", "weldx/geometry.py: Geometry.rasterize", "weldx/geometry.py: VariableProfile.local_profile"]}
{"id": "C104", "title": "Rasters with and without stacking contain the same points", "statement": "For a constant profile, rasterize(stack=False) gives for each shape the raster of a geometry with this shape alone. It succeeds iff rasterize(stack=True) does, with the same error otherwise. Section i of the stacked raster consists of the sections i of the shapes in their order, so the points of both rasters are the same.", "quantifier": "all non-empty profiles, traces and raster widths", "why_tests_cant": "Tests rasterise a single groove with stack=False and compare shapes of arrays.", "anchors": ["weldx/geometry.py: Geometry._rasterize_constant_profile", "weldx/geometry.py: Geometry.rasterize", "weldx/geometry.py: Profile.rasterize"]}
{"id": "C105", "title": "A coordinate system stores the given arrays at the given times", "statement": "LocalCoordinateSystem(orientation, coordinates, time, time_ref) with plain arrays succeeds iff each array with several values has as many as there are times, the orientations can be normalised and the unit is a length. It stores the normalised orientations, the coordinates and the points in time of Time(time, time_ref); it is static and drops the times iff both arrays hold one value. Missing arguments are the identity and the origin; a time_ref alone is the only point in time. Errors: ValueError for other lengths or missing times, DimensionalityError for other units. False: times and reference times that are dropped are reported with a warning (a single time or a reference time alone is dropped silently).", "quantifier": "all arrays of any length, times of any kind, reference times, units; norm arbitrary", "why_tests_cant": "Tests construct a dozen systems with two or three time steps and check a few errors.", "anchors": ["weldx/transformations/local_cs.py: LocalCoordinateSystem.__init__", "weldx/transformations/local_cs.py: LocalCoordinateSystem._build_time", "weldx/transformations/local_cs.py: LocalCoordinateSystem._build_orientation", "weldx/transformations/local_cs.py: LocalCoordinateSystem._build_coordinates", "weldx/transformations/local_cs.py: LocalCoordinateSystem._check_and_normalize_orientation"]}
{"id": "C106", "title": "A coordinate system made from data arrays or time series keeps their points in time", "statement": "With one data array or one discrete TimeSeries with times the points in time of the system are those of the array (dates or deltas with reference time); a given reference time only changes the reference, but defines the points in time of deltas without reference; the values of `time` do not matter. Two arrays with different deltas and equal reference times are interpolated at the union of their times; with different references or only one reference the constructor raises. A TimeSeries of one value gives a static system, other shapes than (n,3) are refused, an expression keeps the reference time. False: both arrays keep their points in time (with equal deltas and different reference times the coordinates are silently moved to the reference of the orientation).", "quantifier": "all data arrays, discrete and symbolic time series, reference times; interpolation functions arbitrary", "why_tests_cant": "Tests use one pair of arrays with equal references, and one time series.", "anchors": ["weldx/transformations/local_cs.py: LocalCoordinateSystem.__init__", "weldx/transformations/local_cs.py: LocalCoordinateSystem._unify_time_axis", "weldx/transformations/local_cs.py: LocalCoordinateSystem._coords_from_discrete_time_series", "weldx/util/xarray.py: WeldxAccessor.time_ref_restore", "weldx/util/xarray.py: WeldxAccessor.time_ref"]}
{"id": "C107", "title": "Rotations from Euler angles respect units and sequences", "statement": "WXRotation.from_euler accepts exactly the sequences (one to three letters, all small or all capital, no equal neighbours), dimensionless units and shapes that fit (ValueError or DimensionalityError otherwise). The rotation remembers radians iff the name of the unit contains rad or there is none. Quantities are converted by their unit: the result is the rotation by the angles in rad, whatever the unit is called and whatever the argument degrees says; plain numbers are rad or degrees. All results are proper rotations; around one axis it is the elementary rotation, sequences are composed from left to right (moving axes, upper case) or right to left (fixed axes), and moving axes are fixed axes in reverse order.", "quantifier": "all sequences, units, angles (real numbers), shapes", "why_tests_cant": "Tests construct a handful of rotations with rad and degree.", "anchors": ["weldx/transformations/rotation.py: WXRotation.from_euler"]}
{"id": "C108", "title": "Saved rotations are loaded as the same rotations", "statement": "Converting a rotation to a tree and back gives the same rotations and the same kind of constructor for quaternions, matrices and rotation vectors; rotations without metadata become quaternions. Euler angles are kept for sequences of one and three axes, and for two axes if the second angle lies between -90 and 90 degrees. A stack of one rotation is loaded as a single rotation. False: Euler angles of two axes are kept (any second angle beyond 90 degrees gives another rotation, because the third angle is cut off).", "quantifier": "all rotations, all sequences, any as_euler that fulfils SciPy's documentation", "why_tests_cant": "Tests use small angles only.", "anchors": ["weldx/tags/core/transformations/rotation.py: WXRotationConverter.to_yaml_tree", "weldx/tags/core/transformations/rotation.py: WXRotationConverter.from_yaml_tree", "weldx/transformations/rotation.py: WXRotation.from_euler", "weldx/transformations/rotation.py: WXRotation.from_quat", "weldx/transformations/rotation.py: WXRotation.from_matrix", "weldx/transformations/rotation.py: WXRotation.from_rotvec"]}
{"id": "C109", "title": "Side of a point relative to a plane", "statement": "orientation_point_plane accepts exactly three pairwise different points (ValueError otherwise) and gives the sign of the scalar product of the normal of the plane and the vector to the point, 0 exactly for points of the plane. It is alternating under exchange of points and changes by the sign of the determinant under affine maps. False: three different points always span a plane (collinear points are accepted and give 0 for all points); the result is 1 if the points are ordered clockwise as seen from the point (it is 1 exactly for counter-clockwise order). scale_matrix multiplies the coordinates by its factors.", "quantifier": "all points, all planes, all affine maps", "why_tests_cant": "Tests use a few planes and points.", "anchors": ["weldx/transformations/util.py: orientation_point_plane", "weldx/transformations/util.py: orientation_point_plane_containing_origin", "weldx/transformations/util.py: scale_matrix"]}
{"id": "C110", "title": "Times of the frames of media files", "statement": "A MediaFile from frames needs a rate, at least one frame, colored frames and a timestamp (or nothing) as reference time (errors otherwise). There are as many times as frames, the first one is 0 and the last one the duration, which is the number of frames over the rate. A DataArray is kept as it is. A file gets its modification time as default reference time, and the rate and the count of its stream. False: frame i is at i over the rate (it is late by i/((n-1) fps), up to a whole frame for the last one).", "quantifier": "all lists of frames, rates, reference times, files", "why_tests_cant": "Tests check only the length of the data and the rate.", "anchors": ["weldx/util/media_file.py: MediaFile.__init__", "weldx/util/media_file.py: MediaFile._init_from_sequence", "weldx/util/media_file.py: MediaFile._init_from_path", "weldx/util/media_file.py: MediaFile._wrap_data_array", "weldx/util/media_file.py: MediaFile.duration"]}
{"id": "C111", "title": "Saved media files are loaded as the same media files", "statement": "Converting any MediaFile to a tree and back gives the same frames, times, rate, resolution, count and reference time, provided that the file, if there is one, is unchanged; a tree without data and file raises a RuntimeError. The rate is the average rate of the stream or else the inverse of the time base, the count is the one of the stream or else the whole number of frames in the duration, and unknown (NaN) exactly if no duration is known. False: the count is the number of frames that are read from the file.", "quantifier": "all media files, trees and streams", "why_tests_cant": "Tests save one video and one array.", "anchors": ["weldx/tags/core/media_file.py: MediaFileConverter.to_yaml_tree", "weldx/tags/core/media_file.py: MediaFileConverter.from_yaml_tree", "weldx/util/media_file.py: _get_frame_rate", "weldx/util/media_file.py: _get_frame_count", "weldx/util/media_file.py: _pts_to_frame", "weldx/util/media_file.py: MediaFile._get_video_metadata"]}
{"id": "C112", "title": "Shapes read from tagged trees are the shapes of the objects", "statement": "For the tree of any saved number, array, quantity, Variable, DataArray, index, Time or TimeSeries, _get_instance_shape gives the shape of the object, with [1] for scalars; for an index with a frequency it is the number of its elements. All objects except an empty index can be saved (IndexError). False: a single point in time (Timestamp, Timedelta, Time) is a scalar of shape [1] (it is None); only shapes are returned (any mapping with the key shape gives its entry); a quantity with a plain list as value has the length as shape (it is [1]).", "quantifier": "all objects of the listed kinds, all shapes, any inference of frequencies that describes the values", "why_tests_cant": "Tests check a few arrays.", "anchors": ["weldx/asdf/util.py: _get_instance_shape", "weldx/tags/units/pint_quantity.py: PintQuantityConverter.shape_from_tagged", "weldx/tags/time/time.py: TimeConverter.shape_from_tagged", "weldx/tags/time/timedeltaindex.py: TimedeltaIndexConverter.shape_from_tagged", "weldx/tags/time/datetimeindex.py: DatetimeIndexConverter.shape_from_tagged", "weldx/tags/core/time_series.py: TimeSeriesConverter.shape_from_tagged", "weldx/tags/core/data_array.py: XarrayDataArrayConverter.shape_from_tagged", "weldx/tags/core/common_types.py: VariableConverter.shape_from_tagged"]}
{"id": "C113", "title": "Arguments of SpatialSeries", "statement": "Positions given as list, array or quantity with one dimension become an array along s, data arrays are kept; the coordinates c are x, y, z unless given; other coordinates are kept. A missing s is a KeyError, other dimensions a ValueError, and then nothing is changed. Parameters that are quantities with three values along one dimension become vectors along c, all others are kept. Using the changed dictionaries again gives the same result without further change. False: dictionaries given as coords and parameters are not changed (they are left unchanged exactly if there is nothing to convert or add); if a parameter is refused, the parameters are unchanged (those before it are converted already).", "quantifier": "all dictionaries of coordinates and parameters", "why_tests_cant": "Tests do not look at the arguments after the call.", "anchors": ["weldx/core/spatial_series.py: SpatialSeries._process_quantity", "weldx/core/spatial_series.py: SpatialSeries._process_parameters", "weldx/core/spatial_series.py: SpatialSeries.__init__"]}
{"id": "C114", "title": "Sine series", "statement": "sine creates a series exactly if f is a frequency, the phase an angle or number and the bias of the dimension of the amplitude (WeldxException otherwise); its values are amp*sin(2*pi*f*t+phase)+bias with 0 for a missing bias or phase, they have the dimension of the amplitude, the period 1/f and stay within the amplitude around the bias. False, but documented: the values are amp*sin(f*t+phase)+bias.", "quantifier": "all quantities without offset, all times", "why_tests_cant": "Tests use the function only as an ingredient.", "anchors": ["weldx/welding/util.py: sine", "weldx/core/time_series.py: TimeSeries._init_expression"]}
{"id": "C115", "title": "Times in xarray objects", "statement": "as_data_array of a Time has the time deltas as values and the reference time as attribute, and Time made from this array has the same points in time (or time deltas). The array exists for all times except an empty absolute one without reference time. For time deltas timedelta_base does not matter. as_timestamp succeeds exactly for single time stamps and as_datetime exactly for absolute times (TypeError otherwise). False: the reference time is kept (an explicit one is lost); arrays of absolute times made with timedelta_base=False can be converted back (always a TypeError).", "quantifier": "all constructed times, any number of values", "why_tests_cant": "Tests convert a few times in one direction.", "anchors": ["weldx/time.py: Time.as_data_array", "weldx/time.py: Time._convert_xarray", "weldx/time.py: Time.as_timestamp", "weldx/time.py: Time.as_datetime"]}
{"id": "C116", "title": "Comparison of times with tolerances", "statement": "all_close is False for different reference times; with the same reference time and number of values it holds exactly if all pairs of time deltas differ by at most 10 ns plus the 100000th part of the second one; a single value is compared with all values of the other time, other different lengths are a ValueError. A time is close to itself. False: all_close is symmetric; it is transitive; close times have the same number of values; times a second apart are never close (beyond 100000 s they are).", "quantifier": "all times", "why_tests_cant": "Tests compare a few times with slightly changed copies.", "anchors": ["weldx/time.py: Time.all_close"]}
{"id": "C117", "title": "Arguments for opening files depend on the version of asdf", "statement": "The argument for memory mapping is called memmap for asdf 3.1.0 and later and copy_arrays (with the opposite value) before; asdf_open_memory_mapping_kwarg and read_buffer agree; all other arguments are passed on; by default arrays are copied and not loaded lazily. Versions with three numbers and a major version of one digit are compared as numbers. False: so are all versions (10.0.0 and 3.1 count as older than 3.1.0); the dictionary of the caller is not changed; read_buffer with _use_weldx_file=True reads the file (it is a RuntimeError).", "quantifier": "all version texts with three numbers, all dictionaries of arguments", "why_tests_cant": "Tests run with one installed version.", "anchors": ["weldx/asdf/file.py: asdf_open_memory_mapping_kwarg", "weldx/asdf/util.py: read_buffer_context", "weldx/asdf/util.py: read_buffer"]}
{"id": "C118", "title": "Headers of files", "statement": "get_yaml_header gives exactly the lines before the first line that is the end mark, whatever follows; without an end line it gives everything. Handles with all methods are read from the start and left behind the end line. Text handles are a ValueError, other objects a TypeError. reset_file_position restores the position after the block. False: the header never contains the end mark (a last line without line break is kept); the header does not depend on the position of handles without write or seek; the position is restored after an error in the block.", "quantifier": "all contents, all positions", "why_tests_cant": "Tests read the header of files written by asdf.", "anchors": ["weldx/asdf/util.py: get_yaml_header", "weldx/asdf/file.py: reset_file_position", "weldx/types.py: SupportsFileReadWrite"]}
{"id": "C119", "title": "Transposition of matrices in arrays", "statement": "_swap_list_items exchanges the first positions of both values and keeps all others; a missing value is a ValueError. xr_transpose_matrix_data keeps dimensions and shape, and the value at each position is the value with both positions exchanged; it succeeds exactly if both dimensions have the same size (ValueError otherwise), and twice gives the values back. Swapping twice gives a list without repetitions back. False: also lists with repetitions.", "quantifier": "all lists, all arrays with distinct dimensions, all pairs of dimensions", "why_tests_cant": "Tests transpose a few arrays.", "anchors": ["weldx/util/xarray.py: _swap_list_items", "weldx/util/xarray.py: xr_transpose_matrix_data"]}
{"id": "C120", "title": "Coordinates with units", "statement": "coordinates_as_quantities gives quantities for coordinates with a unit and plain data for the others (also for an empty text as unit), with the same names; only texts that are no units are errors. Coordinates made from quantities give these back. quantify_coords and dequantify_coords keep everything but the form of the unit, and units as objects survive the conversion to texts and back. The property units is the unit of the quantity, else the attribute. False: coordinates made from their quantities are the same (exactly if the name is the dimension, there are no other attributes and the unit is no text); quantify_coords does not change the quantities (an empty text becomes a unit; otherwise it does not); indexes_as_quantities converts indexes (any index is an AttributeError).", "quantifier": "all dictionaries of coordinates, any registry that reads the texts it writes", "why_tests_cant": "Tests convert two coordinates.", "anchors": ["weldx/util/xarray.py: _get_coordinate_quantities", "weldx/util/xarray.py: _coordinates_from_quantities", "weldx/util/xarray.py: WeldxAccessor.coordinates_as_quantities", "weldx/util/xarray.py: WeldxAccessor.indexes_as_quantities", "weldx/util/xarray.py: WeldxAccessor.quantify_coords", "weldx/util/xarray.py: WeldxAccessor.dequantify_coords", "weldx/util/xarray.py: WeldxAccessor.units"]}
{"id": "C121", "title": "Saving and loading variables", "statement": "Variables with arrays or points in time as data are loaded with the same data, name, dimensions, unit and (non-empty) attributes, and saving them again gives the same tree; other scalars become plain numbers of the same value. Files contain no arrays of times. False: loaded variables can always be saved again (a loaded scalar is an AttributeError); empty attributes stay a dictionary (they become None).", "quantifier": "all variables with arrays of any dtype and shape", "why_tests_cant": "Tests do not save a loaded variable.", "anchors": ["weldx/tags/core/common_types.py: VariableConverter.to_yaml_tree", "weldx/tags/core/common_types.py: VariableConverter.from_yaml_tree", "weldx/tags/core/common_types.py: VariableConverter.convert_time_dtypes"]}
{"id": "C122", "title": "Saving and loading DataArrays and Datasets", "statement": "DataArrays and Datasets are loaded with the same values, shapes, dtypes, dimensions, units, coordinates (in order) and attributes, a DataArray without its name. False: the name is kept; the dtype of scalars is kept (it becomes that of python numbers).", "quantifier": "all arrays and datasets with distinct names of coordinates and variables", "why_tests_cant": "Tests compare a few arrays.", "anchors": ["weldx/tags/core/data_array.py: XarrayDataArrayConverter.to_yaml_tree", "weldx/tags/core/data_array.py: XarrayDataArrayConverter.from_yaml_tree", "weldx/tags/core/dataset.py: XarrayDatasetConverter.to_yaml_tree", "weldx/tags/core/dataset.py: XarrayDatasetConverter.from_yaml_tree"]}
{"id": "C123", "title": "Parameters of series", "statement": "A SeriesParameter stores quantities and arrays as they are and other values as quantities; errors are those of the conversion and arrays in tuples (TypeError). Its array has the dimension of the parameter and the values and unit of a one-dimensional quantity; quantities with more dimensions cannot be converted. False: a given dimension and symbol are used (a parameter keeps its own); scalars stay scalars; the quantity always has a unit.", "quantifier": "all inputs, any conversion to quantities", "why_tests_cant": "Tests use a few parameters.", "anchors": ["weldx/core/generic_series.py: SeriesParameter.__post_init__", "weldx/core/generic_series.py: SeriesParameter.units", "weldx/core/generic_series.py: SeriesParameter.data_array", "weldx/core/generic_series.py: SeriesParameter.quantity", "weldx/core/generic_series.py: _quantity_to_xarray"]}
{"id": "C124", "title": "Coordinates of discrete series", "statement": "A one-dimensional quantity given as coordinate becomes a coordinate along its name (or the dimension given with it) with its values and unit, other shapes are a ValueError; arrays without unit keep their values. False: arrays with unit can be given as coordinates (they never can).", "quantifier": "all names, quantities and arrays", "why_tests_cant": "Tests use quantities only.", "anchors": ["weldx/core/generic_series.py: GenericSeries._init_discrete", "weldx/core/generic_series.py: SeriesParameter.coord_tuple", "weldx/core/generic_series.py: _quantity_to_coord_tuple"]}
{"id": "C125", "title": "Parameters of expression series", "statement": "_format_expression_params keeps names, order, arrays and quantities; a quantity comes with its dimension unless this is its name; arrays without unit are a ValueError. False: every parameter needs a unit (numbers are accepted); the names are kept for values that are SeriesParameters (their symbols are used, and parameters can be lost).", "quantifier": "all dictionaries of parameters", "why_tests_cant": "Tests use a few dictionaries.", "anchors": ["weldx/core/generic_series.py: GenericSeries._format_expression_params"]}
{"id": "C126", "title": "Arrays accepted by TimeSeries", "statement": "An array is accepted exactly if it is a quantity with time deltas as coordinate of a dimension time; missing coordinates are a KeyError, other dtypes or data a TypeError, a missing dimension a ValueError. The time becomes the first dimension, everything else keeps its order. False: an array that passes _check_data_array can be used (a single time as coordinate passes); the time deltas must be in nanoseconds.", "quantifier": "all arrays", "why_tests_cant": "Tests check a few wrong arrays.", "anchors": ["weldx/core/time_series.py: TimeSeries._check_data_array", "weldx/core/time_series.py: TimeSeries._initialize_discrete", "weldx/util/xarray.py: _check_dtype"]}
{"id": "C127", "title": "Construction of discrete time series", "statement": "A quantity with as many values as times gives a series with these values at these times, the reference time of the times and the given method (step for one value); another number of values is a ValueError; without times only one value is possible, at the reference time. Unknown methods and unsorted arrays are refused. A series is rebuilt from its array and method. False: times and reference times given with an array are used (they are ignored); a series is rebuilt from its array alone (the method becomes step).", "quantifier": "all quantities, times, reference times and methods", "why_tests_cant": "Tests build a few series.", "anchors": ["weldx/core/time_series.py: TimeSeries._initialize_discrete", "weldx/core/time_series.py: TimeSeries._create_data_array", "weldx/core/time_series.py: TimeSeries.interpolation"]}
{"id": "C128", "title": "Shapes and lists of segments", "statement": "A shape contains the given segments and is refused (ValueError) exactly if two consecutive ones do not meet. add_segments appends the given segments to this shape's list, changes no other list and no segment, and keeps a linked shape linked; it fails exactly if the new segments do not meet the last one or each other, and with an IndexError for an empty list on a non-empty shape. Two shapes made from one list object change together, and the list with them. False: adding to a shape leaves the list it was made from unchanged.", "quantifier": "all memories, lists and segments with any end points and closeness test", "why_tests_cant": "Tests build every shape from a fresh list.", "anchors": ["weldx/geometry.py: _to_list", "weldx/geometry.py: Shape.__init__", "weldx/geometry.py: Shape._check_segments_connected", "weldx/geometry.py: Shape.add_segments"]}
{"id": "C129", "title": "Transformations of shared segments", "statement": "Transforming a shape in place changes its segments once each and nothing else; shapes without common segments are unchanged even if the method raises; the shape stays linked if the transformation keeps contacts. transform and translate give a new shape with new segments, the transformed values, and leave every existing list and segment unchanged. If a segment raises, those before it are transformed and those after it are not. False: other shapes stay linked (shared segments move); a segment that occurs twice is transformed once; a failing transformation leaves the shape unchanged.", "quantifier": "all memories, shapes and methods of segments", "why_tests_cant": "Tests never share segments between shapes.", "anchors": ["weldx/geometry.py: Shape.apply_transformation", "weldx/geometry.py: Shape.apply_translation", "weldx/geometry.py: Shape.transform", "weldx/geometry.py: Shape.translate"]}
{"id": "C130", "title": "Lists of profiles and traces", "statement": "A profile has a list of its own with the given shapes; neither the given list nor any other list changes when shapes are added later; objects that are no shapes (and None) are a TypeError. The lookups of a new trace belong to its segments, its length is the sum of their lengths and positive. False: the number of segments of a trace is always the number of its lengths (the trace keeps the given list, so changing it changes the segments but not the length).", "quantifier": "all memories, lists, shapes and lengths", "why_tests_cant": "Tests do not modify the given lists.", "anchors": ["weldx/geometry.py: Profile.__init__", "weldx/geometry.py: Profile.add_shapes", "weldx/geometry.py: Trace.__init__", "weldx/geometry.py: Trace._create_lookups", "weldx/geometry.py: Trace.num_segments"]}
{"id": "C131", "title": "Paths of schema files", "statement": "get_schema_path returns the first file whose name is the given name with the ending .yaml, in any directory, and warns exactly if there are more such files; it is a ValueError exactly if there is none; the ending may be given or omitted. False: only files with the given name are found (everything after .yaml in the name is ignored).", "quantifier": "all lists of files and all names (without glob characters)", "why_tests_cant": "Tests use a few existing schemas.", "anchors": ["weldx/asdf/util.py: get_schema_path"]}
{"id": "C132", "title": "Names of properties in schema trees", "statement": "For an object with distinct properties of known classes get_schema_tree lists exactly the properties in order, each with its class (of its tag, reference or type), and marks those that begin with a required name; these are exactly the required ones if no required name begins another name. Required names without properties are a KeyError. False: optional properties are never marked (c marks code_number); names are kept (a required integer loses its last letter); no property is lost.", "quantifier": "all properties, lists of required names and converters", "why_tests_cant": "Tests look at one or two schemas.", "anchors": ["weldx/asdf/util.py: get_schema_tree"]}
{"id": "C133", "title": "Attributes of files", "statement": "Through the attributes of as_attr() one finds, at every depth, the value that one finds through the items of the file, or a new dictionary with the same items where the file has a mapping; protected keys are no attributes; no existing object is changed; mappings without cycles can always be wrapped; items of the result are the objects of the file, so changing them changes the file. False: 'We can also change the data easily' (setting attributes changes neither the file nor any item); changes of the file are visible through attributes; one mapping under two names stays one object.", "quantifier": "all files (mappings in memory), keys, paths and changes", "why_tests_cant": "The documented example only reads the attribute it has set.", "anchors": ["weldx/asdf/file.py: WeldxFile.as_attr"]}
{"id": "C134", "title": "Inherited documentation", "statement": "inherit_docstrings changes only public functions and properties without documentation that are found through the class; each gets the documentation of the last class of the MRO that offers another object for the name, with one warning per parent without documentation; this is the documented first one if all parents offer the same. False: the first documentation in the MRO is used; it stays blank only if no parent has one; only functions of the class itself change (undocumented inherited ones do, too).", "quantifier": "all class hierarchies in which no object has two names, and all documentations", "why_tests_cant": "The decorated classes have one relevant parent each.", "anchors": ["weldx/util/util.py: inherit_docstrings"]}
{"id": "C135", "title": "Deprecated functions and functions for keys", "statement": "A deprecated function gives exactly one warning, whose lines are its name and the given versions and message in this order, and then behaves as before, exceptions included. apply_func_by_mapping keeps keys and order, replaces the values that have a function and keeps the others; it fails exactly if a function fails, with the first exception.", "quantifier": "all functions, arguments, texts and dictionaries", "why_tests_cant": "Tests call one deprecated function.", "anchors": ["weldx/util/util.py: deprecated", "weldx/util/util.py: apply_func_by_mapping"]}
{"id": "C136", "title": "History entries of files", "statement": "add_history_entry appends one entry with the description and the content of the given dictionary or of the entry of the file, and fails exactly if that content is invalid; entries do not change together with the dictionaries; software_history_entry accepts None (a new entry of weldx) and valid dictionaries, which it keeps, everything else is a ValueError and changes nothing; history returns a list of its own; a copy of a file has the same history of its own. False: the entry of a file stays valid; copies have entries of their own; changing entries in the result of history does not change the file.", "quantifier": "all files, dictionaries and sequences of changes", "why_tests_cant": "Tests add one or two entries.", "anchors": ["weldx/asdf/file.py: WeldxFile.software_history_entry", "weldx/asdf/file.py: WeldxFile.add_history_entry", "weldx/asdf/file.py: WeldxFile.history", "weldx/asdf/file.py: WeldxFile.copy"]}
{"id": "C137", "title": "Saved mathematical expressions", "statement": "A saved expression is loaded with the same expression, the same parameters in the same order, arrays with their dimensions but without coordinates (one warning for each array that has some), if plain quantities have no metadata and the data of arrays is used once; whatever loads without an error has the right names and magnitudes; saving twice gives the same file; saving changes nothing but the metadata of the data of arrays. False: saving leaves the expression as it is (the metadata of arrays is replaced by their dimensions); quantities may have metadata (KeyError on loading, or an array if it has the key dims); arrays may share their data.", "quantifier": "all expressions, parameters, memory layouts and metadata, whether or not the file format keeps shared objects", "why_tests_cant": "Tests use parameters without metadata, each with data of its own.", "anchors": ["weldx/tags/core/mathematical_expression.py: MathematicalExpressionConverter.to_yaml_tree", "weldx/tags/core/mathematical_expression.py: MathematicalExpressionConverter.from_yaml_tree", "weldx/core/math_expression.py: MathematicalExpression.set_parameters"]}
{"id": "C138", "title": "Saved series", "statement": "A series with an expression is saved with one free dimension per variable, under the name of the dimension, with a symbol where names differ, and is loaded with the same unit and the same units (in order) and dimensions of all variables, whatever the order of the free symbols. A discrete series is restored, without attributes of the array, if all coordinates have units and the names of dimensions; a coordinate without unit is a ValidationError on saving, any other coordinate a ValueError on loading. False: loaded series equal the saved ones (attributes); what can be saved can be loaded.", "quantifier": "all constructed series with expressions, dims and units; all discrete series that xarray allows", "why_tests_cant": "Tests save a few series, none with additional coordinates.", "anchors": ["weldx/tags/core/generic_series.py: GenericSeriesConverter.to_yaml_tree", "weldx/tags/core/generic_series.py: GenericSeriesConverter.from_yaml_tree", "weldx/tags/core/generic_series.py: GenericSeriesFreeDimension", "weldx/util/xarray.py: _get_coordinate_quantities"]}
{"id": "C139", "title": "Profiles of grooves at plate fronts", "statement": "Every code number gives two rectangular workpieces with the thicknesses t_1 and t_2 (t_1 twice for 1.12, 1.13 and 2.12); they touch without overlap (1.12, 1.13, 2.12, 4.1.2), have the root gap b as their distance (3.1.1 up to right angles, 3.1.2, 4.1.3) or 2 b cos(alpha/2) (3.1.3, 4.1.1); where the groove angle is used it is the angle of the workpieces; other code numbers are a ValueError and missing parameters a TypeError. False: the root gap is the distance of the workpieces for 3.1.3 and 4.1.1; the workpieces never overlap (3.1.1 with obtuse angles).", "quantifier": "all code numbers, positive thicknesses and widths, gaps and angles in the stated ranges", "why_tests_cant": "Tests only check that a profile is returned for one set of parameters per code number.", "anchors": ["weldx/welding/groove/iso_9692_1.py: FFGroove.to_profile", "weldx/welding/groove/iso_9692_1.py: FFGroove"]}
{"id": "C140", "title": "Point clouds", "statement": "Raw data is accepted exactly as n points with three components (for every time, if times are given) in a unit of length; DataArrays keep their values, coordinates and other dimensions, with n and c last; triangulations have three columns. The limits are the smallest and greatest values of each component and are attained. A static cloud written to a mesh file and read with the same unit has the same points and triangles in this unit; with times the points of all times follow each other. A cloud can be saved iff it has three components and unsigned indices, and is then loaded with all dimensions, values, units, triangles and attributes. False: other units are a DimensionalityError (AttributeError); clouds are three-dimensional; mesh files are read as written whatever the units; what was read from a mesh file can be saved; triangles refer to existing points; labels of points are saved.", "quantifier": "all arrays, DataArrays, units, triangulations, times and attributes", "why_tests_cant": "Tests use single clouds of four points with default units and valid input.", "anchors": ["weldx/geometry.py: SpatialData", "weldx/geometry.py: SpatialData.limits", "weldx/geometry.py: SpatialData.to_file", "weldx/geometry.py: SpatialData.from_file", "weldx/geometry.py: SpatialData.additional_dims", "weldx/geometry.py: SpatialData.is_time_dependent", "weldx/tags/core/geometry/spatial_data.py: SpatialDataConverter.to_yaml_tree", "weldx/tags/core/geometry/spatial_data.py: SpatialDataConverter.from_yaml_tree"]}
{"id": "C141", "title": "Tags and classes of grooves and welding processes", "statement": "The class of a groove is found from its tag, and the tag of a groove is the first tag of its class in the manifest, with any version 0.1.*; IndexError if there is none. A groove whose fields are all set or None by default is loaded as it was saved; unknown names or fields and missing required fields are errors. Tags of GMAW processes are accepted iff they are one of the three known ones, possibly with an additional version; parameters become time series in the same order; a process that can be saved is loaded unchanged. Names and abbreviations of arc welding processes determine each other, and all others are ValueErrors. False: grooves with None for a field with another default are loaded unchanged; only supported tags of processes are accepted; a file of a process without the optional entry tag keeps its tag when loaded and saved; name and abbreviation in a file belong together.", "quantifier": "all tags, manifests, grooves with their fields, processes with their parameters, and names", "why_tests_cant": "Tests save each groove and a few processes once, with the current manifest and default values.", "anchors": ["weldx/tags/groove/iso_9692_1.py: IsoGrooveConverter.select_tag", "weldx/tags/groove/iso_9692_1.py: IsoGrooveConverter.from_yaml_tree", "weldx/tags/groove/iso_9692_1.py: _get_class_from_tag", "weldx/tags/processes/process.py: GmawProcessConverter.select_tag", "weldx/welding/processes.py: GmawProcess", "weldx/tags/aws/process/arc_welding_process.py: ArcWeldingProcess", "weldx/asdf/types.py: format_tag", "weldx/asdf/types.py: WeldxConverter.default_class_display_name"]}
{"id": "C142", "title": "Inputs of Time, resolutions and saved times", "statement": "Lists of time stamps or of durations are taken as they are; texts are dates if all of them can be read as dates, otherwise durations if all can be read so, otherwise a TypeError; numbers and mixtures of stamps and durations are TypeErrors, None is never accepted, and objects with times stand for their times. The duration is the time from the first to the last value. Each constructed Time is loaded as it was saved. Differences of indices and stamps of any resolution are exact, and quantities are right for nanoseconds and single values; an index is loaded with its values if it is in nanoseconds or has a frequency. False: every absolute time has a reference time (not the one of an empty list); times with a reference time set later are loaded as they were; quantities of numpy arrays in seconds are right with pandas 2; irregular indices of other resolutions are loaded with the same values.", "quantifier": "all lists of elements, all times, and all indices and reference times of each resolution", "why_tests_cant": "Tests use nanoseconds for saved indices and quantities, and only single kinds of valid input.", "anchors": ["weldx/time.py: Time._convert_other", "weldx/time.py: Time._get_time_input", "weldx/time.py: Time.as_quantity", "weldx/time.py: Time.duration", "weldx/tags/time/time.py: TimeConverter", "weldx/tags/time/datetimeindex.py: DatetimeIndexConverter", "weldx/tags/time/timedeltaindex.py: TimedeltaIndexConverter"]}
{"id": "C143", "title": "Equality of expressions, series and coordinate systems", "statement": "Comparing two of these objects never fails; each object equals itself, objects of different kinds are never equal, and == is symmetric for series and coordinate systems. Generic series are equal by == exactly if they are of the same class and have the same dimensions, units, expression and parameters, or the same array and interpolation; time series if they have the same array or the same expression and parameters; coordinate systems if orientations, coordinates and reference times are. Expressions with the same number of variables, or with parameters on both sides, are equal exactly if expressions and parameters are; the comparison of expressions is transitive. Known parameters are set to the last given value, others are kept; an unknown one is a ValueError. False: == of expressions is symmetric (one without parameters equals one with parameters, not the other way round); GenericSeries.__eq__ as a method is symmetric; expression time series with different reference times differ; a failing set_parameters changes nothing.", "quantifier": "all expressions, series and coordinate systems that can be built, all class hierarchies, all dictionaries of parameters", "why_tests_cant": "Tests compare a few pairs in one direction.", "anchors": ["weldx/core/math_expression.py: MathematicalExpression.equals", "weldx/core/math_expression.py: MathematicalExpression.__eq__", "weldx/core/math_expression.py: MathematicalExpression.set_parameters", "weldx/core/math_expression.py: MathematicalExpression.get_variable_names", "weldx/core/generic_series.py: GenericSeries.__eq__", "weldx/core/time_series.py: TimeSeries.__eq__", "weldx/transformations/local_cs.py: LocalCoordinateSystem.__eq__"]}
{"id": "C144", "title": "Drawing of the graph of a coordinate system manager", "statement": "Every manager that can be built gets a layout: each system has exactly one position, the root at (1, 0), all others between 0 and 2, at the height given by the number of steps to the root. No two systems share a position; the children of a system are placed symmetrically below it, in the order of get_child_system_names; branches do not cross (everything below the left one of two systems of equal height is left of everything below the right one). plot_graph draws each link exactly once, in the direction that was not defined, as time dependent exactly if the transformation is an expression or its inverse is time dependent, and as static otherwise.", "quantifier": "all managers that can be built with the public operations", "why_tests_cant": "A test can look at a few drawings; overlaps depend on the shape of the tree.", "anchors": ["weldx/transformations/cs_manager.py: CoordinateSystemManager._get_tree_positions_for_plot", "weldx/transformations/cs_manager.py: CoordinateSystemManager.plot_graph"]}
{"id": "C145", "title": "Converter classes, their tags and their registration", "statement": "A converter class with a name, own or inherited, has the tag of that name with version 0.1.*; only classes without a name have the tags that they state or inherit. The methods of a class are those of the nearest base that states them, and metadata is handled once although the methods are wrapped again for each subclass. get_converter_for_tag returns the first direct subclass of WeldxConverter with a matching tag and warns exactly if there are several; it fails with a TypeError for all tags exactly if a direct subclass has neither name nor tags. The extension has the direct subclasses that exist at its import, and hands them out once. get_weldx_extension returns the one extension with the weldx uri and is a ValueError if there are none or several, a TypeError for other contexts. False: a class has the tags that it states; a class with a matching tag is found; a class that is found is registered in the extension.", "quantifier": "all sequences of class statements with single inheritance, all tags, objects and trees, all lists of extensions", "why_tests_cant": "Tests use the converters of the package only: direct subclasses, defined before the extension is imported.", "anchors": ["weldx/asdf/types.py: WeldxConverterMeta", "weldx/asdf/types.py: to_yaml_tree_metadata", "weldx/asdf/types.py: from_yaml_tree_metadata", "weldx/asdf/extension.py: WeldxExtension", "weldx/asdf/util.py: get_weldx_extension", "weldx/asdf/util.py: get_converter_for_tag"]}
{"id": "C146", "title": "Command line of the welding example", "statement": "Arguments are accepted exactly if they only state outputs, and the last output counts (the default without any); help is given exactly if the arguments before it can be read, everything else ends with code 2. No file that exists and is not empty is changed, for all arguments; a call is successful exactly if the arguments are accepted, the chosen file is absent or empty, the example is valid and the file can be written, and then exactly this file has the example; all other calls change nothing. Code 1 means exactly that the chosen file is occupied. The function itself returns bytes and tree without an output or for the empty string, and otherwise writes the same bytes and returns nothing. False: the installed command writes the example. It calls main() without arguments, and the name of the program is then taken for an argument that the parser does not know: help or code 2 for all arguments.", "quantifier": "all argument lists, all states of the file system, all examples, valid or not", "why_tests_cant": "The only test of main is a doc test with explicit arguments and an empty temporary file; the installed command is never called.", "anchors": ["weldx/asdf/cli/welding_schema.py: main", "weldx/asdf/cli/welding_schema.py: parse_args", "weldx/asdf/cli/welding_schema.py: single_pass_weld_example"]}
{"id": "C147", "title": "Showing headers and contents of files", "statement": "view_tree shows the whole header without tags in any place, or the part that a path of strings leads to if this is a mapping or a list; the label is the name of the file followed by the path. Numbers at the end of a path are a TypeError, strings are taken for JSON text, paths that lead nowhere are a KeyError. A header is the tree with arrays described but empty, so the data of arrays has no influence; it is printed, highlighted or shown as widget as demanded, and the session is asked for what is not given. info has the entries without library and history, and a path leads to the part itself. The table of copy functions has no entry for arrays afterwards, also after errors, and all others as before. False: paths may have numbers (always a TypeError, while the same number as text works); the label is right for paths as text; the path counts in all modes; a header can be printed without a parent process; the table is as before.", "quantifier": "all trees, tags, paths, sessions and tables of copy functions", "why_tests_cant": "Tests only check that calls of header do not fail and that printed text contains a word; view_tree is never called with a path.", "anchors": ["weldx/asdf/util.py: view_tree", "weldx/asdf/file.py: WeldxFile.header", "weldx/asdf/file.py: WeldxFile.info", "weldx/asdf/file.py: _HeaderVisualizer", "weldx/util/util.py: is_interactive_session", "weldx/util/util.py: is_jupyterlab_session"]}
{"id": "C148", "title": "Creation of grooves and checks of dimensions", "statement": "The twelve groove classes have one entry of the dimension check per field: lengths are checked as lengths and angles as numbers without dimension; not checked are code numbers, the optional heights h1 and h2, and all fields of FFGroove but the first. A class can be called exactly with arguments that give every field one value and that have the demanded dimensions; the first wrong dimension is a DimensionalityError, wrong arguments are a TypeError. A groove of get_groove has for every field the given parameter converted to a quantity, or the default, and all checked fields are quantities with their dimension; a parameter with a wrong dimension, a missing one and an unknown groove are errors. False: the fields of a created groove are quantities (text with the right dimension is accepted by the classes and stays text); all dimensions of FFGroove are checked; every given parameter is used (those the groove does not have are ignored without notice).", "quantifier": "all groove classes, positional and named arguments, parameters of get_groove, and results of the unit parser", "why_tests_cant": "Tests create each groove with correct parameters and check a few wrong ones.", "anchors": ["weldx/util/util.py: ureg_check_class", "weldx/welding/groove/iso_9692_1.py: get_groove", "weldx/welding/groove/iso_9692_1.py: IGroove", "weldx/welding/groove/iso_9692_1.py: VGroove", "weldx/welding/groove/iso_9692_1.py: DUGroove", "weldx/welding/groove/iso_9692_1.py: FFGroove"]}
{"id": "C149", "title": "Options of files: schemas, options of writing, threshold for inline arrays", "statement": "A custom schema is a path or the name of a schema of the package and is used for reading and writing, a pair has both; unknown names and other sequences are ValueErrors. An entry custom_schema of asdffile_kwargs has precedence. A new file is made iff the schemas exist, the mode is known, data are written in mode rw only and asdf knows the options; the data are written with exactly the given options (or the compression), the threshold and the schema for writing, and a file without new data is opened with the schema for reading. sync takes five options with fixed defaults, everything else becomes a setting of asdf; close writes once with the options of the file iff it is to be kept in sync; write_to takes the options of the file iff none are given. A copy has the mode, options, threshold and synchronisation of the file. False: a copy has the schemas of the file; two copies have the same ones; a dictionary used for one file does not influence the next; a failing constructor changes nothing; the compression is used if there are other options; sync() writes with the compression of the file; close writes with the options of the creation; options not given to write_to are those of the file.", "quantifier": "all arguments, dictionaries shared between files, sets of known schemas and options of asdf", "why_tests_cant": "Tests use one schema and one option at a time, and a new dictionary for every file.", "anchors": ["weldx/asdf/file.py: WeldxFile.__init__", "weldx/asdf/file.py: WeldxFile._handle_custom_schema", "weldx/asdf/file.py: WeldxFile._config_context", "weldx/asdf/file.py: WeldxFile._write_tree", "weldx/asdf/file.py: WeldxFile.sync", "weldx/asdf/file.py: WeldxFile.close", "weldx/asdf/file.py: WeldxFile.write_to", "weldx/asdf/file.py: WeldxFile.copy", "weldx/asdf/file.py: WeldxFile.custom_schema"]}
{"id": "C150", "title": "Plotting with and without the optional packages", "statement": "The decorator for matplotlib calls the function iff matplotlib is found; a missing module is one warning and None, other failures of the search are passed on. The names of the visualization are those of weldx_widgets, or are replaced with one warning iff the module that is missing is named weldx_widgets…; everything else that fails is passed on. With the package, coordinate systems, managers and spatial data make one call with exactly the parameters listed; unknown backends are ValueErrors before anything is imported. Given axes of a trace need no package at all. A replaced function warns iff it gets at most an integer; without the package, the k3d backend of managers warns and gives an object. False: without weldx_widgets, plotting coordinate systems, managers (default backend), spatial data (default backend) or traces with equal axes only warns (all are TypeErrors); every parameter of the manager has an influence with every backend; equal axes can be asked for given axes.", "quantifier": "all sets of installed packages, texts of the exceptions of imports, arguments and backends", "why_tests_cant": "The tests run with all packages installed, or only check that the import warns.", "anchors": ["weldx/util/util.py: check_matplotlib_available", "weldx/visualization/__init__.py: _warn", "weldx/visualization/__init__.py: _Hint", "weldx/transformations/local_cs.py: LocalCoordinateSystem.plot", "weldx/transformations/cs_manager.py: CoordinateSystemManager.plot", "weldx/geometry.py: SpatialData.plot", "weldx/geometry.py: Trace.plot"]}
{"id": "C151", "title": "Converters of quantities and units", "statement": "A quantity with an array can be saved, and the loaded one has the same values, shape and unit, provided that the unit can be read from its long format; it is the same quantity iff it is no scalar or its numbers have the largest type of their kind. Trees of asdf itself have the unit under another name; a missing value or unit is a KeyError, and a tree is loaded iff value and unit are as listed. The selected tag is the last tag of weldx in the order of texts, IndexError if there is none. False: scalars keep the type of their numbers; every quantity of pint can be saved (plain numbers of other registries have no shape); the newest version of a tag is selected.", "quantifier": "all arrays, shapes, types of numbers, units, trees and lists of tags", "why_tests_cant": "Tests save a few quantities with the default types, and there is one version of the tag.", "anchors": ["weldx/tags/units/pint_quantity.py: PintQuantityConverter.to_yaml_tree", "weldx/tags/units/pint_quantity.py: PintQuantityConverter.from_yaml_tree", "weldx/tags/units/pint_quantity.py: PintQuantityConverter.select_tag", "weldx/tags/units/pint_quantity.py: PintUnitConverter.to_yaml_tree", "weldx/tags/units/pint_quantity.py: PintUnitConverter.from_yaml_tree"]}
{"id": "C152", "title": "Adding and creating coordinate systems of a manager", "statement": "add_cs accepts exactly coordinate systems with consistent reference times whose parent exists, under a new name or the name of a neighbour of the parent. Otherwise the errors are, in this order, TypeError, WeldxException and ValueError, and the manager is unchanged. Afterwards the transformation between the two systems is the given one in the direction that was asked for and its inverse in the other one, all other transformations, systems and data are kept, and a new system is the last one and has no data. The direction is the conjunction of the argument and its deprecated spelling, of which only the value False warns. The three create methods make the system first, whose errors come first and change nothing, and add it without a warning. False: the deprecated argument warns whenever it is used, or has an influence whenever it is used.", "quantifier": "all managers, names, coordinate systems and other objects, directions, and constructors", "why_tests_cant": "Tests add a few systems, and use the deprecated argument once.", "anchors": ["weldx/transformations/cs_manager.py: CoordinateSystemManager.add_cs", "weldx/transformations/cs_manager.py: CoordinateSystemManager.create_cs", "weldx/transformations/cs_manager.py: CoordinateSystemManager.create_cs_from_euler", "weldx/transformations/cs_manager.py: CoordinateSystemManager.create_cs_from_axis_vectors"]}
{"id": "C153", "title": "Texts of expressions, series, shapes and profiles", "statement": "The text of an expression has one line for every parameter; those of series have the name of the class, a heading and a line for each of their parts, the lines of their expression without its name, and end with the unit; names of coordinates are filled up to six characters, and the other dimensions of a generic series are exactly those of no variable. A shape has one line for every segment, a profile its number of shapes and the numbered shapes separated by empty lines. False: the unit of a time series, or the free dimensions of a generic series, have a heading of their own if the expression has no parameters (the line is glued to None).", "quantifier": "all texts of one line for values, names and units (without the character < within expressions), numbers of parameters, coordinates, shapes and segments", "why_tests_cant": "Tests only check that the text can be made.", "anchors": ["weldx/core/math_expression.py: MathematicalExpression.__repr__", "weldx/core/time_series.py: TimeSeries.__repr__", "weldx/core/generic_series.py: GenericSeries.__repr__", "weldx/geometry.py: Shape.__str__", "weldx/geometry.py: Profile.__str__"]}
{"id": "C154", "title": "Data of a manager from assignment to deletion", "statement": "Data are fetched unchanged without a target or in the system that owns them, and transformed otherwise; exactly the owner answers has_data with True. An assignment is accepted exactly if the name is a new string, the systems exist and the data can be transformed, otherwise nothing changes. If transforming in two steps is transforming in one (points among static systems), it does not matter to which system the data were assigned. Assigning and deleting leave all other data alone; deleting makes the name unknown, and right after an assignment it restores the nodes and edges. Unknown names raise KeyError when fetching and ValueError when deleting. False: has_data of an unknown system is False (it raises KeyError).", "quantifier": "all managers obtained by public operations, data, names and systems", "why_tests_cant": "Tests fetch a few arrays from one manager with four systems.", "anchors": ["weldx/transformations/cs_manager.py: CoordinateSystemManager.get_data", "weldx/transformations/cs_manager.py: CoordinateSystemManager.get_data_system_name", "weldx/transformations/cs_manager.py: CoordinateSystemManager.has_data", "weldx/transformations/cs_manager.py: CoordinateSystemManager.assign_data", "weldx/transformations/cs_manager.py: CoordinateSystemManager.delete_data"]}
{"id": "C155", "title": "Area of the end faces and volume of triangulated extrusions", "statement": "The signed areas of the front triangles of a closed mesh add up to the signed area of the profile (its negative if the ordering is not clockwise), for every polygon, and those of the back to the opposite. For convex profiles the areas without sign add up to the area of the profile, too. The volume enclosed by the closed mesh of a straight extrusion is its length times the area of its profile, and positive (normals pointing outwards) whenever the ordering flag is the orientation of the polygon, as it is with has_cw_ordering if the first point is repeated at the end. Moving the profiles sideways does not change it, and volumes of several blocks add up. For every list of blocks and any positions of their points, the projected areas of the closed mesh add up to zero, its volume does not depend on the origin, and an affine map of the points multiplies it by its determinant. False: the triangles of an end never overlap (concave profiles); normals always point outwards (has_cw_ordering leaves out the closing edge of profiles whose first point is not repeated, as in rasters of closed shapes that start on the diagonal).", "quantifier": "all numbers of profiles and points, offsets, point coordinates and both orderings", "why_tests_cant": "Tests compare the triangles of a few small rasters with listed indices; volumes are never computed.", "anchors": ["weldx/geometry.py: SpatialData._shape_front_back_triangles", "weldx/geometry.py: SpatialData._shape_profile_triangles", "weldx/geometry.py: SpatialData._shape_triangles", "weldx/geometry.py: has_cw_ordering", "weldx/geometry.py: Shape.rasterize"]}
