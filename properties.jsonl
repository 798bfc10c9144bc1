{"id": "C01", "title": "GraphState.set stores exactly the requested parameter", "statement": "After GraphState.set(node, var, value) succeeds on a parameter that is not fixed, looking up 'node.var' yields the value (a scalar expanded to num_samples equal entries, a sequence unchanged), and every other parameter of every node keeps its old value; if it raises ValueError no stored value changes.", "quantifier": "all reachable GraphStates, all node/variable names, all scalar and sequence values, both values of fixed", "why_tests_cant": "The frame part ('nothing else changes') ranges over all other names in an arbitrarily large state built by an arbitrary call history.", "anchors": ["src/lightcurvelynx/graph_state.py:GraphState.set", "src/lightcurvelynx/graph_state.py:GraphState.__getitem__"]}
{"id": "C02", "title": "Sample-count shape invariant of GraphState", "statement": "In a GraphState with num_samples = n > 1, every stored parameter is at all times an array of length exactly n, whatever sequence of set/update calls (including failing ones) was made.", "quantifier": "all finite histories of set and update calls, all n > 1", "why_tests_cant": "An invariant over unbounded call histories, including histories with exceptions in the middle.", "anchors": ["src/lightcurvelynx/graph_state.py:GraphState.set", "src/lightcurvelynx/graph_state.py:GraphState.update", "src/lightcurvelynx/graph_state.py:GraphState.__init__"]}
{"id": "C03", "title": "Fixed parameters never change", "statement": "Once a parameter was set with fixed=True (or through update(..., all_fixed=True)), no later sequence of set/update calls changes its value.", "quantifier": "all GraphStates, all later histories of set/update calls with any arguments", "why_tests_cant": "The guarantee must survive every future call sequence, not the ones a test lists.", "anchors": ["src/lightcurvelynx/graph_state.py:GraphState.set", "src/lightcurvelynx/graph_state.py:GraphState.update"]}
{"id": "C04", "title": "len(GraphState) counts the stored parameters", "statement": "len(state) (num_parameters) equals the number of (node, parameter) pairs that can be listed by get_all_params_names().", "quantifier": "all histories of set/update calls; the full claim fails when a call raises for a length mismatch (the counter is bumped before the check), so the theorem is for histories whose calls succeed and a counterexample theorem covers the failing case", "why_tests_cant": "A counter maintained incrementally next to the container: drift appears only after particular histories.", "anchors": ["src/lightcurvelynx/graph_state.py:GraphState.set", "src/lightcurvelynx/graph_state.py:GraphState.__len__", "src/lightcurvelynx/graph_state.py:GraphState.get_all_params_names"]}
{"id": "C05", "title": "Iterating a GraphState yields its samples in order", "statement": "extract_single_sample(i) succeeds exactly for 0 <= i < num_samples and returns a one-sample state with the same parameter names in which each parameter has the value at position i; iteration yields exactly num_samples such states in index order.", "quantifier": "all well-shaped GraphStates, all indices (including negative and too large)", "why_tests_cant": "Ranges over all numbers of samples, all parameters, all indices.", "anchors": ["src/lightcurvelynx/graph_state.py:GraphState.extract_single_sample", "src/lightcurvelynx/graph_state.py:GraphState._iterate", "src/lightcurvelynx/graph_state.py:GraphState.__iter__", "src/lightcurvelynx/graph_state.py:GraphState.get_node_state"]}
{"id": "C06", "title": "from_list concatenates samples without loss or reordering", "statement": "GraphState.from_list(states) fails if the list is empty or the sets of parameter names differ; otherwise the result has the sum of the sample counts and the value of each parameter is the concatenation, in list order, of the values in the inputs; in particular splitting a state into single samples and concatenating them gives back the same values.", "quantifier": "all non-empty lists of well-shaped scalar-valued GraphStates of any sizes", "why_tests_cant": "Offsets/ordering errors depend on the number of parts and their sizes; the split/concatenate law is universally quantified.", "anchors": ["src/lightcurvelynx/graph_state.py:GraphState.from_list", "src/lightcurvelynx/graph_state.py:GraphState.get_all_params_names"]}
{"id": "C07", "title": "Flattened dictionary round trip", "statement": "GraphState.from_dict(state.to_dict(), state.num_samples) reproduces every parameter and value of state; the same through to_table/from_table.", "quantifier": "all well-shaped GraphStates built through set/update (any names without '.')", "why_tests_cant": "Requires that joining and splitting names at '.' is lossless for all names and that no two parameters collide.", "anchors": ["src/lightcurvelynx/graph_state.py:GraphState.to_dict", "src/lightcurvelynx/graph_state.py:GraphState.from_dict", "src/lightcurvelynx/graph_state.py:GraphState.to_table", "src/lightcurvelynx/graph_state.py:GraphState.from_table", "src/lightcurvelynx/graph_state.py:GraphState.extended_param_name"]}
{"id": "C08", "title": "Full parameter names never collide", "statement": "Two parameters of a GraphState have the same full name '{node}.{param}' only if they are the same node and the same parameter, and splitting the full name at '.' gives back exactly (node, param).", "quantifier": "all node and parameter names accepted by GraphState.set", "why_tests_cant": "Injectivity over all strings.", "anchors": ["src/lightcurvelynx/graph_state.py:GraphState.extended_param_name", "src/lightcurvelynx/graph_state.py:GraphState.set", "src/lightcurvelynx/graph_state.py:GraphState.__getitem__"]}
{"id": "C09", "title": "extract_parameters never loses or mislabels a value", "statement": "extract_parameters(names) returns, for each requested short name held by exactly one node, that value under the short name; for a short name held by several nodes, one entry per node under its full name and none under the short name; each requested full name under that full name; nothing else; and raises KeyError exactly when some requested parameter exists nowhere.", "quantifier": "all GraphStates with dot-free names, all lists of requested names", "why_tests_cant": "The renaming happens during the traversal and depends on how many nodes share a name and in which order they appear.", "anchors": ["src/lightcurvelynx/graph_state.py:GraphState.extract_parameters"]}
{"id": "C10", "title": "Membership agrees with lookup", "statement": "key in state is true exactly when state[key] returns a stored value, and a failed lookup raises KeyError.", "quantifier": "all GraphStates and all keys; the KeyError part fails for a state with exactly one node (None is returned), shown by a counterexample theorem", "why_tests_cant": "Depends on the interaction of the number of nodes with the shape of the key.", "anchors": ["src/lightcurvelynx/graph_state.py:GraphState.__contains__", "src/lightcurvelynx/graph_state.py:GraphState.__getitem__"]}
{"id": "C11", "title": "update is all-or-nothing on sample-count mismatch and complete otherwise", "statement": "update(other) with other.num_samples different from both 1 and the receiver's num_samples raises ValueError and changes nothing; an accepted update from a well-shaped state leaves every non-fixed parameter of other stored in the receiver (scalars expanded), all parameters not in other untouched.", "quantifier": "all pairs of well-shaped GraphStates", "why_tests_cant": "Ranges over all pairs of states and their overlaps.", "anchors": ["src/lightcurvelynx/graph_state.py:GraphState.update"]}
{"id": "C12", "title": "copy() is independent of the original", "statement": "After c = s.copy() for a multi-sample state, no sequence of in-place array writes through c (or set calls on c) changes any value readable through s, and vice versa; initially c == s.", "quantifier": "all multi-sample states on an arbitrary heap of arrays, all write sequences; the claim fails for one-sample states holding mutable arrays (counterexample theorem)", "why_tests_cant": "Aliasing is a property of the heap for every later write.", "anchors": ["src/lightcurvelynx/graph_state.py:GraphState.copy", "src/lightcurvelynx/graph_state.py:GraphState.set"]}
{"id": "C13", "title": "transpose_dict_of_list is a transpose", "statement": "transpose_dict_of_list(d, n) returns n dictionaries, the i-th mapping every key of d (and nothing else) to d[key][i]; it raises ValueError exactly if n < 1 or some list does not have length n.", "quantifier": "all dictionaries of lists and all n", "why_tests_cant": "Sizes are unbounded.", "anchors": ["src/lightcurvelynx/graph_state.py:transpose_dict_of_list"]}
{"id": "C14", "title": "Equality of GraphStates", "statement": "s == s for every state, and s == t implies the same sample count, nodes, parameters, fixed sets and values within tolerance; but == is not symmetric because np.allclose scales its tolerance by the right operand.", "quantifier": "all states with finite values", "why_tests_cant": "Algebraic laws over all values.", "anchors": ["src/lightcurvelynx/graph_state.py:GraphState.__eq__"]}
{"id": "C15", "title": "DependencyGraph edges are recorded symmetrically", "statement": "For every history of add_parameter/add_constant/add_edge calls: a parameter is listed once however often it is added, b occurs in incoming[a] exactly as many times as a occurs in outgoing[b], which is the number of successful add_edge(b, a) calls, edges only join existing parameters, and add_edge raises KeyError exactly if an endpoint is missing.", "quantifier": "all finite call histories", "why_tests_cant": "An invariant over call histories.", "anchors": ["src/lightcurvelynx/graph_state.py:DependencyGraph.add_parameter", "src/lightcurvelynx/graph_state.py:DependencyGraph.add_constant", "src/lightcurvelynx/graph_state.py:DependencyGraph.add_edge"]}
{"id": "C16", "title": "Constants in the DependencyGraph stay distinct", "statement": "Every add_constant call adds a parameter under a name that no earlier add_constant call on that graph returned, even for equal values.", "quantifier": "all call histories", "why_tests_cant": "Uniqueness over all histories; needs injectivity of the decimal numbering inside the generated name.", "anchors": ["src/lightcurvelynx/graph_state.py:DependencyGraph.add_constant"]}
{"id": "C17", "title": "Graph positions are unique and complete", "statement": "set_graph_positions() on a node numbers every node reachable through parameter dependencies with distinct positions 0..k-1 (the start node 0), terminates also on cyclic graphs, and touches no unreachable node.", "quantifier": "all finite dependency graphs, including shared sub-nodes and cycles", "why_tests_cant": "Quantifies over all graph shapes.", "anchors": ["src/lightcurvelynx/base_models.py:ParameterizedNode.set_graph_positions"]}
{"id": "C18", "title": "Every node is sampled at most once and after what it depends on", "statement": "During sample_parameters each reachable node's parameters are assigned and its compute() called exactly once however many parameters refer to it, and, in a graph without cycles, a parameter that refers to another node is assigned only after that node has been completely sampled (in a cyclic graph it can be assigned earlier).", "quantifier": "all acyclic dependency graphs with distinct node names, all num_samples", "why_tests_cant": "Depends on the graph shape (diamonds, deep chains) - unbounded.", "anchors": ["src/lightcurvelynx/base_models.py:ParameterizedNode._sample_helper", "src/lightcurvelynx/base_models.py:ParameterizedNode.sample_parameters"]}
{"id": "C19", "title": "Linked parameters agree in every sample", "statement": "After sample_parameters, a (non-given) parameter that was linked to another node's parameter or function output holds exactly the same values as that source in the returned state; a constant parameter holds the constant in every sample.", "quantifier": "all acyclic graphs with distinct node names, all given_args, all random compute() functions", "why_tests_cant": "Correlated sampling must hold for all graphs; tests look at a few diamonds.", "anchors": ["src/lightcurvelynx/base_models.py:ParameterizedNode._sample_helper", "src/lightcurvelynx/base_models.py:ParameterizedNode.set_parameter"]}
{"id": "C20", "title": "given_args override sampling", "statement": "Every parameter value passed in given_args is returned unchanged (expanded to num_samples) by sample_parameters, whatever the graph would have computed for it.", "quantifier": "all graphs, all given_args whose values fit num_samples, all compute functions that write through GraphState.set", "why_tests_cant": "Needs the fixed-parameter guarantee for every write in every graph traversal.", "anchors": ["src/lightcurvelynx/base_models.py:ParameterizedNode.sample_parameters", "src/lightcurvelynx/graph_state.py:GraphState.update"]}
{"id": "C21", "title": "Distinct nodes never share storage silently", "statement": "If two different reachable nodes end up with the same node string, sample_parameters raises ValueError instead of mixing their parameters; and automatically generated names of two nodes of the same class never coincide after set_graph_positions.", "quantifier": "all graphs, all labels and class names", "why_tests_cant": "Quantifies over all labelings.", "anchors": ["src/lightcurvelynx/base_models.py:ParameterizedNode._sample_helper", "src/lightcurvelynx/base_models.py:ParameterizedNode._update_node_string"]}
{"id": "C22", "title": "Function nodes receive their declared arguments and save every output", "statement": "FunctionNode.compute calls the function with exactly the declared argument names, each taken from the keyword overrides if present and from the graph state otherwise; with k>1 outputs the i-th result is stored under the i-th output name and a wrong number of results raises ValueError before anything is stored.", "quantifier": "all argument lists, overrides, states and result lists", "why_tests_cant": "Quantifies over arities and overlap of overrides.", "anchors": ["src/lightcurvelynx/base_models.py:FunctionNode._build_inputs", "src/lightcurvelynx/base_models.py:FunctionNode._save_results", "src/lightcurvelynx/base_models.py:FunctionNode.compute"]}
{"id": "C23", "title": "GivenValueList hands out each value once, in order", "statement": "For any sequence of compute calls (with any sample counts), the concatenation of all successful results is a prefix of the given list; a call that asks for more than is left raises IndexError and does not advance; reset() starts again at the first value.", "quantifier": "all lists, all finite sequences of calls and resets", "why_tests_cant": "A stateful cursor under arbitrary histories including failures.", "anchors": ["src/lightcurvelynx/math_nodes/given_sampler.py:GivenValueList.compute", "src/lightcurvelynx/math_nodes/given_sampler.py:GivenValueList.reset"]}
{"id": "C24", "title": "TableSampler keeps rows aligned", "statement": "All outputs of one TableSampler.compute call come from the same table rows: sample i of every column is that column's value in one common row; in in_order mode the rows are consecutive, never repeated, and exhausting the table raises IndexError.", "quantifier": "all tables, all call sequences, all random index draws in range", "why_tests_cant": "Alignment must hold for every random draw and history.", "anchors": ["src/lightcurvelynx/math_nodes/given_sampler.py:TableSampler.compute", "src/lightcurvelynx/math_nodes/given_sampler.py:TableSampler.reset"]}
{"id": "C25", "title": "Index selection is bounds checked", "statement": "GivenValueSelector returns values[index] for every 0 <= index < len(values) and raises IndexError otherwise; BinarySampler accepts only probabilities in [0,1] and returns true exactly when the uniform draw is below the probability.", "quantifier": "all value lists, all scalar/array indices, all probabilities and draws", "why_tests_cant": "All indices.", "anchors": ["src/lightcurvelynx/math_nodes/given_sampler.py:GivenValueSelector._select", "src/lightcurvelynx/math_nodes/given_sampler.py:BinarySampler"]}
{"id": "C26", "title": "Rejection sampling of sky positions", "statement": "ObsTableUniformRADECSampler keeps a point once it lies in the survey: if the loop ends before max_iterations all returned points are inside the survey, and a point accepted in an earlier round is returned unchanged.", "quantifier": "all survey predicates, all random draw sequences, all numbers of samples and iteration bounds", "why_tests_cant": "Quantifies over random draw sequences.", "anchors": ["src/lightcurvelynx/math_nodes/ra_dec_sampler.py:ObsTableUniformRADECSampler.compute"]}
{"id": "C27", "title": "MOC sampling stays inside the chosen HEALPix cell", "statement": "The depth-29 NESTED pixel drawn by ApproximateMOCSampler is a descendant of the selected cell (shifting it back to the cell's depth gives the cell), and every descendant can be drawn by exactly one offset.", "quantifier": "all depths 2..29, all cells, all offsets", "why_tests_cant": "All pixel numbers up to 12*4^29.", "anchors": ["src/lightcurvelynx/math_nodes/ra_dec_sampler.py:ApproximateMOCSampler.compute"]}
{"id": "C28", "title": "BasicMathNode only evaluates whitelisted expressions", "statement": "BasicMathNode accepts an expression exactly if it is built from literals, the operators + - * / // % ** and unary + - ~, names that are node parameters or listed math functions/constants, and calls of listed functions by name with positional arguments; every other construct (attribute access, subscripts, comparisons, lambdas, keyword arguments, unknown names, other functions, statements) is rejected at construction. Evaluating an accepted expression gives its intended meaning: parameters mean the given values, other names mean the chosen backend's library function (provided no parameter is named like the backend's module).", "quantifier": "all Python expression trees", "why_tests_cant": "Security-relevant: must hold for every expression tree of any depth.", "anchors": ["src/lightcurvelynx/math_nodes/basic_math_node.py:BasicMathNode._prepare", "src/lightcurvelynx/math_nodes/basic_math_node.py:BasicMathNode.__init__"]}
{"id": "C29", "title": "Normalised passbands integrate to one", "statement": "For every non-degenerate transmission table, the processed passband's normalised response has trapezoid integral exactly one, is non-negative where the transmission is, and is invariant under rescaling of the transmission.", "quantifier": "all tables with at least two rows, increasing positive wavelengths, non-negative transmissions not all zero (exact real arithmetic)", "why_tests_cant": "Universally quantified numerical identity.", "anchors": ["src/lightcurvelynx/astro_utils/passbands.py:Passband._normalize", "src/lightcurvelynx/astro_utils/passbands.py:Passband.process_transmission_table"]}
{"id": "C30", "title": "Band flux of a flat spectrum", "statement": "Integrating a flux density that is constant in wavelength (f_nu = c) through a normalised passband returns c, and band flux is linear and monotone in the flux densities.", "quantifier": "all normalised passbands and constants (exact arithmetic); when the grid step used in the sum differs from the real spacing of the grid the claim is false - counterexample theorem", "why_tests_cant": "Universally quantified; the failure case needs a wavelength range not divisible by delta_wave.", "anchors": ["src/lightcurvelynx/astro_utils/passbands.py:Passband.fluxes_to_bandflux", "src/lightcurvelynx/astro_utils/passbands.py:Passband._interpolate_transmission_table"]}
{"id": "C31", "title": "Quantile trimming only removes the tails", "statement": "_trim_transmission_by_quantile keeps a contiguous block of rows, removes no row when the quantile is 0 or None, rejects quantiles outside [0, 0.5), and the removed part at each end carries at most the given fraction of the total trapezoid area.", "quantifier": "all non-negative transmission tables with positive area, all quantiles", "why_tests_cant": "Off-by-one at searchsorted boundaries for arbitrary data.", "anchors": ["src/lightcurvelynx/astro_utils/passbands.py:Passband._trim_transmission_by_quantile"]}
{"id": "C32", "title": "PassbandGroup look-up by short name is unambiguous", "statement": "group[name] returns the passband stored under that full name or the unique one with that filter name, raises KeyError if several passbands share the filter name or none has it; name in group agrees with that lookup.", "quantifier": "all collections of passbands and all names", "why_tests_cant": "Quantifies over all collections.", "anchors": ["src/lightcurvelynx/astro_utils/passbands.py:PassbandGroup.__getitem__", "src/lightcurvelynx/astro_utils/passbands.py:PassbandGroup.__contains__", "src/lightcurvelynx/astro_utils/passbands.py:PassbandGroup.fluxes_to_bandflux"]}
{"id": "C33", "title": "Per-band wavelength indices of a PassbandGroup point at the band's own wavelengths", "statement": "For each passband in a group, indexing the group's merged wavelength grid with the indices recorded for that band returns the band's own wavelengths (when no two wavelengths of different bands are closer than the merging threshold).", "quantifier": "all collections of increasing wavelength grids; fails for near-duplicate wavelengths (counterexample theorem)", "why_tests_cant": "Searchsorted/slice arithmetic over arbitrary overlapping grids.", "anchors": ["src/lightcurvelynx/astro_utils/passbands.py:PassbandGroup._update_waves"]}
{"id": "C34", "title": "Cone search is exact", "statement": "range_search(ra, dec, radius, t_min, t_max) returns for each query exactly the row numbers whose pointing lies within the angular radius (chord test equivalent to great-circle separation for radii up to 180 degrees) and whose time satisfies t_min <= t <= t_max with the bound of that same query; a missing bound does not filter.", "quantifier": "all tables, all query lists, all radii, all optional per-query or scalar time bounds", "why_tests_cant": "Set equality for all tables and queries; the angle/chord equivalence is an analytic fact.", "anchors": ["src/lightcurvelynx/obstable/obs_table.py:ObsTable.range_search", "src/lightcurvelynx/obstable/obs_table.py:ObsTable._build_kd_tree"]}
{"id": "C35", "title": "is_observed agrees with range_search", "statement": "is_observed(ra, dec, ...) is true for a query exactly when range_search with the same arguments returns at least one row for it.", "quantifier": "all tables and queries", "why_tests_cant": "All tables and queries.", "anchors": ["src/lightcurvelynx/obstable/obs_table.py:ObsTable.is_observed", "src/lightcurvelynx/obstable/obs_table.py:ObsTable.range_search"]}
{"id": "C36", "title": "filter_rows keeps exactly the selected rows", "statement": "filter_rows(mask) keeps precisely the rows whose mask entry is true, in the original order and with all columns aligned; filter_rows(index list) equals filtering by membership in the list; a mask of wrong length raises ValueError; later range searches only return rows of the filtered table.", "quantifier": "all tables, masks and index lists", "why_tests_cant": "All tables; also the interplay with later searches. (get_observations after filter_rows is wrong: counterexample theorem.)", "anchors": ["src/lightcurvelynx/obstable/obs_table.py:ObsTable.filter_rows", "src/lightcurvelynx/obstable/obs_table.py:ObsTable.get_observations"]}
{"id": "C37", "title": "Column mapping is a bijective renaming", "statement": "Constructing an ObsTable with a column map renames each mapped survey column to its standard name without dropping or duplicating a column, a rename onto an existing different column raises ValueError, and afterwards obstable[survey_name] and obstable[standard_name] are the same column.", "quantifier": "all tables and column maps", "why_tests_cant": "All maps.", "anchors": ["src/lightcurvelynx/obstable/obs_table.py:ObsTable.__init__", "src/lightcurvelynx/obstable/obs_table.py:ObsTable.__getitem__", "src/lightcurvelynx/obstable/obs_table.py:ObsTable.__contains__"]}
{"id": "C38", "title": "Result table bookkeeping of simulate_lightcurves", "statement": "In the result of simulate_lightcurves all per-observation columns have the same length, the rows of object i form one contiguous block labelled i, blocks are in object order and inside a block in survey order, nobs[i] is the block's size and the sum over surveys of the matched (and unmasked) observations.", "quantifier": "all numbers of objects and surveys, all match lists, masks and models; saved-column names different from the built-in columns (a clash breaks it - counterexample theorem)", "why_tests_cant": "Bookkeeping over nested loops of unbounded size.", "anchors": ["src/lightcurvelynx/simulate.py:simulate_lightcurves"]}
{"id": "C39", "title": "Each simulated observation carries its own survey row", "statement": "Every per-observation row of object i and survey s corresponds to one table row r returned by that survey's range search for object i: its mjd, filter, error and saved columns are those of row r of survey s, and its perfect flux is the model evaluated for object i's parameters at that time and filter.", "quantifier": "all numbers of objects/surveys, all tables, all masks", "why_tests_cant": "Index composition (match -> mask -> column) must be right for every combination.", "anchors": ["src/lightcurvelynx/simulate.py:simulate_lightcurves"]}
{"id": "C40", "title": "Time windows", "statement": "get_time_windows returns (t0-before, t0+after) elementwise, None for a missing side, (None, None) if t0 or the offset is missing, and ValueError for a wrong-length offset.", "quantifier": "all t0 scalars/arrays and offsets", "why_tests_cant": "All inputs.", "anchors": ["src/lightcurvelynx/simulate.py:get_time_windows"]}
{"id": "C41", "title": "Redshift transform round trip and energy scaling", "statement": "Observer-to-rest conversion of times and wavelengths is inverse to the stretch by (1+z) about t0, is the identity at z=0, keeps the order of times, and the flux is multiplied by (1+z).", "quantifier": "all real times, wavelengths, t0 and z > -1", "why_tests_cant": "Universal algebraic identities.", "anchors": ["src/lightcurvelynx/astro_utils/redshift.py:obs_to_rest_times_waves", "src/lightcurvelynx/astro_utils/redshift.py:rest_to_obs_flux"]}
{"id": "C42", "title": "SED evaluation applies redshift and effects in the documented order", "statement": "For every model, evaluate_sed computes the rest-frame SED at de-redshifted times/wavelengths, applies rest-frame effects in insertion order with rest-frame coordinates, multiplies by (1+z), then applies observer-frame effects in insertion order with the observer coordinates; with redshift switched off or zero the transforms are skipped; missing redshift/t0 raises ValueError when needed.", "quantifier": "all SED functions, all effect lists, all coordinates, all z", "why_tests_cant": "Ordering of an arbitrary list of arbitrary effects.", "anchors": ["src/lightcurvelynx/models/physical_model.py:SEDModel._evaluate_single", "src/lightcurvelynx/models/physical_model.py:SEDModel.add_effect"]}
{"id": "C43", "title": "Wavelength extrapolation only touches out-of-range wavelengths", "statement": "compute_sed_with_extrapolation returns, at every wavelength inside the model's valid range, the model's own value at that wavelength, and at wavelengths outside it the extrapolation value computed from the model's value at the nearest valid edge; the result has one column per query wavelength in query order.", "quantifier": "all wavelength lists (unsorted, duplicates), all valid ranges, all models evaluated pointwise", "why_tests_cant": "Mask/scatter index arithmetic over arbitrary arrays.", "anchors": ["src/lightcurvelynx/models/physical_model.py:SEDModel.compute_sed_with_extrapolation"]}
{"id": "C44", "title": "Extrapolation models are bounded and continuous at the edge", "statement": "LastValue/LinearDecay/ExponentialDecay extrapolation returns the edge flux at distance zero, stays between 0 and the edge flux for non-negative edge flux, is non-increasing with distance, and LinearDecay is exactly 0 from decay_width on; invalid parameters raise ValueError.", "quantifier": "all edge fluxes, wavelengths and parameters", "why_tests_cant": "Analytic statements for all reals.", "anchors": ["src/lightcurvelynx/utils/wave_extrapolate.py:LinearDecay", "src/lightcurvelynx/utils/wave_extrapolate.py:ExponentialDecay", "src/lightcurvelynx/utils/wave_extrapolate.py:LastValue", "src/lightcurvelynx/utils/wave_extrapolate.py:ConstantExtrapolation"]}
{"id": "C45", "title": "Band fluxes are computed per filter and returned in observation order", "statement": "evaluate_bandfluxes returns one flux per observation: entry i is the band flux of filter i at time i; permuting the observations permutes the result.", "quantifier": "all lists of times and filters (any interleaving), all models evaluated pointwise in time", "why_tests_cant": "Scatter by mask for arbitrary interleavings.", "anchors": ["src/lightcurvelynx/models/physical_model.py:SEDModel._evaluate_bandfluxes_single", "src/lightcurvelynx/models/physical_model.py:BasePhysicalModel.evaluate_bandfluxes"]}
{"id": "C46", "title": "Additive model is the weighted sum of its parts", "statement": "The flux density of an AdditiveMultiObjectModel is the weighted sum of its components' flux densities, with rest-frame effects applied to each component and observer-frame effects once to the sum.", "quantifier": "all lists of components, weights and effects", "why_tests_cant": "All lists.", "anchors": ["src/lightcurvelynx/models/multi_object_model.py:AdditiveMultiObjectModel._evaluate_single", "src/lightcurvelynx/models/multi_object_model.py:MultiObjectModel.add_effect"]}
{"id": "C47", "title": "Random model selects one component consistently", "statement": "A RandomMultiObjectModel evaluates, for each sample, exactly the component named by the sampled selector, for both SED and band flux evaluation.", "quantifier": "all component lists, weights and selector draws", "why_tests_cant": "All draws.", "anchors": ["src/lightcurvelynx/models/multi_object_model.py:RandomMultiObjectModel"]}
{"id": "C48", "title": "Light-curve templates interpolate their data and fall back to the baseline", "statement": "LightcurveData evaluated at a data time returns the data value, between two data times a value between the neighbours, outside the data range the baseline; for periodic curves evaluation is periodic with the period.", "quantifier": "all sorted light curves, all times, all periods > 0", "why_tests_cant": "All reals.", "anchors": ["src/lightcurvelynx/models/lightcurve_template_model.py:LightcurveData.evaluate_sed", "src/lightcurvelynx/models/lightcurve_template_model.py:LightcurveData.__init__", "src/lightcurvelynx/models/lightcurve_template_model.py:LightcurveData._validate_periodicity"]}
{"id": "C49", "title": "SED basis reproduces the band fluxes", "statement": "For passbands with pairwise disjoint assigned wavelength boxes the constructed SED basis function of one filter integrates to band flux 1 in its own filter and 0 in all others, hence compute_sed reproduces the template's band fluxes exactly.", "quantifier": "all collections of passbands on a common grid", "why_tests_cant": "All overlaps.", "anchors": ["src/lightcurvelynx/models/lightcurve_template_model.py:BaseLightcurveTemplateModel._create_sed_basis", "src/lightcurvelynx/models/lightcurve_template_model.py:BaseLightcurveTemplateModel.compute_sed_given_lc"]}
{"id": "C50", "title": "Periodic models are periodic", "statement": "A periodic model's flux at t and t + k*period is the same for every integer k, phases lie in [0,1), and t0 has phase 0.", "quantifier": "all real t, t0, all period > 0, all integers k", "why_tests_cant": "All reals.", "anchors": ["src/lightcurvelynx/models/periodic_model.py:PeriodicModel"]}
{"id": "C51", "title": "Piecewise and simple models", "statement": "StepModel is its brightness exactly for t0 <= t <= t1 and 0 elsewhere, ConstantSEDModel returns the same value for all times and wavelengths, StaticSEDModel is time independent, equals its table at tabulated wavelengths and is 0 outside the table.", "quantifier": "all times/wavelengths/parameters", "why_tests_cant": "All reals.", "anchors": ["src/lightcurvelynx/models/basic_models.py:StepModel", "src/lightcurvelynx/models/basic_models.py:ConstantSEDModel", "src/lightcurvelynx/models/static_sed_model.py:StaticSEDModel"]}
{"id": "C52", "title": "Bicubic interpolation reproduces grid values and is local", "statement": "At a grid point the interpolator returns the stored grid value; the kernel weights sum to 1 for every offset; outside the grid the result is 0; the index search always yields an interior cell whose knots bracket the query.", "quantifier": "all grids with at least three increasing values per axis, all query points", "why_tests_cant": "All reals and grids.", "anchors": ["src/lightcurvelynx/utils/bicubic_interp.py:BicubicInterpolator", "src/lightcurvelynx/utils/bicubic_interp.py:BicubicAxis.find_indices", "src/lightcurvelynx/utils/bicubic_interp.py:kernel_value"]}
{"id": "C53", "title": "Magnitude and flux conversions are inverse and order reversing", "statement": "mag2flux and flux2mag are mutually inverse (positive fluxes), strictly decreasing, and 5 magnitudes correspond to a factor 100.", "quantifier": "all real magnitudes, all positive fluxes", "why_tests_cant": "All reals.", "anchors": ["src/lightcurvelynx/astro_utils/mag_flux.py:mag2flux", "src/lightcurvelynx/astro_utils/mag_flux.py:flux2mag"]}
{"id": "C54", "title": "Flux unit conversions are inverse", "statement": "flam_to_fnu and fnu_to_flam are mutually inverse and linear in flux for positive wavelengths.", "quantifier": "all fluxes and positive wavelengths", "why_tests_cant": "All reals.", "anchors": ["src/lightcurvelynx/astro_utils/unit_utils.py:flam_to_fnu", "src/lightcurvelynx/astro_utils/unit_utils.py:fnu_to_flam"]}
{"id": "C55", "title": "Poisson noise model", "statement": "poisson_bandflux_std is non-negative, non-decreasing in flux, sky, readout noise, dark current, exposure count and footprint, and for a pure source term equals sqrt(flux*zp).", "quantifier": "all non-negative inputs, positive zero point", "why_tests_cant": "All reals.", "anchors": ["src/lightcurvelynx/astro_utils/noise_model.py:poisson_bandflux_std"]}
{"id": "C56", "title": "Five-sigma depth round trip", "statement": "The zero point derived by calculate_zp_from_maglim makes a source of exactly the limiting magnitude have signal-to-noise 5 under poisson_bandflux_std with the same noise parameters.", "quantifier": "all limiting magnitudes and non-negative noise parameters", "why_tests_cant": "An algebraic inverse for all reals.", "anchors": ["src/lightcurvelynx/astro_utils/zeropoint.py:calculate_zp_from_maglim", "src/lightcurvelynx/astro_utils/noise_model.py:poisson_bandflux_std"]}
{"id": "C57", "title": "Zero-point scaling", "statement": "flux_electron_zeropoint is inversely proportional to exposure time, equals mag2flux of the magnitude zero point, and increases with airmass exactly when the band extinction coefficient is negative (the sign convention of the built-in LSST coefficients); an unknown band fails.", "quantifier": "all positive exposure times, all airmasses and coefficients", "why_tests_cant": "All reals.", "anchors": ["src/lightcurvelynx/astro_utils/zeropoint.py:magnitude_electron_zeropoint", "src/lightcurvelynx/astro_utils/zeropoint.py:flux_electron_zeropoint"]}
{"id": "C58", "title": "LCLIB parser", "statement": "read_lclib_data returns one table per complete START_EVENT/END_EVENT block, in file order, with exactly the rows between them; malformed files (mismatched event ids, wrong row length) raise ValueError; documentation blocks are skipped.", "quantifier": "all line sequences", "why_tests_cant": "A parser over arbitrary files.", "anchors": ["src/lightcurvelynx/utils/io_utils.py:_read_lclib_data_from_open_file", "src/lightcurvelynx/utils/io_utils.py:read_lclib_data"]}
{"id": "C59", "title": "Grid file reader", "statement": "read_grid_data accepts a 3-column table exactly when it is the row-major enumeration of the two sorted axes and then returns values with values[i][j] the entry for (x0[i], x1[j]).", "quantifier": "all tables", "why_tests_cant": "All tables.", "anchors": ["src/lightcurvelynx/utils/io_utils.py:read_grid_data"]}
{"id": "C60", "title": "Signal-to-noise and detection post-processing", "statement": "lightcurve_compute_snr/augment mark a point as detected exactly if flux and error are positive and flux/error >= min_snr; computed columns are aligned row by row; drop_empty removes exactly the objects without observations.", "quantifier": "all result tables", "why_tests_cant": "All tables.", "anchors": ["src/lightcurvelynx/utils/post_process_results.py:lightcurve_compute_snr", "src/lightcurvelynx/utils/post_process_results.py:augment_single_lightcurve", "src/lightcurvelynx/utils/post_process_results.py:results_drop_empty"]}
{"id": "C61", "title": "Parameter bookkeeping of nodes", "statement": "add_parameter never replaces an existing parameter (KeyError), set_parameter only touches existing ones (KeyError otherwise), each changes the recipe of exactly the named parameter, keeps the order of the others and classifies the value as constant, linked parameter or function result; assigning a node to itself or to a node without that parameter raises ValueError.", "quantifier": "all nodes, names and setter values, all histories", "why_tests_cant": "All histories.", "anchors": ["src/lightcurvelynx/base_models.py:ParameterizedNode.add_parameter", "src/lightcurvelynx/base_models.py:ParameterizedNode.set_parameter"]}
{"id": "C62", "title": "Dependency graph of a model matches its parameter links", "statement": "build_dependency_graph lists every parameter of every reachable node, and has an edge for each link to another node's parameter (source parameter -> dependent parameter), for each constant, and from each argument of a function node to each of its computed outputs, and no other edge (links between two parameters of one node are not recorded).", "quantifier": "all acyclic models with distinct node names", "why_tests_cant": "All graph shapes.", "anchors": ["src/lightcurvelynx/base_models.py:ParameterizedNode._dependency_graph_helper", "src/lightcurvelynx/base_models.py:FunctionNode._dependency_graph_helper"]}
{"id": "C63", "title": "PyTree contains exactly the gradient-enabled parameters", "statement": "build_pytree returns the current values of gradient-enabled parameters only, each value being the one in the state, includes every gradient-enabled parameter of every node reached through parameters that are not themselves gradient-enabled, and requires graph positions to be set.", "quantifier": "all acyclic models with distinct names", "why_tests_cant": "All graph shapes.", "anchors": ["src/lightcurvelynx/base_models.py:ParameterizedNode.build_pytree"]}
{"id": "C64", "title": "GivenValueSampler draws only given values", "statement": "Every sample returned by GivenValueSampler is the given value at the drawn index, one per sample; weights must match the number of values (ValueError), are rescaled by a common factor to sum 1; an empty value list raises ValueError.", "quantifier": "all value lists, weights, sample counts and index draws", "why_tests_cant": "All draws and weight vectors.", "anchors": ["src/lightcurvelynx/math_nodes/given_sampler.py:GivenValueSampler"]}
{"id": "C65", "title": "A Passband accepts only strictly increasing tables", "statement": "Whenever Passband(...) returns, the given wavelengths were strictly increasing, so are the processed ones, and at least two rows are left; unsorted wavelengths raise ValueError; units='nm' gives the same processed table as multiplying the wavelengths by ten; duplicated wavelengths are announced to be averaged (the code raises TypeError instead: counterexample theorem).", "quantifier": "all tables, surveys, filters, steps, quantiles and units", "why_tests_cant": "Quantifies over every table and every processing option.", "anchors": ["src/lightcurvelynx/astro_utils/passbands.py:Passband.__init__"]}
{"id": "C66", "title": "Survey values: precedence and constant columns", "statement": "Keyword arguments of an ObsTable override the table's metadata, which overrides the class defaults; a constant column derived from a survey value holds in every row the value for that row's filter (a positive one if checked), leaves all other columns alone, an existing column is kept, and a missing value adds nothing. (Without a filter column a numeric value gives zeros: counterexample theorem.)", "quantifier": "all tables, metadata, keyword arguments, survey values (numbers and per-filter maps)", "why_tests_cant": "All tables and value maps.", "anchors": ["src/lightcurvelynx/obstable/obs_table.py:ObsTable.__init__", "src/lightcurvelynx/obstable/obs_table.py:ObsTable._assign_constant_if_needed", "src/lightcurvelynx/obstable/obs_table.py:ObsTable.add_column"]}
{"id": "C67", "title": "Noise-free light curves", "statement": "compute_noise_free_lightcurves samples each object at the rest-frame phases min, min+step, ... below max (never max itself), at observer times t0 + (1+z)*phase, gives per filter the model's band flux at exactly those times, and lists the objects' curves one after the other with each row labelled by its object.", "quantifier": "all models, samples, filters, phase ranges and positive steps", "why_tests_cant": "All sample counts, phase grids and filter sets; end-point behaviour of the grid.", "anchors": ["src/lightcurvelynx/simulate.py:compute_single_noise_free_lightcurve", "src/lightcurvelynx/simulate.py:compute_noise_free_lightcurves"]}
{"id": "C68", "title": "Effects act the same on SEDs and on band fluxes", "statement": "A constant dimming multiplies every flux value by its flux fraction, a microlensing effect multiplies every flux at time t by its magnification at t, and an extinction multiplies every flux at wavelength w by the dust curve at w. For dimming and microlensing, applying the effect to an SED and integrating through a passband gives the same value as integrating first and applying the effect to the band flux; dimming gives the same result whether applied in the rest frame or the observer frame. A missing effect parameter is a ValueError rather than silently skipped. Extinction has no band-flux form: a model with extinction in the observer frame cannot produce band fluxes.", "quantifier": "every flux matrix, time list, wavelength grid, passband and parameter assignment", "why_tests_cant": "tests check a few matrices; the commutation with band integration is a statement over all passbands and fluxes", "anchors": ["src/lightcurvelynx/effects/basic_effects.py:ConstantDimming", "src/lightcurvelynx/effects/microlensing.py:Microlensing", "src/lightcurvelynx/effects/extinction.py:ExtinctionEffect", "src/lightcurvelynx/effects/effect_model.py:EffectModel.apply_bandflux"]}
{"id": "C69", "title": "SALT2 colour law and model", "statement": "The SALT2 colour law between its wavelength bounds is minus the documented polynomial in the reduced wavelength (at most six given coefficients, the linear one chosen so that they add up to 1), hence 0 at 4302.57 A and -1 at 5428.55 A for any coefficients; it is continuously differentiable everywhere and continues on its tangents beyond the bounds. A colour law file with N coefficients and label/value pairs gives exactly that law with the last bounds named (3000 and 7000 by default); an unsupported version is a RuntimeError, an unreadable bound a ValueError, a label without value an IndexError. The SALT2 model's flux is (1+z) x0 (M0 + x1 M1) 10^(-0.4 c CL) w^2/c in nJy at rest-frame phase and wavelength, 0 outside the template grids, proportional to x0; c does not change the flux at the B wavelength. mask_by_time selects exactly the times with rest-frame phase strictly between -20 and 50 days, so that masked times carry no flux for templates within that range (except at the two end points).", "quantifier": "every list of coefficients, wavelength bounds, wavelength, file, template grids, parameter assignment, redshift above -1, times and wavelengths", "why_tests_cant": "tests compare a few wavelengths with sncosmo; smoothness, normalisation and the full formula are statements over all reals and all coefficient lists", "anchors": ["src/lightcurvelynx/astro_utils/salt2_color_law.py:SALT2ColorLaw", "src/lightcurvelynx/models/salt2_jax.py:SALT2JaxModel"]}
{"id": "C70", "title": "Eclipsing binary light curve", "statement": "For an eclipsing binary star, the flux at each time and wavelength is the light of both black-body stars less the surface brightness of the star in the background times the overlap area of the two discs, scaled by distance and redshift. The overlap area is symmetric in the stars, 0 exactly when the discs are apart, the smaller disc exactly when one lies inside the other, continuous in the distance and, while the circles meet, decreasing with slope minus the length of the common chord (which determines it). Hence the light curve is never negative or above the light of both stars, reaches the latter exactly out of eclipse, is symmetric about t0, has its minimum of the primary half at t0 and of the secondary half at t0 + P/2, and the one at t0 is the deeper one exactly if the primary is not cooler (or nothing is eclipsed). A distance is required. (The documented units of semiaxis and radii are not those the code needs: it compares them without conversion.)", "quantifier": "every radii, temperatures, semiaxis, inclination, distance, period, epoch, redshift above -1, time and wavelength", "why_tests_cant": "tests compare a few configurations with Monte Carlo estimates; the area formula and the shape of the light curve are statements over all real configurations, including the contact points where the formula changes", "anchors": ["src/lightcurvelynx/models/periodic_variable_star.py:EclipsingBinaryStar", "src/lightcurvelynx/models/periodic_variable_star.py:PeriodicVariableStar._evaluate_phases", "src/lightcurvelynx/astro_utils/black_body.py:black_body_luminosity_density_per_solid"]}
{"id": "C71", "title": "Simplified survey table: zero points, noise columns and constant errors", "statement": "Building a FakeObsTable keeps every row, pointing and column of the user's table and adds only noise-model columns. Without a zero-point column each row's zero point is the positive number given for its filter; missing or non-positive zero points are refused. bandflux_error_point_source returns, for every requested row, the Poisson noise of the exposure time, exposure count, PSF footprint (given, or pi/(2 ln 2) times the squared width), sky level and zero point that the user gave for that row (by column, by constant, or per filter); with const_flux_error it returns the non-negative constant of the row's filter, whatever the flux.", "quantifier": "every table, column map, metadata, argument combination (numbers, per-filter dictionaries, columns), flux array and index array", "why_tests_cant": "the mix of columns, constants and per-filter dictionaries, and the set of filters and rows, is unbounded; tests try a handful of tables", "anchors": ["src/lightcurvelynx/obstable/fake_obs_table.py:FakeObsTable.__init__", "src/lightcurvelynx/obstable/fake_obs_table.py:FakeObsTable._assign_zero_points", "src/lightcurvelynx/obstable/fake_obs_table.py:FakeObsTable.bandflux_error_point_source", "src/lightcurvelynx/obstable/obs_table.py:ObsTable._assign_constant_if_needed"]}
{"id": "C72", "title": "OpSim tables: zero points from band, airmass and exposure; error bars from the row", "statement": "flux_electron_zeropoint on arrays gives, entry by entry, the value it gives for the single observation (for dictionaries of floats that know every band). An OpSim built from a table without zero points gets, in every row whose band is known and exposure time positive, the zero point mag2flux(zp_per_sec[band] + ext_coeff[band]*(airmass-1) + 2.5*log10(exptime)), using keyword arguments before table metadata before the camera's values; all other columns, rows and pointings are kept, searches find exactly the rows of the original table, a table lacking filter, airmass or exptime is refused with ValueError, and bandflux_error_point_source(flux, index) is, entry by entry, the Poisson noise of that row's exposure time, number of exposures, seeing, sky brightness and zero point with the survey's pixel scale, read noise and dark current.", "quantifier": "all tables, column maps, metadata, keyword arguments, fluxes, row indices and searches", "why_tests_cant": "needs all tables, orders of bands and combinations of overrides; tests use one small table", "anchors": ["src/lightcurvelynx/obstable/opsim.py:OpSim.__init__", "src/lightcurvelynx/obstable/opsim.py:OpSim._assign_zero_points", "src/lightcurvelynx/obstable/opsim.py:OpSim.bandflux_error_point_source", "src/lightcurvelynx/astro_utils/zeropoint.py:flux_electron_zeropoint", "src/lightcurvelynx/astro_utils/zeropoint.py:magnitude_electron_zeropoint"]}
{"id": "C73", "title": "ZTF tables: blank rows dropped, zero points from limiting magnitude", "statement": "A ZTFObsTable built from a table without zero points consists of exactly the rows that have a width (fwhm), in order and with unchanged cells; each gets the zero point implied by its limiting magnitude, sky, width and exposure time, so that with the default camera a source at the row's limiting magnitude has a signal-to-noise ratio between 4.9995 and 5; searches find a kept row exactly when the original row matches; text dates become MJD times; a table lacking maglim, sky, fwhm or exptime is refused with ValueError.", "quantifier": "all tables, column maps, metadata, keyword arguments, fluxes, row indices and searches", "why_tests_cant": "depends on which rows are blank and on every numeric value of the table", "anchors": ["src/lightcurvelynx/obstable/ztf_obstable.py:ZTFObsTable.__init__", "src/lightcurvelynx/obstable/ztf_obstable.py:ZTFObsTable._assign_zero_points", "src/lightcurvelynx/obstable/ztf_obstable.py:ZTFObsTable.bandflux_error_point_source"]}
{"id": "C74", "title": "A Roman table is the observing plan, enriched from the characterisation tables", "statement": "Building a RomanObsTable from an APT plan (a data frame with RA, DEC, BANDPASS, MA_TABLE_NUMBER, PASS) keeps the rows and their order; every row gets the zero point, effective pixel number, zodiacal and thermal rates of its band (first matching row of the characterisation tables), the exposure time of its MA table number, and the time 61304 + 5 days for every smaller pass number of the plan; the zero point in nJy is the flux of the AB magnitude. Error bars of a row are the Poisson noise with exactly those values; a plan with a band or MA number not in the tables is refused; searches find exactly the plan's rows in radius and time window. Passing ma_table_path or a dict, both documented, must work; the caller's table must not be changed.", "quantifier": "every plan (any number of rows, bands, passes in any order), every characterisation table, metadata, keyword override, footprint, query", "why_tests_cant": "tests use a single packaged plan and network tables; the mapping must hold for every plan and row, including unsorted and non-consecutive pass numbers and repeated table keys", "anchors": ["src/lightcurvelynx/obstable/roman_obstable.py:RomanObsTable.__init__", "src/lightcurvelynx/obstable/roman_obstable.py:RomanObsTable._append_apt_table", "src/lightcurvelynx/obstable/roman_obstable.py:_get_ma_table", "src/lightcurvelynx/obstable/roman_obstable.py:RomanObsTable.bandflux_error_point_source"]}
{"id": "C75", "title": "An oversampled OpSim table", "statement": "oversample_opsim builds a table for one pointing: its times start at the given (or first seeing) time and go in steps of delta_t up to, excluding, the given (or last seeing) time; the rows cycle through the requested bands (default: all bands seen there, in order); each row has the pointing's coordinates, an observation id larger than all old ids and distinct from the others, and copies all other columns from one old row that sees the pointing in the same band - the one with the darkest sky for the default strategy; the survey values are kept; searching the new table at the pointing finds all rows of the time window. For every pointing that is observed, every time range and every set of seen bands this works, and the detector footprint is kept.", "quantifier": "all tables, pointings, radii, time steps, time ranges, band lists, strategies and random draws", "why_tests_cant": "which prototype row is chosen and whether the call succeeds depend on the table's contents, the number of times and the number of bands", "anchors": ["src/lightcurvelynx/obstable/opsim.py:oversample_opsim", "src/lightcurvelynx/obstable/opsim.py:OpSim.__init__", "src/lightcurvelynx/obstable/obs_table.py:ObsTable.range_search"]}
{"id": "C76", "title": "AGN: disc spectrum, derived parameters and damped random walk", "statement": "The AGN's average flux at a wavelength is the black-body light of one face of a disc whose rings have temperature T0 (r/r0)^(-3/4), summed from the inner radius to infinity; r0 is the hottest ring of a standard disc and T0 its temperature; the flux follows the inverse square law and cos(inclination). Accretion rate, luminosity and magnitude follow from mass and Eddington ratio with an efficiency of one tenth. The random walk refuses times that do not increase, varies continuously around zero with the structure function and timescale of each wavelength (which at 4000 angstroms are the reference values), and the flux is the average flux changed by the walk's magnitudes.", "quantifier": "all masses, Eddington ratios, inclinations, distances, wavelengths, time lists and random draws", "why_tests_cant": "integral over all radii and a random sequence of any length; tests pin a few numbers", "anchors": ["src/lightcurvelynx/models/agn.py: sample_damped_random_walk", "src/lightcurvelynx/models/agn.py: AGN.compute_sed_standard_disk", "src/lightcurvelynx/models/agn.py: AGN.compute_temp_at_r_0", "src/lightcurvelynx/models/agn.py: AGN.compute_tau", "src/lightcurvelynx/models/agn.py: AGN.compute_sed"]}
{"id": "C77", "title": "NumpyRandomFunc: every sample is drawn with its own parameters", "statement": "A NumpyRandomFunc node refuses the function 'choice', unknown functions and sizes that are not positive; sampling n times gives an array of shape (n, *size) (a plain number for one sample of size 1) whose entry for sample i is drawn with the parameter values of sample i; a given generator is used instead of the node's own, which it leaves alone; after set_seed(s) the node behaves like a new node with seed s.", "quantifier": "all distributions, parameter values (constants or one per sample), sizes, sample counts, generators and call histories", "why_tests_cant": "tests sample a few distributions without parameters for array sizes; the claim ranges over all sizes, parameters and histories", "anchors": ["src/lightcurvelynx/math_nodes/np_random.py: NumpyRandomFunc.__init__", "src/lightcurvelynx/math_nodes/np_random.py: NumpyRandomFunc.compute", "src/lightcurvelynx/math_nodes/np_random.py: NumpyRandomFunc.set_seed", "src/lightcurvelynx/graph_state.py: GraphState.set"]}
{"id": "C78", "title": "DistributionSampler draws from the given density", "statement": "DistributionSampler(x, y) refuses arrays of different lengths and negative densities; every value it draws lies between the first and the last x, and the probability of a value between two neighbouring points is the area of the given density there; a generator passed to the sampling is used; set_seed makes it repeat.", "quantifier": "all increasing x, all non-negative y with positive sum, all draws in [0,1), all sample counts", "why_tests_cant": "a probability statement over all draws and all densities; tests look at one histogram", "anchors": ["src/lightcurvelynx/math_nodes/distribution_sampler.py: DistributionSampler.__init__", "src/lightcurvelynx/math_nodes/distribution_sampler.py: DistributionSampler.compute", "src/lightcurvelynx/math_nodes/distribution_sampler.py: DistributionSampler.set_seed"]}
{"id": "C79", "title": "Detection and follow-up efficiencies", "statement": "phot_eff_function detects exactly the observations with signal-to-noise above 5 (efficiency 1, otherwise 0). spec_eff_function returns a probability strictly between 0 and 1 that strictly decreases with the peak i magnitude, is one half at 51.9/2.36 mag, symmetric about it, and takes every value between 0 and 1.", "quantifier": "all real signal-to-noise ratios and magnitudes", "why_tests_cant": "Range, monotonicity and the step at the boundary are claims about all reals.", "anchors": ["src/lightcurvelynx/astro_utils/obs_utils.py:phot_eff_function", "src/lightcurvelynx/astro_utils/obs_utils.py:spec_eff_function"]}
{"id": "C80", "title": "GaussianGalaxy falls off from its centre", "statement": "A GaussianGalaxy evaluated at an observation position (ra, dec) returns, at all times and wavelengths, brightness * exp(-s^2 / (2 std^2)) (times 1+z), s being the great-circle angle between that position and the galaxy's own: at most the central brightness, reached exactly at the centre, strictly decreasing with s, with std the documented radius in degrees. Without a position (or with only one coordinate) it returns the full brightness.", "quantifier": "all positions on the sphere, radii, brightnesses, times, wavelengths, redshifts", "why_tests_cant": "A claim about every pair of positions on the sphere and every radius.", "anchors": ["src/lightcurvelynx/models/galaxy_models.py:GaussianGalaxy.compute_sed"]}
{"id": "C81", "title": "Detector footprints", "statement": "A position is inside a width x height (degrees) rectangular footprint pointed at (ra, dec) with a rotation exactly if it lies on the pointing's side of the sky and its gnomonic projection, in the detector axes turned by the rotation, is strictly within half the width and half the height (up to the 1-arcsecond pixel-scale measurement of the regions package). The answer does not depend on the footprint's pixel scale, on adding a turn to the rotation or on where the right ascension zero is; arrays of positions are answered element by element; non-positive sizes, missing pixel scales and pixel regions away from the origin are rejected. A range search whose radius covers the corners, filtered by the footprint, returns exactly the pointings whose footprint contains the position, and pixel regions are taken as centred on their origin, with the pixel scale of the survey table they are given to.", "quantifier": "all positions, pointings, rotations, widths, heights, pixel scales, tables and searches", "why_tests_cant": "Spherical geometry over a continuum of positions, pointings and rotations.", "anchors": ["src/lightcurvelynx/astro_utils/detector_footprint.py:DetectorFootprint.__init__", "src/lightcurvelynx/astro_utils/detector_footprint.py:DetectorFootprint.from_rect", "src/lightcurvelynx/astro_utils/detector_footprint.py:DetectorFootprint.rotate_to_center", "src/lightcurvelynx/astro_utils/detector_footprint.py:DetectorFootprint.contains", "src/lightcurvelynx/obstable/obs_table.py:ObsTable.range_search"]}
{"id": "C82", "title": "Sampling from a density", "statement": "NumericalInversePolynomialFunc, SamplePDF and SampleLogPDF draw each sample by applying the inverse of the distribution function of the given density (normalised or not; exp of a log density) to the next number of one generator: the generator passed in if there is one, and then the node's own is untouched, otherwise the node's own, which restarts with set_seed. A single sample is a number, several are an array in order. A distribution class is instantiated per sample with that sample's parameter values. Objects with neither pdf nor logpdf are rejected. The probability that the samples fall in (a, b] is the integral of the density over it divided by the whole integral, up to the resolution of the inverse.", "quantifier": "all densities, distribution objects and classes, parameter values, sample counts, generators and seeds", "why_tests_cant": "Tests look at a few distributions and summary statistics of a finite number of samples.", "anchors": ["src/lightcurvelynx/math_nodes/scipy_random.py:NumericalInversePolynomialFunc.__init__", "src/lightcurvelynx/math_nodes/scipy_random.py:NumericalInversePolynomialFunc.compute", "src/lightcurvelynx/math_nodes/scipy_random.py:SamplePDF", "src/lightcurvelynx/math_nodes/scipy_random.py:SampleLogPDF"]}
{"id": "C83", "title": "Type Ia supernova rates, distances and light-curve parameters", "statement": "The distance modulus of a redshift is 5 log10 of the luminosity distance in Mpc plus 25, undefined at redshift 0 and growing with redshift; distances scale as 1/H0 and obey the distance duality relation. The x0 returned for a distance modulus, x1 and c is exactly the one that satisfies the Tripp relation, and falls with the square of the luminosity distance. x1 is drawn for each sample from the distribution of its own host mass (below 10, or 10 and more), one number of the generator per sample and none shared; the density depends on the host mass only through this. The number of supernovae per redshift bin is the rate (2.27e-5 (1+z)^1.7 per volume) times the volume of the solid angle, integrated over equal bins that fill the range; it is positive, proportional to the solid angle (default the whole sky) and independent of the Hubble constant.", "quantifier": "all redshifts, cosmological parameters, host masses, light-curve parameters, bins, solid angles, sample counts and generators", "why_tests_cant": "Tests compare a few numbers; scaling laws, monotonicity and the assignment of random numbers to samples range over all inputs.", "anchors": ["src/lightcurvelynx/astro_utils/snia_utils.py:snia_volumetric_rates", "src/lightcurvelynx/astro_utils/snia_utils.py:num_snia_per_redshift_bin", "src/lightcurvelynx/astro_utils/snia_utils.py:HostmassX1Distr", "src/lightcurvelynx/astro_utils/snia_utils.py:HostmassX1Func", "src/lightcurvelynx/astro_utils/snia_utils.py:X0FromDistMod", "src/lightcurvelynx/astro_utils/snia_utils.py:DistModFromRedshift"]}
{"id": "C84", "title": "Supernova positions at a physical separation from the host", "statement": "SNCoordGivenPhysicalSep places each supernova at the angle from its host that the given physical separation has at the angular diameter distance of its redshift, in a direction that is uniform in the next random number, with right ascension in [0, 360) and declination in [-90, 90], also across the pole and across right ascension 0. Declinations outside of [-90, 90] are rejected. The random numbers are those of the generator given (or of the node's seed), so results can be reproduced.", "quantifier": "all hosts, separations, redshifts, cosmological parameters, random numbers and generators", "why_tests_cant": "Spherical geometry over a continuum including the poles; reproducibility is about all generators and states of the global one.", "anchors": ["src/lightcurvelynx/astro_utils/snia_utils.py:SNCoordGivenPhysicalSep", "src/lightcurvelynx/base_models.py:FunctionNode.compute"]}
{"id": "C85", "title": "White noise and the random generator in the flux pipeline", "statement": "Applying a WhiteNoise effect adds to each entry of the flux array its own independent standard normal number times the white_noise_sigma sampled for that object, and nothing else changes; a sigma of zero changes nothing, a missing sigma raises ValueError and a negative one is refused. When the caller supplies a random generator, every evaluation of a model (single source, additive model, with rest-frame and observer-frame effects, SED or bandflux) draws all of its noise from that generator: the result and the generator's final state depend on nothing but the model, the inputs and the generator's initial state. A model without random effects never consumes a number.", "quantifier": "every flux matrix and bandflux array, every sigma, every nesting of single and additive models, every list of effects, every generator state and every source of operating-system entropy", "why_tests_cant": "reproducibility is a relation between two runs under arbitrary entropy, for arbitrary nestings of models; a test compares two runs on one machine for one model", "anchors": ["src/lightcurvelynx/effects/white_noise.py:WhiteNoise.apply", "src/lightcurvelynx/effects/white_noise.py:WhiteNoise.apply_bandflux", "src/lightcurvelynx/models/physical_model.py:SEDModel._evaluate_single", "src/lightcurvelynx/models/physical_model.py:BasePhysicalModel.evaluate_bandfluxes", "src/lightcurvelynx/models/multi_object_model.py:AdditiveMultiObjectModel", "src/lightcurvelynx/simulate.py:simulate_lightcurves"]}
{"id": "C86", "title": "Models interpolated through a grid of fluxes", "statement": "A SplineModel built from a grid of fluxes (or a file listing one in row-major order) reproduces every data point: observed at the time and wavelength at which a grid point arrives, the flux is exactly the data value times the amplitude (and 1+z). Between the points it is the interpolating surface; outside the wavelength range it is zero or the chosen extrapolation from the nearest edge; before the first and after the last time it keeps the first/last spectrum. With degree 1 it never leaves the range of the data. A grid is accepted exactly if both axes are strictly increasing, the shapes agree and there are more points than the degree. Fluxes scale with the amplitude.", "quantifier": "every grid, file, degree, amplitude, t0 (or none), redshift, extrapolation, list of times in order and list of wavelengths", "why_tests_cant": "a test evaluates a handful of points of one grid; the claim is about every grid, redshift and query, including the edges and the region outside", "anchors": ["src/lightcurvelynx/models/spline_model.py:SplineModel.__init__", "src/lightcurvelynx/models/spline_model.py:SplineModel.from_file", "src/lightcurvelynx/models/spline_model.py:SplineModel.compute_sed", "src/lightcurvelynx/models/spline_model.py:SplineModel.minwave", "src/lightcurvelynx/models/spline_model.py:SplineModel.maxwave"]}
{"id": "C87", "title": "Wrapped sncosmo models: the state decides, not the history", "statement": "A SncosmoWrapperModel holds a mutable sncosmo source. Evaluating it with a graph state nevertheless gives a flux that depends on that state alone: whatever samples, evaluations (successful or failing) and masks happened before, the source sees exactly the parameters of the state given; within the source's wavelength bounds the result is the source's flux at phase (t/(1+z) conventions of SEDModel) minus t0, converted from erg/s/cm^2/A to nJy; beyond the bounds the chosen extrapolation applies and the source is never asked there. The time mask keeps exactly the times strictly inside the source's phases stretched by 1+z around t0. set() changes the source and all later samples; a name the source does not know is reported.", "quantifier": "for every source, wrapper, history of sampling/evaluation/masking calls, state, times and wavelengths", "why_tests_cant": "the guarantee is over all interleavings of calls on a shared mutable object, and over all sources and parameter values", "anchors": ["src/lightcurvelynx/models/sncomso_models.py:SncosmoWrapperModel.__init__", "src/lightcurvelynx/models/sncomso_models.py:SncosmoWrapperModel.set", "src/lightcurvelynx/models/sncomso_models.py:SncosmoWrapperModel.compute_sed", "src/lightcurvelynx/models/sncomso_models.py:SncosmoWrapperModel.mask_by_time", "src/lightcurvelynx/models/sncomso_models.py:SncosmoWrapperModel._sample_helper", "src/lightcurvelynx/models/sncomso_models.py:SncosmoWrapperModel._update_sncosmo_model_parameters"]}
{"id": "C88", "title": "Wrapped redback models", "statement": "A RedbackWrapperModel passes to the redback function exactly the parameters of its dictionary and of its priors (the dictionary wins), with the values of the state; a name given both in the dictionary and as a keyword is refused; the times passed are relative to t0 (0 if there is none), so moving t0 and the times together changes nothing; the flux is the function's flux density in nJy; wavelengths beyond the bounds of the returned source are extrapolated as for other models.", "quantifier": "for every redback function, parameter dictionary, priors, keywords, state, times and wavelengths", "why_tests_cant": "ranges over all functions, all parameter sets and all wavelength grids; the extrapolation path is a mutual recursion whose termination no finite test establishes", "anchors": ["src/lightcurvelynx/models/redback_models.py:RedbackWrapperModel.__init__", "src/lightcurvelynx/models/redback_models.py:RedbackWrapperModel.compute_sed", "src/lightcurvelynx/models/redback_models.py:RedbackWrapperModel.minwave", "src/lightcurvelynx/models/redback_models.py:RedbackWrapperModel.maxwave"]}
{"id": "C89", "title": "Installing data files", "statement": "Asking for a data file that is on the disk returns it unchanged whatever the URL and the network; asking for a missing one leaves exactly the server's content at that path and True, or an exception and no file; without a URL the request is refused and nothing is changed; an interruption at any point leaves either no file or the complete one, so that the next request succeeds; no other file is ever changed. With force_download=True the file is fetched again (refuted: an existing file is kept). OpSim.from_url reads the file the URL names (refuted: two URLs with the same last component share one file).", "quantifier": "All file systems, paths, URLs, server contents, force flags and interruption points.", "why_tests_cant": "A test exercises a few files with a reachable or mocked server; crash points, arbitrary file systems and histories of requests are not enumerable.", "anchors": ["src/lightcurvelynx/utils/data_download.py:download_data_file_if_needed", "src/lightcurvelynx/obstable/opsim.py:OpSim.from_url"]}
{"id": "C90", "title": "Installing the SFD dust map", "statement": "When the map loads, both of its files are on the disk in the directory it is read from; maps already in the directory are used without network and without change; a first installation with a connection succeeds, and from then on every load succeeds and changes nothing while pooch's cache is kept, also offline. An interrupted installation is repaired by the next load (refuted: once the archive is in the cache and unpacking was interrupted every later load fails), the map can be installed in a second directory (refuted), in a directory given relative to the working directory (refuted), and loads offline from the directory it was installed in (refuted when the cache was cleared).", "quantifier": "All file systems, directories, network behaviours over any number of loads, and interruption points.", "why_tests_cant": "Tests load one map in one directory with a mock or a full cache; they cannot range over interruption points and histories of loads.", "anchors": ["src/lightcurvelynx/astro_utils/dustmap.py:SFDMap._load_data", "src/lightcurvelynx/astro_utils/dustmap.py:SFDMap._data_files_exist"]}
{"id": "C91", "title": "BayeSN: natural cubic spline basis", "statement": "The basis matrix applied to any values at strictly increasing knots is the natural cubic spline through them: cubic between the knots, through the values, twice continuously differentiable, without curvature at the ends; it is the only such function. The linear system it solves has exactly one solution. Straight lines are reproduced everywhere, and beyond the knots the end cubics continue.", "quantifier": "All numbers of knots (two or more), all strictly increasing knots, values and query points.", "why_tests_cant": "Tests compare a few query points with another spline implementation; uniqueness and smoothness for all knots and values are statements about all inputs.", "anchors": ["src/lightcurvelynx/models/bayesn.py:BayesnModel.compute_invkd", "src/lightcurvelynx/models/bayesn.py:BayesnModel.natural_cubic_spline_basis_matrix_from_invkd"]}
{"id": "C92", "title": "BayeSN: second derivatives and the template surface", "statement": "compute_second_derivatives_1d returns the second derivatives of the natural spline through its data (refuted: half of them). The template surface reproduces data that are straight along both axes everywhere and, on a grid with unit steps, its data at the grid points; it reproduces its data on every grid (refuted: off by a stated term) and is continuous (refuted: jumps at the phase knots).", "quantifier": "All strictly increasing grids, all data and query points.", "why_tests_cant": "The tests use smooth or linear data on unit grids, where the wrong terms vanish; the exact error term for every grid is not observable by examples.", "anchors": ["src/lightcurvelynx/models/bayesn.py:BayesnModel.compute_second_derivatives_1d", "src/lightcurvelynx/models/bayesn.py:BayesnModel.evaluate_natural_spline_2d_vectorized", "src/lightcurvelynx/models/bayesn.py:BayesnModel.evaluate_2d_cubic_spline"]}
{"id": "C93", "title": "BayeSN: flux density", "statement": "Each entry of the evaluated flux depends only on its time and wavelength and equals template x 10^(-0.4 (W0 + theta W1)) x extinction x Amplitude in nJy at the rest-frame phase and wavelength, redshifted; W0 and W1 are the tensor-product natural splines through their tables; Amplitude is a factor and theta acts linearly on magnitudes; missing parameters, Rv = 0 and wavelengths outside the dust law are refused; the mask selects the rest-frame phases between -20 and 50 days. The host's Rv selects the extinction law (refuted: only Av/Rv matters, the law is always that of Rv = 3.1).", "quantifier": "All data tables, parameters, redshifts, times, wavelengths and extinction laws.", "why_tests_cant": "Tests evaluate one model file at a few phases; the dependence on every parameter for all inputs cannot be enumerated.", "anchors": ["src/lightcurvelynx/models/bayesn.py:BayesnModel.compute_sed", "src/lightcurvelynx/models/bayesn.py:BayesnModel.mask_by_time", "src/lightcurvelynx/effects/extinction.py:ExtinctionEffect.load_extinction_model"]}
{"id": "C94", "title": "BilbyPriorNode samples every parameter of its prior, and the last seed set decides", "statement": "A BilbyPriorNode made from a prior gets one output per parameter of the prior; sampling it writes, for each parameter, the values bilby drew for it (a number for one sample, an array of num_samples values otherwise) to the state, returns the same values in the prior's order, keeps values given in advance and changes no other parameter. After a seed has been set (with set_seed or by making a node with a seed), everything that follows is determined by that seed, whatever happened before and whatever numpy generators are passed in. An empty prior is refused with ValueError.", "quantifier": "every prior, number of samples, graph state, history of node constructions, seeds and samplings in the process, and every generator passed to compute", "why_tests_cant": "Bilby's generator is shared by the whole process: what a node samples depends on the whole history of other nodes, which unit tests with one node do not exercise, and the claim ranges over all priors and states.", "anchors": ["src/lightcurvelynx/math_nodes/bilby_priors.py: BilbyPriorNode.__init__, set_seed, compute", "src/lightcurvelynx/graph_state.py: GraphState.set"]}
{"id": "C95", "title": "PZFlowNode samples the flow once per sample, conditioned on that sample's own parameters", "statement": "A PZFlowNode can be made exactly if every conditional column of the flow is given (else ValueError). Sampling asks the flow for one row per sample, with the seed formed from four bytes of the generator passed in (no seed without one); with conditional columns, the conditions of row i are the node's parameters of sample i. Each data column of the flow becomes a parameter of the node holding the flow's values, values given in advance stay and nothing else changes. The seed lies between 0 and 2^32-1, different bytes give different seeds, and equal bytes give equal samples.", "quantifier": "every flow (set of columns and sampling function that returns the columns it promises), every graph state and number of samples, every generator", "why_tests_cant": "Row-to-sample correspondence must hold for every number of samples and every flow; tests use one mock flow and a few sizes, and in particular never a conditional flow with one sample.", "anchors": ["src/lightcurvelynx/astro_utils/pzflow_node.py: PZFlowNode.__init__, compute", "src/lightcurvelynx/base_models.py: FunctionNode._save_results, ParameterizedNode.get_local_params"]}
{"id": "C96", "title": "E(B-V) of every sample is the dust map's value at that sample's position", "statement": "A DustEBV node needs both coordinates (else ValueError). Sampling a DustmapWrapper stores, for every sample, the map's value at that sample's own right ascension (wrapped into [0,360)) and declination, translated by ebv_func if given; values given in advance and all other parameters stay. A declination outside [-90,90] or a missing map raises ValueError and leaves the state as it was. ConstantHemisphereDustMap gives its northern value at declination 0 and above and its southern value below, for one sample as for many.", "quantifier": "every graph state, number of samples, position and every dust map that answers pointwise", "why_tests_cant": "Sample-to-position correspondence and the scalar/array code paths must agree for every number of samples and every position including the equator, wrap-around angles and NaN.", "anchors": ["src/lightcurvelynx/astro_utils/dustmap.py: DustEBV, DustmapWrapper.compute_ebv, ConstantHemisphereDustMap.compute_ebv, query"]}
{"id": "C97", "title": "Extinction effects: law, frame and parameters", "statement": "ExtinctionEffect accepts exactly the frames 'observer' and 'rest' (else ValueError) and acts in that frame; its parameters are ebv and the further keyword arguments; a law given by name is the entry of the first module of dust_extinction that has the name, made with the keyword arguments; an unknown name is a KeyError and every name returned by list_extinction_models is found. On a source with host dust (rest frame) and Milky Way dust (observer frame) the host's law acts at the emitted wavelength and the Milky Way's at the observed wavelength.", "quantifier": "every library of modules, every name, keyword arguments, frames; every source, redshift, time and wavelength", "why_tests_cant": "The lookup ranges over arbitrary modules (imports, repeated names), and the two-dust flux is an analytic statement for all wavelengths and redshifts.", "anchors": ["src/lightcurvelynx/effects/extinction.py: ExtinctionEffect.__init__, list_extinction_models, load_extinction_model, apply", "src/lightcurvelynx/effects/effect_model.py: EffectModel.__init__", "src/lightcurvelynx/models/physical_model.py: SEDModel.add_effect"]}
{"id": "C98", "title": "UniformRADEC draws uniformly over the sphere", "statement": "UniformRADEC stores one (ra, dec) per sample, computed from the two numbers its generator draws for that sample only: ra in [0, 360) (or [0, 2 pi)) and dec in [-90, 90); the chance that a sample falls into a part of the sky bounded by two right ascensions and two declinations is that part's solid angle over 4 pi. Values given in advance and other parameters stay, a generator handed in is used and the node's own one left alone, and after set_seed the results do not depend on earlier calls.", "quantifier": "all numbers of samples, all draws, all reachable graph states, all histories of calls, all boxes on the sky", "why_tests_cant": "A test sees finitely many draws and boxes; uniformity is a statement about all boxes and all pairs of draws, reproducibility about all histories.", "anchors": ["src/lightcurvelynx/math_nodes/ra_dec_sampler.py:UniformRADEC.__init__", "src/lightcurvelynx/math_nodes/ra_dec_sampler.py:UniformRADEC.compute", "src/lightcurvelynx/math_nodes/np_random.py:NumpyRandomFunc.set_seed"]}
{"id": "C99", "title": "Positions drawn from a survey's pointings lie in its field of view", "statement": "ObsTableRADECSampler draws one row of the survey table per sample (in_order: the next rows, each handed out once, IndexError without change when too few are left) and returns that row's time and a position within the radius of that row's pointing - an angle on the sky, also next to the poles - so that the survey's own is_observed says true for every sampled position; the offsets cover the disc's area uniformly. Radius 0 gives the pointings themselves. Missing or negative radii and empty tables are refused.", "quantifier": "all tables, radii up to 180 degrees, draws, numbers of samples, reachable graph states and histories of compute and reset", "why_tests_cant": "A random test almost never hits the poles or the ra wrap; the bound on the sky (a spherical inequality) must hold for all pointings, radii and draws.", "anchors": ["src/lightcurvelynx/math_nodes/ra_dec_sampler.py:ObsTableRADECSampler.__init__", "src/lightcurvelynx/math_nodes/ra_dec_sampler.py:ObsTableRADECSampler.compute", "src/lightcurvelynx/math_nodes/given_sampler.py:TableSampler.compute", "src/lightcurvelynx/obstable/obs_table.py:ObsTable.is_observed"]}
{"id": "C100", "title": "Light curves from LCLIB tables and files", "statement": "LightcurveData.from_lclib_table keeps exactly the filter columns asked for. Of a non-periodic table, the light curve of a filter goes through the flux of the magnitude of every source row at that row's time counted from the reference epoch, is the straight line between successive source rows, and outside their range is the flux of the first template row (zero without template rows). The reference epoch is the time of the first source row unless one is forced. A periodic table repeats with the time from the first to the last source row as its period when every filter closes, and with one mean spacing more otherwise; it goes through the source rows in each period. Tables without time column, filter, source row, known RECUR_CLASS or increasing times are refused, all others accepted (a periodic one needs two source rows and no foreign forced epoch). MultiLightcurveTemplateModel.from_lclib_file makes one light curve per table of the file, in order, and the model returns the fluxes of the table whose index is drawn.", "quantifier": "all tables (any number of rows, columns, filters, any interleaving of source and template rows), filter selections, set orders, forced epochs and query times", "why_tests_cant": "tests read two example files; the claim ranges over all tables, all times and all orders in which a set of filters is enumerated", "anchors": ["src/lightcurvelynx/models/lightcurve_template_model.py:LightcurveData.from_lclib_table", "src/lightcurvelynx/models/lightcurve_template_model.py:MultiLightcurveTemplateModel.from_lclib_file", "src/lightcurvelynx/utils/io_utils.py:read_lclib_data"]}
{"id": "C101", "title": "A simulated light curve, from parameters to noisy fluxes", "statement": "In the result of simulate_lightcurves on OpSim, ZTF, Roman or fake survey tables, the rows of an object are exactly the table rows within the survey's radius of the object's own sampled position, inside the time window around its own sampled t0, inside the detector footprint and (when asked) kept by the model's time mask, each once. Each row carries that table row's time and filter; its noise-free flux is what evaluate_bandfluxes returns for the object's own sampled state at that single time and filter with the passband group of that survey (for an SED model with effects and redshift, the band integral of the redshifted, extrapolated and effect-modified SED); its error bar is that survey's error for that flux and row (for OpSim the Poisson formula of the row's exposure, seeing, sky and zero point); its flux is the noise-free flux plus error bar times its own deviate. The object columns hold each object's own parameters. A run whose objects have positions and whose single observations can be computed returns.", "quantifier": "all models that treat observations one by one, sampled states, numbers of objects and surveys, tables, passband groups, windows, masks, saved columns and generator draws", "why_tests_cant": "tests run a handful of objects over fixed tables; a mix-up of objects, surveys, rows or deviates shows only for particular combinations", "anchors": ["src/lightcurvelynx/simulate.py:simulate_lightcurves", "src/lightcurvelynx/models/physical_model.py:SEDModel.evaluate_bandfluxes", "src/lightcurvelynx/obstable/opsim.py:OpSim.bandflux_error_point_source", "src/lightcurvelynx/obstable/obs_table.py:ObsTable.range_search"]}
{"id": "C102", "title": "One simulated type Ia supernova, and runs of many", "statement": "draw_single_random_sn, on a table whose rows are labelled by position, returns exactly the observations within 1.75 degrees of the source's sampled position and strictly between 20(1+z) days before and 50(1+z) days after its sampled t0, each once, with one time, filter (prefixed LSST_), noise-free flux, error bar and flux per observation. The noise-free flux is the band flux of the state at that row's time and filter alone, the error bar OpSim's error for that flux and row, and the flux their sum with the deviate of that observation. The spectra are the redshifted SED at every time and passband wavelength, the flux per wavelength converts back to them, and each band flux is the band integral of that same SED. run_snia_end2end gives the i-th result from the i-th sampled state.", "quantifier": "all tables, sources, states, passband groups, numbers of samples and deviates", "why_tests_cant": "tests draw one supernova on an unfiltered table; the boundaries of the lifetime and the radius, and tables whose labels are not positions, are not reached", "anchors": ["src/lightcurvelynx/example_runs/simulate_snia.py:draw_single_random_sn", "src/lightcurvelynx/example_runs/simulate_snia.py:run_snia_end2end", "src/lightcurvelynx/obstable/opsim.py:OpSim.bandflux_error_point_source"]}
{"id": "C103", "title": "Sampling a well-built model succeeds", "statement": "sample_parameters never fails on a model whose nodes exist, have distinct names without dots, do not depend on themselves in a circle, whose parameters are all set (to constants, to existing parameters of other nodes, to earlier parameters of the same node, or to outputs of a function), whose functions return values that fit the number of samples whenever their arguments are of the kind they expect, and whose given values fit the number of samples: it returns a state with a value for every parameter of every node reached, and any kinds of value (positive numbers, arrays of one entry per sample, ...) that constants have, that links carry over and that functions map arguments to results of, are the kinds of all the sampled values. The generators stay in the acceptable states the functions keep them in.", "quantifier": "all node graphs (any size, sharing), all functions with side effects on generators, all predicates on values, all numbers of samples, all given values", "why_tests_cant": "a test samples one model; success is claimed for every acyclic graph, every function and every number of samples", "anchors": ["src/lightcurvelynx/base_models.py: ParameterizedNode.sample_parameters, _sample_helper, FunctionNode.compute, _build_inputs, _save_results", "src/lightcurvelynx/graph_state.py: GraphState.set, update"]}
{"id": "C104", "title": "The supernovae of the SN Ia example are consistent in every sample", "statement": "The source that construct_snia_source builds can always be sampled: source.sample_parameters(num_samples=n) succeeds for every n >= 1, with or without a given generator. In every sample the source and its host report the same redshift (drawn from the given density), x0 satisfies the Tripp relation at the distance modulus (H0=73, Omega_m=0.3) of that redshift with exactly the x1 and c the source reports (alpha 0.14, beta 3.1), x1 comes from the distribution for the sampled host mass (below 10 or not), the source lies at the host's position plus 0.01 times a normal number per coordinate, the host has |ra|,|dec| <= 0.5 and mass in [7,12), and t0 lies between the earliest and the latest observation. Each node uses as many numbers as there are samples, sample j the j-th of them (for x1 in an order of its own, each once); the own generators go on exactly from where they were, and with one given generator no number is used by two nodes.", "quantifier": "every density, every survey table (times of observation), every generator state, with own or given generators, every number of samples n >= 1", "why_tests_cant": "A test draws a few samples of one run; that the same draw reaches x0, x1, c, redshift and the host in every sample, for every generator and n, is a property of the whole graph of nodes.", "anchors": ["src/lightcurvelynx/example_runs/simulate_snia.py:construct_snia_source", "src/lightcurvelynx/models/snia_host.py:SNIaHost", "src/lightcurvelynx/astro_utils/snia_utils.py:X0FromDistMod", "src/lightcurvelynx/astro_utils/snia_utils.py:HostmassX1Func", "src/lightcurvelynx/base_models.py:ParameterizedNode.sample_parameters"]}
{"id": "C105", "title": "The nodes of a model share a random generator without overlap", "statement": "In every successful sample_parameters call the functions of the function nodes are called one after another, each function node that computes a parameter exactly once and no other, dependencies first; each call starts with the generators (the world) exactly as the call before left them, the first as they were given and the last leaving them as they are found afterwards; its arguments are the sampled values of its parameters and the sampled outputs are its results (or their copies for every sample). So with one generator whose position only advances, the intervals of numbers used by the calls are disjoint and together make up exactly the numbers between the position before and the position after: no random number is used by two nodes and none is skipped.", "quantifier": "all well-formed node graphs (any size, sharing), all functions with side effects on any world (generators), all given values, all numbers of samples", "why_tests_cant": "A test compares a few draws of one model; that no two nodes ever share a draw must hold for every graph, traversal order and function.", "anchors": ["src/lightcurvelynx/base_models.py: ParameterizedNode.sample_parameters, _sample_helper", "src/lightcurvelynx/base_models.py: FunctionNode.compute, _build_inputs, _save_results"]}
{"id": "C106", "title": "Passbands from files, directories, presets and the SVO service are exactly the tables found there", "statement": "Passband.from_file succeeds exactly when the file is there after the download and holds a table (a text file of two or more rows of two numbers, or a VOTable of two columns whose first is named wave...), and the passband is the one the constructor makes from the numbers in the file with their unit: the caller's for text, the file's own for a VOTable, converted to Angstroms exactly once. A file in the cache is never downloaded again and neither the network nor the URL matters; after any success the same call gives the same passband or group without a connection. PassbandGroup.from_dir gives exactly the passbands of the wanted files of the directory under the directory's name (of several files with one stem, the last listed), writes nothing, and fails if a wanted file is no table or a requested filter is no file. The LSST preset gives exactly u, g, r, i, z, y in this order from nanometers, the Roman preset its eight filters with wavelengths times 10000, the ZTF preset g, r, i; filters only select; a preset name is not case sensitive, an unknown one and a wrong unit are refused before anything is downloaded; an SVO name must have exactly one dot.", "quantifier": "all file systems, file contents (as numbers), network states, directories and listings, surveys, filters, keyword arguments, and sequences of loads", "why_tests_cant": "Tests load a handful of shipped files; which table ends up under which name, the unit and the cache must be right for every file system, listing order, network state and combination of arguments.", "anchors": ["src/lightcurvelynx/astro_utils/passbands.py: Passband.from_file, load_transmission_table, from_sncosmo, from_svo", "src/lightcurvelynx/astro_utils/passbands.py: PassbandGroup.__init__, from_dir, from_preset, _lsst_load_preset, _roman_load_preset, from_svo", "src/lightcurvelynx/utils/data_download.py: download_data_file_if_needed"]}
{"id": "C107", "title": "Saving a survey table and loading it again", "statement": "A survey table of the base class, OpSim or ZTF, made from the survey's own column names and then filtered, extended with further columns or given another radius, and written with write_parquet, is loaded by from_parquet as the same table: same rows, row labels and columns (under the standard and the survey's names), same value of every survey value, same answers of range_search, is_observed and get_observations (the detector footprint is not saved). write_db/from_db give back every cell with the old row labels in an additional column, and the survey values of the class. Writing changes no other file, table of the same database or, when it is refused, anything. time_bounds returns the earliest and the latest time.", "quantifier": "every table reachable by construction, add_column, per-band constants, filter_rows and the radius setter; every file name, table name, previous content of the disk, overwrite flag; every search", "why_tests_cant": "a test saves one small table; the claim is about every table, every history of changes before saving and every content of the disk", "anchors": ["src/lightcurvelynx/obstable/obs_table.py:ObsTable.from_db", "src/lightcurvelynx/obstable/obs_table.py:ObsTable.from_parquet", "src/lightcurvelynx/obstable/obs_table.py:ObsTable.write_db", "src/lightcurvelynx/obstable/obs_table.py:ObsTable.write_parquet", "src/lightcurvelynx/obstable/obs_table.py:ObsTable.time_bounds", "src/lightcurvelynx/obstable/ztf_obstable.py:ZTFObsTable.from_db"]}
{"id": "C108", "title": "Arrays and SEDs saved to files come back", "statement": "An array written with write_numpy_data to a name ending in .npy, .npz, .csv, .ecsv or .txt is what read_numpy_data gives for that name, entry by entry and with the same shape (in the text formats for 1-d arrays of length other than one and matrices with at least two rows and columns; otherwise the axes of length one are lost), and no other file changes; unknown endings and, for text, arrays that are neither 1-d nor 2-d are refused. StaticSEDModel.from_file of an SED saved with one line per wavelength gives the same model, or the same error, as the constructor on its array; from_synphot gives the converted flux at exactly the requested wavelengths.", "quantifier": "all arrays of any shape, all paths, all prior contents of the file system, all SEDs, all synphot sources and wavelength grids", "why_tests_cant": "A test writes a few arrays of one shape in the five formats; the shape rule depends on every combination of axis lengths, and what happens to other files and to the old contents depends on the whole file system.", "anchors": ["src/lightcurvelynx/utils/io_utils.py:read_numpy_data", "src/lightcurvelynx/utils/io_utils.py:write_numpy_data", "src/lightcurvelynx/models/static_sed_model.py:StaticSEDModel.from_file", "src/lightcurvelynx/models/static_sed_model.py:StaticSEDModel.from_synphot"]}
{"id": "C109", "title": "Distances derived from redshift and cosmology", "statement": "A physical model given a redshift and a cosmology, but no distance, gets a distance that in every sampled state is, sample by sample, the luminosity distance (in parsec) of that state's own redshift, also when the redshift is passed as a given argument; a given distance is used as given, and without a redshift or a cosmology the distance is None. Building and sampling such a model succeeds whenever its sources can be sampled, although the model and its helper node depend on each other. In a flat universe the distance is 0 at redshift 0, grows with redshift, scales with 1/H0 and has the model's distance modulus.", "quantifier": "all models (any arguments that are constants, values of other nodes or nodes), all existing graphs, all larger models they are part of, numbers of samples, given arguments, functions of the other nodes and generator states, all redshifts and flat cosmologies", "why_tests_cant": "Tests sample one model a few times; that the redshift is not sampled a second time for the distance, and that the circular dependency always terminates with values in the right order, depends on the whole graph and the order of parameters.", "anchors": ["src/lightcurvelynx/models/physical_model.py: BasePhysicalModel.__init__", "src/lightcurvelynx/astro_utils/redshift.py: redshift_to_distance, RedshiftDistFunc", "src/lightcurvelynx/base_models.py: ParameterizedNode._sample_helper, FunctionNode.compute"]}
{"id": "C110", "title": "Values regenerated from a PyTree; generate, get_param, allow_gradient", "statement": "If the PyTree that build_pytree makes of a sampled state is passed back as given_args, every parameter that the tree fixes (values in the tree, constants, links to fixed parameters, results of deterministic functions of fixed arguments) has the value it had, whatever the random state; for an acyclic model with distinct names whose functions use no random numbers the tree exists, the second sampling succeeds and every parameter of every node has its old value. generate samples once and returns the value of the only output, or the list of the values of the outputs in their order. get_param returns the stored value, or the default when there is none. set_allow_gradient changes only the flag of the named parameter (KeyError for an unknown name), the flags do not change what is sampled, and a disabled parameter is not in the tree. The values of random nodes do not come back from the tree, and the keyword arguments of generate have no effect (refuted).", "quantifier": "all models (graphs of nodes, node functions, flags), given arguments, numbers of samples, states of the random generators", "why_tests_cant": "the round trip has to hold for every graph shape, sharing of nodes, order of parameters and choice of flags; tests use a few small models", "anchors": ["src/lightcurvelynx/base_models.py: build_pytree, generate, get_param, list_params, set_allow_gradient, sample_parameters"]}
{"id": "C111", "title": "Random survey tables", "statement": "create_random_opsim(n) returns a table of exactly n observations at 0, 0.05, 0.10, ... days, at positions with 0 <= RA < 360 and -90 <= Dec <= 90 that are uniform over the sphere, with airmass in [1.3, 1.7), one of the six LSST bands, a 29 s exposure and the zero point that band, airmass and exposure give. create_random_ztf_obs_data(n) returns data that ZTFObsTable accepts without dropping a row, at uniform positions, with depths, sky levels, widths and bands in the documented ranges; every row gets the zero point its depth implies and the flux error of every non-negative flux is a positive number. Both raise ValueError for n <= 0. opsim_add_random_data adds a column of numbers between the bounds to every row and refuses (KeyError) an existing column, changing nothing else. A random OpSim can be used where flux errors are needed: refuted, its table has no seeing, sky brightness or exposure count, and the error computation raises KeyError.", "quantifier": "every number of observations, every seed (or none), every generator that returns as many numbers of [0, 1) and indices below the bound as asked; every column name and bounds", "why_tests_cant": "uniformity over the sphere is a statement about all parts of the sky, and the random table differs for every seed; a test looks at one seed and a few rows", "anchors": ["src/lightcurvelynx/obstable/opsim.py: create_random_opsim, opsim_add_random_data", "src/lightcurvelynx/obstable/ztf_obstable.py: create_random_ztf_obs_data"]}
{"id": "C112", "title": "Eddington ratio distribution", "statement": "eddington_ratio_dist_fun(edd_ratio, galaxy_type, rng, num_samples) accepts 'red' and 'blue' in any capitalisation and returns num_samples values (a float for exactly one), value i being xi ((edd_ratio/break)^d1 + (edd_ratio/break)^d2) with the published xi and the break and slopes of draw i; for a positive ratio every value is finite and positive, and 2 xi at the break. Any other type or a negative number of samples raises ValueError and takes no number from the generator. As a distribution function it falls off above the break: refuted, the code sums the power laws without the cited papers' exponent -1, so the values grow beyond every bound.", "quantifier": "every ratio > 0, every string, every generator state and number of samples", "why_tests_cant": "the values are random: a test sees some draws; finiteness, positivity and the growth are statements about all ratios and draws", "anchors": ["src/lightcurvelynx/astro_utils/agn_utils.py: eddington_ratio_dist_fun"]}
{"id": "C113", "title": "Loading and registering LSST passbands", "statement": "load_and_register_passband(directory, bands) reads LSST/<band>.dat of every band in nanometers, on a 1 Angstrom grid and trimmed by 0.001. When it returns, the group holds exactly the passbands of these files, sncosmo's entry lightcurvelynx_LSST_<band> of every band is the processed table of its passband (whatever it was before), and every other entry and every file is as before. It returns when every file gives a passband; when it raises, nothing was registered, and the list was empty or one of the files gives no passband.", "quantifier": "every file system, file contents, registry, absolute directory and list of bands (also with repetitions)", "why_tests_cant": "The registry, the files and the list of bands are arbitrary; tests have one directory and an empty registry.", "anchors": ["src/lightcurvelynx/example_runs/simulate_snia.py:load_and_register_passband", "src/lightcurvelynx/astro_utils/passbands.py:PassbandGroup.__init__"]}
{"id": "C114", "title": "A math node gives every sample the value of its expression at that sample's parameters", "statement": "Sampling a BasicMathNode whose expression consists of literals, parameters, pi, e, the operators and the listed functions of one or two numbers stores, for every sample, exactly the value of the expression at that sample's own parameters (computed with the functions of the chosen library: deg2rad is math.radians, pow is numpy.power, ...) and changes nothing else; if the expression fails for one sample the node fails and the state is unchanged. This holds for any number of samples with numpy and jax, and for one sample with the math backend (several samples: operators and abs). It does not hold for max and min.", "quantifier": "every expression, backend, set of parameters, number of samples and graph state; every arithmetic on single numbers", "why_tests_cant": "Expressions and parameter values are arbitrary; tests evaluate a few expressions on a few values.", "anchors": ["src/lightcurvelynx/math_nodes/basic_math_node.py:BasicMathNode.__init__", "src/lightcurvelynx/math_nodes/basic_math_node.py:BasicMathNode.prepare_params", "src/lightcurvelynx/math_nodes/basic_math_node.py:BasicMathNode._math_map", "src/lightcurvelynx/base_models.py:FunctionNode.compute"]}
{"id": "C115", "title": "Helper nodes that read the model they serve (dust map at the model's own position)", "statement": "A helper node may read parameters of the model it serves (dust = DustmapWrapper(map, ra=model.ra, dec=model.dec); model.add_effect(ExtinctionEffect(..., ebv=dust))), although model and helper then refer to each other. If every such parameter comes, in the model's order of parameters, before the parameters that lead to the helper, sampling the model succeeds for every number of samples, every parameter of every node gets a value of the kind it is meant to have, and the model's E(B-V) of sample i is the map's value at the model's own position of sample i. If the order is the other way round, or if the helper itself is sampled, sampling fails.", "quantifier": "all models (any number of nodes, links back to any node being sampled), all node functions and generators, all given values, all numbers of samples; all pointwise dust maps and translations", "why_tests_cant": "whether the circle is harmless depends on the order of the parameters and of the visits in every model; tests sample one model three times", "anchors": ["src/lightcurvelynx/base_models.py: ParameterizedNode._sample_helper, sample_parameters, FunctionNode.compute", "src/lightcurvelynx/astro_utils/dustmap.py: DustmapWrapper", "src/lightcurvelynx/effects/extinction.py: ExtinctionEffect", "docs/notebooks/adding_effects.ipynb", "tests/lightcurvelynx/effects/test_extinction.py: test_dustmap_chain"]}
{"id": "C116", "title": "Positions drawn from a coverage map", "statement": "ApproximateMOCSampler (made from a map or a file; depth 2 to 29, anything else a ValueError) draws for every sample one cell of its depth touched by the map and one of the depth-29 pixels in it, and returns and stores the pixel's centre; pre-set values and all other parameters stay and only the generator in use advances. Every pixel that can be drawn belongs to exactly one pair of draws, so all are equally likely. If the map is no finer than the sampler's depth, the pixels drawn are exactly those of the map; otherwise each position shares a cell of that depth with the map. After seeding the node behaves as a new node with that seed, whatever was done before. ObsTable.build_moc uses the given radius or the survey's, refuses a missing radius and impossible declinations with a ValueError, and its map covers every point within the radius of a pointing and nothing beyond radius plus the map's slack; so a sampler on it returns only positions the survey observes up to that slack and can return each of them up to its pixel.", "quantifier": "all maps, depths, seeds, histories of sampling and seeding, generators, graph states; all observation tables, radii and depths (under the contracts of HEALPix and MOC.from_cones)", "why_tests_cant": "tests look at a few seeded samples of one map; membership, equal likelihood and the effect of the history are claims about every draw", "anchors": ["src/lightcurvelynx/math_nodes/ra_dec_sampler.py:ApproximateMOCSampler", "src/lightcurvelynx/obstable/obs_table.py:ObsTable.build_moc"]}
{"id": "C117", "title": "Plots show every observation once, in its filter's colour, and the values the model has", "statement": "plot_lightcurves with filters draws, for each distinct filter in alphabetical order, the model's curve of that filter (if it has one) and one series labelled with the filter holding exactly the observations in that filter, in their order and in the filter's colour (the colormap's, or one of seven distinct default colours); over all series every observation appears exactly once, what was on the axes stays, and a legend is added when there is more than one filter. Arrays of different lengths are a ValueError and nothing is drawn. plot_bandflux_lightcurves draws each curve under its name against the given times, or 0, 1, 2, \u2026. plot_flux_spectrogram shows wavelengths as rows and times as columns, writes the rounded value of every odd time and every 40th wavelength once at its place, and names every 4th time and every 50th wavelength. LightcurveData.plot_lightcurves draws the caller's data of each filter, or, at given times inside the data of a non-periodic curve, the value the model evaluates to.", "quantifier": "all observations, filters, error arrays, colormaps, models, axes, titles, matrices, times and templates", "why_tests_cant": "tests only check that a few calls do not raise; what is drawn is never compared, and it must be right for every filter list", "anchors": ["src/lightcurvelynx/utils/plotting.py:plot_lightcurves", "src/lightcurvelynx/utils/plotting.py:plot_bandflux_lightcurves", "src/lightcurvelynx/utils/plotting.py:plot_flux_spectrogram", "src/lightcurvelynx/models/lightcurve_template_model.py:LightcurveData.plot_lightcurves"]}
{"id": "C118", "title": "A parameter comes from the given value, else the keyword of its name, else None; a plain function is called with all keywords", "statement": "set_parameter(name, value, **kwargs) and add_parameter use the value given, else the keyword argument called name, else None, and install exactly the recipe that value calls for; other parameters, other nodes and, unless the value is a plain function, all other keywords and the label are irrelevant. A plain function given as a parameter is called in every run with all keyword arguments of the constructor (each constant once per sample) and its result is the value of the parameter in every sampled state. A model built with a function for one of its parameters can be sampled whatever keyword arguments and label it has.", "quantifier": "all node graphs, parameter names, values, keyword lists, labels, functions, given arguments, numbers of samples and runs", "why_tests_cant": "tests build a few models with constants; which keywords reach a function, and which combinations can never be sampled, is a statement about all constructors' arguments", "anchors": ["src/lightcurvelynx/base_models.py:ParameterizedNode.set_parameter", "src/lightcurvelynx/base_models.py:ParameterizedNode.add_parameter", "src/lightcurvelynx/base_models.py:FunctionNode.__init__", "src/lightcurvelynx/models/basic_models.py:ConstantSEDModel.__init__", "src/lightcurvelynx/models/snia_host.py:SNIaHost.__init__", "src/lightcurvelynx/models/periodic_variable_star.py:EclipsingBinaryStar.__init__"]}
{"id": "C119", "title": "Fluxes do not depend on how a query is cut into calls", "statement": "For SED models whose compute_sed and effects act value by value, evaluate_sed on any selection (subset, rearrangement, repetition) of the times and wavelengths of another call returns exactly the corresponding entries; cutting the times or the wavelengths into two calls and stacking the results gives the result of the single call, also when only one part lies outside the model's wavelength bounds and is extrapolated; likewise cutting a list of observations for evaluate_bandfluxes. A call without wavelengths raises ValueError.", "quantifier": "all models, parameter values, redshifts, stacks of effects, extrapolation rules, time and wavelength lists and ways to cut them", "why_tests_cant": "Whether extrapolation happens, and on which grid the model is evaluated, depends on the smallest and largest wavelength of the whole call; the claim ranges over all cuts of all queries.", "anchors": ["src/lightcurvelynx/models/physical_model.py:SEDModel.compute_sed_with_extrapolation", "src/lightcurvelynx/models/physical_model.py:SEDModel._evaluate_single", "src/lightcurvelynx/models/physical_model.py:BasePhysicalModel.evaluate_bandfluxes"]}
{"id": "C120", "title": "Setting the outputs of a function node", "statement": "set_parameter accepts the name of an output of a function node. When every output was set this way, samples contain the values set and the function is never called. When one of several outputs was set and another is still computed, the function is called and its results overwrite the value set: the setting is silently ignored.", "quantifier": "all graphs, function nodes, output names, values, functions, given arguments, sample sizes", "why_tests_cant": "Depends on which setters of which node remain computed, on the order of writes in the graph state and on fixed values, for every graph.", "anchors": ["src/lightcurvelynx/base_models.py:ParameterizedNode.set_parameter", "src/lightcurvelynx/base_models.py:ParameterizedNode._sample_helper", "src/lightcurvelynx/base_models.py:FunctionNode._save_results"]}
{"id": "C121", "title": "Passbands are shared objects: processing one group, and failing halfway", "statement": "A PassbandGroup keeps references to Passband objects. Making a group or adding a passband to it changes no other group. process_transmission_tables on a group changes exactly the passbands of that group, up to the first one that raises: if it raises, the passbands before that one are processed, the others are as they were and the group's wavelengths, positions and names are the old ones. A group answers (wavelengths, lookups, band fluxes) like a group newly built from the passbands it holds after it was made, after add_passband and after a successful process_transmission_tables, for as long as none of its passbands is processed in another way (through another group, by itself, or by a call that failed). Processing only depends on the tables as they were loaded: after any history of processing calls, failed ones included, processing a group succeeds exactly when it would have at first and leaves the same group. A group whose passbands were processed elsewhere raises an error or answers correctly.", "quantifier": "all programs (sequences of making passbands and groups, adding, processing groups and single passbands, with any tables, steps and quantiles, exceptions caught), all sharing patterns between groups", "why_tests_cant": "The outcome depends on the whole history and on which groups share which objects; a failure can occur at any position in the loop.", "anchors": ["src/lightcurvelynx/astro_utils/passbands.py: PassbandGroup.__init__, PassbandGroup.add_passband, PassbandGroup._update_internal_data, PassbandGroup._update_waves, PassbandGroup.process_transmission_tables, PassbandGroup.fluxes_to_bandflux, Passband.process_transmission_table"]}
