{
 "C04": [
  "partial",
  "False as stated (C04_len_refuted: a set that raises on a wrong length is counted); proved for histories without exceptions (C04_len_partial) and exactly for all histories (C04_len_exact: the surplus is the number of calls that stopped with an exception at an allowed name the state did not hold)."
 ],
 "C05": [
  "proved",
  "Also a finding: extracted samples have no fixed_vars, so set on an existing node raises KeyError (C05_extracted_state_settable_refuted)."
 ],
 "C06": [
  "proved",
  "For scalar samples, in any set iteration order. Findings: vector-valued parameters cannot be recombined; a single one-sample state gets a length-1 array."
 ],
 "C07": [
  "partial",
  "Dictionary round trip in full, what from_dict makes of any flattened or nested dictionary (C07_from_dict) and what from_table makes of any table, one row included (C07_from_table, C07_one_row); table round trip, and through save_to_file/from_file (C07_file_round_trip_partial, with ECSV files keeping the columns), for two or more samples and at least one parameter (an empty state fails: C07_empty_table_refuted). What astropy makes of the 0-d columns that to_table writes for one sample is not modelled."
 ],
 "C10": [
  "partial",
  "Membership agrees with lookup of stored values; 'a failed lookup raises KeyError' is false for one-node states (returns None)."
 ],
 "C100": [
  "proved",
  "Over tables with real numbers; text in a numeric column is an error whose kind depends on the text; the set order of a filter selection is an arbitrary permutation. A forced epoch other than zero or the first source time is refused for periodic tables (C100_refused), and the last source row of a periodic table that closes is replaced by the first one of the next period."
 ],
 "C101": [
  "proved",
  "Composition of the flux pipeline (C43-C46), tables (C35, C72-C74, C71), noise (C55) and simulate (C38-C40). A run with a non-finite error bar is left out (taken as an error); a t0 that is text counts as None; the time mask must decide time by time. C101_defined gives conditions under which the run returns; C101_case is a worked run."
 ],
 "C102": [
  "proved",
  "For tables whose row labels are their positions. After filter_rows positions are looked up as labels: a draw fails with KeyError (C102_filtered_refuted) or, with the first row gone, times and filters come from the row before the one found while error bars come from the row itself (C102_filtered_mixup_refuted). The noise generator is made afresh inside (rng=None), so a given generator does not make the result reproducible; deviates are arbitrary in the model. Non-finite error bars are left out. The sncosmo comparison and source construction are not modelled."
 ],
 "C103": [
  "proved",
  "For acyclic graphs; a link between parameters of one node must go to an earlier, not computed one (else KeyError at run time). Recursion depth: fuel above the number of nodes."
 ],
 "C104": [
  "proved",
  "Model SniaSourceModel.v builds the 14 nodes of construct_snia_source with the builders of NodeGraphModel and samples them with its sample_parameters; success comes from C103. Uniform numbers are streams; a standard normal number is an arbitrary function of the stream and position; scipy's inversion is an arbitrary function pinv (C104_built: built iff it inverts the three densities). Exact reals; a table without observations is not modelled (its min and max are not numbers). That the distance modulus is finite needs z > 0 (C104_ranges); at z <= 0 x0 may be not finite (in the model: None)."
 ],
 "C105": [
  "proved",
  "NodeChainProofs.v, NodeChainProps.v over the model NodeGraphModel.v. The list of calls is existentially quantified but fixed by the trace (its nodes are the compute events of the trace); failing calls (a function that raises) are not covered: the theorem is about successful runs. That positions only advance is a hypothesis of C105_no_draw_shared about the functions."
 ],
 "C106": [
  "partial",
  "PassbandFileModel.v, PassbandFileProofs.v, PassbandFileProps.v, PassbandPresetProps.v. Proved as stated for absolute directories; refuted where the code deviates: duplicate wavelengths are not averaged but raise TypeError (C106_duplicates_refuted), a one-row text file raises IndexError, a relative directory is looked for in dir/dir (C106_relative_refuted), full names are not understood as filters of from_dir (C106_dir_missing), the Roman preset cannot be given its own unit or force_download, the ZTF preset ignores all keyword arguments. What the readers (numpy.loadtxt, astropy VOTable, pandas) make of the bytes is a parameter of the model; relative paths with '..' and surveys that begin with '/' are not modelled."
 ],
 "C107": [
  "partial",
  "Proved for tables of ObsTable, OpSim and ZTF with standard column names (C107_ordinary, C107_parquet, C107_db). Refuted in general: a ZTF table with dates, a FakeObsTable with a constant flux error, every RomanObsTable and tables with a column under a survey's own name are saved but cannot be loaded; a FakeObsTable loses its camera values; the detector footprint and (plain tables) the old names are lost; the defaults of ZTF's from_db and of write_db name different tables; write_db raises ValueError instead of FileExistsError, a failed overwrite loses the old table, and a table cannot pass through a database three times."
 ],
 "C108": [
  "proved",
  "Round trip in all five formats (C108_binary, C108_text with the exact shape rule, C108_round_trip), the refused writes and reads, SEDs from files equal to SEDs from arrays (C108_sed, C108_sed_accepted, C108_sed_by_hand), synphot sources. Refuted sub-claims: text formats lose axes of length 1 (C108_text_shape_refuted), a refused text write empties the existing file (C108_write_lost_refuted), .dat can be written but not read (C108_dat_refuted), an SED saved as two lines is refused, or, with two wavelengths, silently loaded as another SED (C108_sed_rows_refuted, C108_sed_pair_refuted). Files under other names than they were written to: C108_copied."
 ],
 "C109": [
  "proved",
  "C109_built (which nodes are made), C109_derived + C109_distance (the distances are those of the redshifts of the same state, in every larger model), C109_succeeds (sampling succeeds; via C109_sampling_succeeds, a generalisation of C103 to helper nodes that depend on the node they serve), C109_parsec (numbers of a flat universe). Restriction: arguments that are plain callables are not covered by C109_built. Finding C109_extra_refuted: with any further keyword argument (the host mass of SNIaHost, the parameters of SncosmoWrapperModel) together with a cosmology, the model is built but can never be sampled: the argument is passed on to redshift_to_distance."
 ],
 "C11": [
  "proved",
  "Finding: a one-sample vector of matching length is spread over samples (C11_vector_spread_refuted)."
 ],
 "C110": [
  "proved",
  "Round trip through the PyTree for every model (fixed parameters) and for every deterministic model that C103 samples (all parameters); generate, get_param, list_params, set_allow_gradient. Refuted sub-claims: random values do not come back, generate's keyword arguments are ignored."
 ],
 "C111": [
  "proved",
  "The generator is abstract (unit_spec, int_spec as in C98); floats are exact reals. C111_opsim and C111_ztf give every cell of every row; C111_on_the_sky and C111_uniform say the positions are on the sky and that the pairs of numbers landing in any RA/Dec box form a rectangle whose area is the solid angle over 4 pi (the independence and uniformity of numpy's numbers is trusted). That a random OpSim supports flux errors is refuted (C111_opsim_errors_refuted: KeyError). Time.mjd is a parameter."
 ],
 "C112": [
  "proved",
  "Exact reals; numpy's generator is abstract (n standard normal numbers per call); ASCII capitalisation. The falling-off clause is refuted (C112_falls_off_refuted: whenever z3 > -4). num_samples is an integer, edd_ratio one number."
 ],
 "C113": [
  "proved",
  "sncosmo's registry is a function from names to tables and sncosmo.Bandpass accepts every processed table; absolute directory"
 ],
 "C114": [
  "partial",
  "Proved for all expressions but max and min, whose use with numpy is refuted: max(x) gives every sample the largest of all samples (C114_max), max(x, 0) does not cut off at 0 (C114_clip_refuted), max(x, y) raises TypeError (C114_two_max); math functions fail for several samples (C114_math_many); arrays per sample are combined along the wrong axis (C114_rows_refuted). Single-number arithmetic is abstract (numpy 2 promotion, same rounding for an array and its entries)."
 ],
 "C115": [
  "proved",
  "Success of the run for every model whose links back are to parameters that come earlier (C115_sampling_succeeds, a generalisation of C103: C115_acyclic_covered); E(B-V) at the model's own position in any model (C115_dust_values) and in the documented one (C115_dust_model, which also shows that the conditions are met). Sub-claims refuted: any order of the parameters works (C115_order_refuted: KeyError); the helper can be sampled by itself (C115_helper_alone_refuted). 'Comes before' is stated with an order (rank) of the nodes, supplied by the user of the theorem."
 ],
 "C116": [
  "proved",
  "Contracts assumed: HEALPix (centre in its pixel, cells nested and filled by their pixels) and MOC.from_cones (covers the cones, at most slack too much, orders at most max_depth); a concrete tessellation meets them. Refuted for maps finer than the sampler's depth: positions outside of the map are drawn (C116_finer_map_refuted). FileNotFoundError is modelled as RuntimeError; MOC.load is not modelled."
 ],
 "C117": [
  "partial",
  "Proved with filters given. Refuted: without filters (documented: all points belong to one filter) no point is drawn, and with error bars the call is a ValueError; without a colormap eight filters are an IndexError; an incomplete colormap is a KeyError after part was drawn; curves of different lengths without times are a ValueError in plot_bandflux_lightcurves; a template's picture at given times is 0 outside the data where the model has its baseline. Artists are what matplotlib is handed: line styles and rendering are not modelled."
 ],
 "C118": [
  "partial",
  "Choice of the value, recipes, irrelevance of the other keywords, and the calls with all keywords are proved for all graphs and runs. The last sentence is refuted: a labelled model whose parameter is a plain function can never be sampled (the wrapping node gets the label too: C118_constant_sed_label_refuted), a function that does not take every keyword of the model always raises (C118_narrow_function_refuted, C118_constant_sed_plain_function), and a function given by keyword is called with its own result as argument (C118_function_by_keyword). Keywords named like the Python arguments of set_parameter/FunctionNode (name, value, func, outputs, fixed_params) are outside the model."
 ],
 "C119": [
  "proved",
  "For models as in C42_pipeline (pointwise compute_sed, effects acting value by value, consistent bounds) and no keyword arguments; wavelength lists non-empty. With keyword arguments the claim is false (C43_kwargs_dropped_refuted). An empty wavelength list raises ValueError (C119_empty_refuted). Band fluxes: every model whose observations are computed one by one (C45_pointwise_models)."
 ],
 "C12": [
  "proved",
  "For multi-sample states as claimed; with one sample arrays are shared and force_copy is ignored (refuted theorems)."
 ],
 "C120": [
  "proved",
  "All outputs set: proved on any graph (C120_all_outputs_set). One of several set: the value is ignored (C120_one_output_set_refuted; on the sampled node, in any graph), so the natural claim 'a value set is the value sampled' fails there."
 ],
 "C121": [
  "partial",
  "Proved: making, adding, processing, failing halfway, what other groups notice, freshness and its preservation, retrying, for all programs. The last sentence is refuted: a group whose passband was processed through another group (C121_shared_refuted) or by a call that failed (C121_failed_refuted) returns wrong band fluxes without an error, because its wavelengths are stale. Exceptions inside _update_internal_data cannot happen (refresh_total)."
 ],
 "C14": [
  "proved",
  "Reflexivity and soundness; asymmetry and shape-blindness exhibited by witnesses."
 ],
 "C17": [
  "proved",
  "Termination within a recursion depth of the number of nodes (C17_terminates); this is needed: for every recursion limit there is a well-formed acyclic chain of objects, one longer, on which numbering, sampling and the dependency graph raise RecursionError (C17_deep_chain_refuted)."
 ],
 "C18": [
  "proved",
  "Ordering proved for acyclic graphs; C18_cycle_refuted shows why the restriction is needed."
 ],
 "C21": [
  "proved",
  "Any duplicate among reachable nodes makes sample_parameters raise; the check itself raises ValueError (C21_second_visit_raises)."
 ],
 "C26": [
  "proved",
  "C26_always_inside_refuted records the documented limitation when max_iterations runs out."
 ],
 "C28": [
  "proved",
  "Acceptance is exactly the grammar, for every tree. Findings: a parameter named np/math/jnp captures translated names; several expressions separated by ';' are accepted but never evaluable."
 ],
 "C29": [
  "proved",
  "exact real arithmetic; the passband exists with regridding and trimming whenever the regridded table has positive area and no single step of it holds 1 - 2q of the area (C29_defined_general, C29_regrid_defined)"
 ],
 "C30": [
  "partial",
  "flat spectrum exact when delta_wave is None or the grid step equals delta_wave; in general off by delta_wave/step (C30_flat_uniform), so the unrestricted claim is refuted"
 ],
 "C31": [
  "partial",
  "lower tail as claimed; at the upper end the removed rows carry at most the quantile but the interval between the last kept and first removed row is lost as well (refuted in general); trimming and normalising are defined unless a single step holds 1 - 2q of the area (C31_trim_defined)"
 ],
 "C32": [
  "partial",
  "getitem/contains/mask/filters proved; contains vs getitem and bandflux for ambiguous names refuted"
 ],
 "C33": [
  "proved",
  "under the separation hypothesis; without it refuted (wrong wavelengths, IndexError); wave_bounds for every group (C33_bounds: exact lower bound, upper bound short by at most 1e-5 per wavelength, exact under the hypothesis; C33_bounds_refuted otherwise)"
 ],
 "C34": [
  "partial",
  "exact for radii 0..180 degrees, arrays of queries and per-query bounds, for every k-d tree meeting ball_spec; scalar bounds with several queries, radii > 180 and overwritten position columns refuted"
 ],
 "C35": [
  "partial",
  "scalar/scalar and array/array queries; scalar ra with array dec refuted"
 ],
 "C36": [
  "partial",
  "masks, index lists and later searches proved; get_observations proved for default row labels, refuted after filter_rows; empty index list refuted"
 ],
 "C37": [
  "proved",
  "for maps with distinct survey names; two standard names for one survey column refuted"
 ],
 "C38": [
  "proved",
  "for deterministic models given pointwise (pointwise), tables reachable by the API (tbl), radii 0..180, saved columns distinct and not named like a built-in column; C38_defined shows such runs succeed; C38_light_curves: the nested light curves are consecutive blocks that partition the rows; parameter-name clash refuted"
 ],
 "C39": [
  "proved",
  "same conditions as C38; saving a column when some object has no match, and saving 'filter', refuted (the call raises)"
 ],
 "C40": [
  "proved",
  "t0 None with several samples refuted (TypeError instead of no window)"
 ],
 "C41": [
  "proved",
  "For z > -1."
 ],
 "C42": [
  "proved",
  "Pipeline stated with an independent expected_flux; effects pointwise (acts). Two effects of the same class share a node parameter, so the second one's own value is ignored (C42_own_parameters_refuted)."
 ],
 "C43": [
  "proved",
  "Unrestricted over wavelength lists and pointwise models. Findings: with one bound set, an extra query below/above it (refuted); kwargs are dropped on the extrapolated path (refuted)."
 ],
 "C44": [
  "proved",
  "LastValue/Linear/Exponential/Constant; for non-negative edge flux where the claim says so."
 ],
 "C45": [
  "proved",
  "For models whose evaluation is pointwise in time (one_by_one); shown for all pointwise SED models and their combinations."
 ],
 "C46": [
  "proved",
  "Components distinct objects. Findings: set_apply_redshift on a multi-object model changes nothing or raises (refuted)."
 ],
 "C47": [
  "proved",
  "Component names distinct; duplicate names and the wavelength-range query are refuted."
 ],
 "C48": [
  "proved",
  "LightcurveData and (Multi)LightcurveTemplateModel: values at, between and outside the data, periodic wrapping, baseline, validation, template entries per observation. Refuted sub-claims (real behaviours of the code): default baseline with magnitudes_in=True is the flux of magnitude 0, not 0; the caller's baseline dictionary is overwritten; curves with different sampling times pass as periodic when the times are large (allclose rtol); a LightcurveData object is refused as input."
 ],
 "C49": [
  "proved",
  "Exact when every passband value is 0 or above 1e-5 (the code's significance cut); existence characterised (C49_defined: exactly when each filter has a wavelength of its own). With faint tails the claim is refuted (C49_faint_tails_refuted)."
 ],
 "C50": [
  "proved",
  "Phases (range, meaning, epoch, uniqueness) and periodicity of the evaluated flux through the full pipeline, with redshift stretching the period, wavelength bounds, extrapolation and effects that do not look at the times."
 ],
 "C51": [
  "proved",
  "Constant, step, sine, linear and static models through the public evaluation with redshift; static table validation; StaticBandfluxModel. Refuted: a 2 x 2 x N array of two valid SEDs is refused although the list of the same two is accepted."
 ],
 "C52": [
  "proved",
  "Grid points need irregular axes or steps larger than n/2e6 (otherwise refuted: C52_small_steps_refuted, nearly equal small steps are treated as regular); the cell contains the query for irregular and evenly spaced axes; linear functions are not reproduced on irregular axes (C52_irregular_linear_refuted). Exact reals instead of JAX floats."
 ],
 "C55": [
  "proved",
  "For non-negative inputs and a positive zero point. Finding: a callable readout noise is not scaled by footprint and exposure count (C55_callable_readout_refuted)."
 ],
 "C56": [
  "proved",
  "For the documented formula with the same parameters. Findings: the ZTF table's footprint constant makes it 4.9995..5 rather than 5 (C56_ztf_close), and its zero point ignores overridden camera constants (C56_ztf_override_refuted)."
 ],
 "C57": [
  "proved",
  "Statement corrected to the code's sign convention."
 ],
 "C58": [
  "proved",
  "Under one FILTERS declaration without repeated letters: accepted files characterised item by item, tables per END_EVENT with exactly the rows since the last START_EVENT, one table per block for block-structured files, error kinds, documentation/comment/blank lines skipped, lexing of lines and rows. Refuted: one table per event when END_EVENT is repeated, metadata confined to its event, stale columns after a second FILTERS line. Row before START_EVENT raises KeyError, not ValueError."
 ],
 "C59": [
  "proved",
  "With validate=True accepted exactly for row-major enumerations of two increasing axes (ValueError otherwise); values placed at their grid points; composition with BicubicInterpolator.from_grid_file. Refuted without validate (the default, and what from_grid_file uses): only the row count is checked, other orders silently misplace values. Numbers exact, no NaN; text parsing by astropy not modelled."
 ],
 "C60": [
  "partial",
  "SNR, magnitudes, errors, detection flags, alignment per object, drop_empty and relative times on frames numbered 0,1,2,... proved. Refuted for nested frames: invalid points are flagged numpy-masked rather than False (test is 'is not None'); t0 is looked up by label as position, so after results_drop_empty the relative times raise IndexError (or use another object's t0 after reordering); one t0 of zero suppresses all relative times. How nested_pandas stores a masked flag is not modelled."
 ],
 "C61": [
  "proved",
  "Python-side resolution of value=None through kwargs is outside the model: the theorems take the resolved value."
 ],
 "C62": [
  "proved",
  "For distinct node names. C62_self_links_refuted shows that links inside one node are not recorded."
 ],
 "C63": [
  "proved",
  "C63_enabled_link_hides_upstream_refuted exhibits the stop at gradient-enabled links."
 ],
 "C64": [
  "proved",
  "Findings: integer weights raise TypeError (in-place division), a float weights array of the caller is overwritten."
 ],
 "C65": [
  "partial",
  "all but the averaging of duplicates, which is refuted"
 ],
 "C66": [
  "partial",
  "constant columns proved when the filter list covers the table; no-filter-column case refuted"
 ],
 "C67": [
  "proved",
  "non-negative redshift; a negative redshift is ignored (refuted); filter names distinct and not 'times'/'rest_phase'"
 ],
 "C68": [
  "proved",
  "Extinction has no band-flux form (C68_extinction_band_refuted), dimming and microlensing commute with band integration."
 ],
 "C69": [
  "proved",
  "exact reals instead of JAX floats; float()/int() parsing abstract; grid files after astropy parsing (C59)"
 ],
 "C70": [
  "proved",
  "exact reals; Planck's law with astropy's constants; positive radii, temperatures, wavelengths. The documented units (AU, solar radii) are refuted: C70_documented_units_refuted"
 ],
 "C71": [
  "proved",
  "for tables with a filter column; refuted sub-claims: negative sky accepted (undefined errors), no filter column gives zero constants, metadata values are always overridden by the constructor's defaults, a renamed zp column makes the errors uncomputable"
 ],
 "C72": [
  "proved",
  "Proved for tables whose cells are numbers/text/NaN. Findings (refuted sub-claims): integer zero points make numpy truncate later floats (C72_integers_refuted), a band without entry is noticed only in the first row and otherwise gives NaN (C72_unknown_band_refuted), an empty table cannot be made (C72_empty_refuted). pandas' masking of an unknown first band (object column) is not modelled."
 ],
 "C73": [
  "proved",
  "Proved with the conversion of dates abstract. Findings: labels are not renumbered, so get_observations raises or returns another row (C73_labels_refuted); filters lists filters without rows (C73_stale_filters_refuted); overriding gain, read noise or dark current does not change the zero points (C73_override_refuted, C56_ztf_override_refuted)."
 ],
 "C74": [
  "partial",
  "Rows, passes, errors, acceptance/refusal and searches proved for every plan and characterisation tables (the network files are parameters; BANDPASS text, MA numbers and PASS numeric). Refuted parts: ma_table_path always fails (UnboundLocalError), a dict table always fails (AttributeError), the caller's frame is overwritten (time column lost, columns added)."
 ],
 "C75": [
  "partial",
  "Rows, ids, values, search and the exact success condition proved for every table (tinv, column map settled - shown for tables made with default names by C75_opsim -, numeric ids, text filters, distinct row labels; sampling is an arbitrary oracle). Refuted parts: the call fails with ValueError unless the number of bands divides the number of times (C75_outcome, C75_uneven_refuted), and the detector footprint is dropped (C75_footprint_refuted)."
 ],
 "C76": [
  "partial",
  "Disc flux, hottest ring, geometry, derived parameters and the form of the flux proved (the integral exists and equals the rings' light when x_in >= 1e-6, the code's clip). Refuted of the code: times that go back are accepted and increasing times starting before t0 are refused or give NaN (curr_t is never updated); the walk is not continuous; its noise is never negative, so the flux never rises above the average; at 4000 angstroms tau and SF are not the reference values (10**B * wave instead of wave**B)."
 ],
 "C77": [
  "partial",
  "Proved for one value per sample (any parameters), for one sample with arrays of any shapes (C77_arrays: numpy's broadcasting, ValueError exactly when the shapes do not broadcast), for arrays per sample without parameters, shapes, generators and seeds. Refuted: with an array per sample and any parameter (even a constant, which the graph state repeats per sample) several samples raise ValueError, or - when the last dimension equals the number of samples - entry (i, j) uses the parameters of sample j; fixed_params are dropped when a generator is given and after set_seed. numpy's numbers are an oracle."
 ],
 "C78": [
  "partial",
  "Proved: the probability of a value below x_i is (y_0+..+y_i)/sum(y), range, seeds, constructor. Refuted: with y_0 > 0 a draw below y_0/sum(y) raises ValueError; for unequally spaced x the probabilities are not the areas; the given generator is ignored; integer arrays and lists raise TypeError. kind='linear' only; sum 0 outside the model."
 ],
 "C79": [
  "proved",
  "Exact reals; the functions act elementwise on arrays."
 ],
 "C80": [
  "partial",
  "Everything but the unit of the radius is proved; the documented unit (degrees) is refuted by C80_degrees_refuted: the separation is computed in radians but compared with the radius in degrees, so one documented standard deviation away the galaxy still has more than 99.98% of its brightness."
 ],
 "C81": [
  "partial",
  "The footprint test as projected rectangle (C81_contains, stretch factor of the regions package's 1-arcsecond measurement below 1e-8: C81_stretch), rejection conditions (C81_from_rect, C81_origin), pixel-scale independence, region angle, half/quarter turns, right ascension shift, rotation direction in position-angle terms (C81_rotation), inscribed and circumscribed circles, arrays element by element, and the footprint-filtered range search (C81_search) are proved for all inputs. Refuted: pixel regions are half a pixel off the pointing (C81_pixel_origin_refuted); the survey table hands its arcsec pixel scale to a footprint expecting degrees (C81_table_scale_refuted). User-supplied WCS is an abstract function; only rectangles as sky regions."
 ],
 "C82": [
  "partial",
  "proved for every density, object, class, sample count and generator; scipy's inverse is abstract with its u-resolution. Refuted parts: a class sampled n>=2 times takes n+1 numbers (np.vectorize calls the function once more for the output type), so many samples differ from one by one (C82_extra_draw_refuted); parameters given together with a distribution object are ignored (C82_object_parameters_refuted)"
 ],
 "C83": [
  "proved",
  "for flat Lambda-CDM without radiation, exact integrals (astropy's FlatLambdaCDM is modelled), scipy's inverse abstract. Finding: H0 or Omega_m given as an integer is refused (C83_integer_refuted)"
 ],
 "C84": [
  "partial",
  "geometry proved for hosts with cos(dec) >= 1e-12 or exactly at a pole. Refuted: the random direction comes from numpy's global generator, the given generator and the seed have no influence (C84_generator_refuted, C84_global_refuted); redshift 0 has no position (C84_zero_redshift)"
 ],
 "C85": [
  "partial",
  "Full claim proved for evaluate_sed / evaluate_bandfluxes called with a generator. Refuted for the whole simulation: simulate_lightcurves does not pass its generator to evaluate_bandfluxes, so white noise there comes from fresh entropy (C85_simulate says what holds, C85_simulate_refuted gives the counterexample); two WhiteNoise effects on one model share the first one's sigma (C85_two_effects_refuted)."
 ],
 "C86": [
  "proved",
  "For times in increasing order (scipy refuses others: C86_unsorted_refuted, C86_unsorted_bands_refuted) and wavelengths in order. The polynomial pieces of the spline are an argument assumed to interpolate the grid points; proved for degree 1 (C86_linear_interpolates)."
 ],
 "C87": [
  "partial",
  "Independence of the history, flux, extrapolation, sampling and mask proved for all histories of sampling, evaluation and masking. Refuted in full generality: after set() with a new name, states sampled earlier can no longer be evaluated (C87_set_old_state_refuted); set() with a name unknown to the source raises but leaves the model unusable (C87_set_unknown_refuted); a state without t0 raises TypeError (C87_no_epoch_refuted) although mask_by_time accepts it."
 ],
 "C88": [
  "partial",
  "Everything proved but the last clause, which is refuted: wavelengths beyond the bounds of the redback source end in RecursionError whatever the stack, because the wrapper reports the bounds 0 and infinity to the extrapolation (C88_beyond_refuted)."
 ],
 "C89": [
  "partial",
  "Proved over an abstract file system with pooch 1 semantics (atomic download). Refuted parts: force_download=True never downloads again (pooch treats an existing file without a known hash as up to date); OpSim.from_url returns the file of another URL with the same last component."
 ],
 "C90": [
  "partial",
  "Refuted parts: an interruption during unpacking, a second directory, a relative directory and a cleared cache without connection each make loading fail; the theorems say exactly when. The archive is modelled as two files unpacked in two steps."
 ],
 "C91": [
  "proved",
  "np.linalg.solve is modelled by elimination; C91_only_solution shows its exact result is the only solution. Strictly increasing knots, at least two."
 ],
 "C92": [
  "partial",
  "Refuted: the 1-d helper returns half the second derivatives (C92_half); the surface is off by second_x (h - h^2)/6 + second_y (h' - h'^2)/6 at grid points (C92_grid_value), e.g. for the 10 Angstrom steps of the Hsiao template, and jumps at phase knots."
 ],
 "C93": [
  "partial",
  "Everything but the role of Rv is proved; C93_rv_refuted: the flux depends on Av and Rv only through Av/Rv, F99 is always built with its default Rv = 3.1. The dust law is an arbitrary partial function; table shapes are as documented."
 ],
 "C94": [
  "proved",
  "bilby's priors are arguments (draw functions on a shared generator). Refuted sub-claims: a node's own seed does not isolate it (C94_own_seed_refuted, C94_last_seed_wins: making another seeded node, even one refused for its empty prior, reseeds all); a numpy generator does not control the samples (C94_numpy_generator_refuted, documented); a prior with a Constraint entry can be made into a node but sampling it raises KeyError after writing the earlier parameters (C94_constraint_refused)."
 ],
 "C95": [
  "partial",
  "Proved for flows without conditional columns (any number of samples) and for conditional flows with two or more samples. Refuted for conditional flows with one sample: the parameters are then numbers and pandas refuses to build the DataFrame, so compute always raises ValueError (C95_conditional_one_sample_refuted)."
 ],
 "C96": [
  "proved",
  "SkyCoord is modelled (wrapping, latitude check). For NaN declinations ConstantHemisphereDustMap gives the southern value for one sample and the northern one for several (C96_nan_refuted)."
 ],
 "C97": [
  "partial",
  "Proved: frame, parameters, lookup by name, action in both frames. Refuted: an effect whose law is given by name cannot be labelled, effect_name is passed on to the law's class (C97_label_refuted); names that a module merely imports give TypeError (C97_not_a_law_refuted); two extinction effects on one source share the first one's ebv (C97_own_ebv_refuted)."
 ],
 "C98": [
  "proved",
  "Generator: any state with batches of numbers of [0, 1). Uniformity as the area of the preimage in the unit square against the integral of cos dec (Coquelicot)."
 ],
 "C99": [
  "proved",
  "Theorems over all histories. Findings (refuted sub-claims): with one sample and a positive radius ra and dec are stored as one-element arrays (C99_one_sample_refuted); declinations above 90 are returned near the poles (C99_range_refuted) - as a direction still within the radius."
 ]
}