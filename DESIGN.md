# Formal model of lincc-frameworks/tdastro (package `lightcurvelynx`) in Rocq/Coq 8.16.1

## 1. Shape of the development

Everything is in `rocq/theories/`.  For each area of the code there are up to three files:

* `XModel.v`  – definitions only; every definition cites the file and lines it models and
  says what is simplified;
* `XProofs.v` – lemmas;
* `XProps.v`  – the *property file*: small independent specification predicates, the theorems named in
  `MANIFEST.json`, a concrete non-trivial instance (`Example`) beside each theorem, and
  `Print Assumptions` for each theorem.

Python objects are modelled as pure values; a method that mutates `self` is a function
returning the new object; exceptions are values (`result A = Ok a | Err e`), and methods that may leave
partial effects before raising return both the state *and* the result.  Python dicts are
association lists in insertion order (`Dict`), strings are Coq `string`s.  Numpy
arrays are lists.  Random generators are modelled by quantifying over the drawn values (every
theorem holds for all draws).  Floating point numbers are modelled by exact reals (`R`), rationals
or an abstract type; rounding is not modelled.

## 2. Plan per property

(`gs` = GraphStateModel, `node` = NodeModel, ... ; "inv" = invariant by induction over histories)

| property | model | proof |
|---|---|---|
| C01 set/get frame | gs: `gs_set`, `gs_getitem` | case analysis on the assoc-list, frame lemmas |
| C02 shape invariant | gs: op lists of set/update | inv |
| C03 fixed never change | gs op lists | inv |
| C04 len | gs op lists | inv for succeeding histories; `_refuted` for failing |
| C05 iteration | gs: `extract_single_sample` | pointwise lookup lemmas |
| C06 from_list | gs: `from_list` | induction over the list |
| C07 dict round trip | gs: `to_dict`/`from_dict`, tables, and files (GraphFileProps: a store of ECSV tables) | split/join lemma, induction |
| C08 name injectivity | strings: `split_dot` | induction over strings |
| C09 extract_parameters | gs | invariant of the double loop |
| C10 contains/getitem | gs | case analysis; `_refuted` for the single-node case |
| C11 update | gs | induction over the inputs |
| C12 copy independence | heap of arrays | separation of addresses |
| C13 transpose | dict/list | induction |
| C14 equality | gs over rationals | reflexivity; non-symmetry `_refuted` |
| C15, C16 DependencyGraph | op lists | inv; injectivity of decimal numerals |
| C17 positions | node heap, DFS with seen list | DFS invariant, measure = unseen nodes; `DeepChainProps.v`: chains longer than the recursion limit fail (C17_deep_chain_refuted) |
| C18–C21 sampling | `sample_helper` over the node heap | DFS invariant |
| C22 FunctionNode | `build_inputs`, `save_results` | induction |
| C23–C25 given samplers | state machines | inv over call histories |
| C26 rejection sampling | loop over draw streams | loop invariant |
| C27 MOC pixels | Z shifts | arithmetic |
| C28 math node | expression AST | structural induction vs. independent predicate + evaluator |
| C29–C33 passbands | tables over R | trapezoid algebra, searchsorted lemmas |
| C34–C37 ObsTable | rows, unit vectors over R | filter lemmas, trigonometry |
| C38–C40 simulate | nested loops over lists | induction |
| C41 redshift | R | field |
| C42 evaluation pipeline | SedModel: rest frame → effects → redshift → observer effects | SedPipeline: `C42_pipeline` against an independent `expected_flux` |
| C43, C44 extrapolation | SedModel: mask/scatter, four extrapolators over R | mask/scatter lemmas, analysis |
| C45 band fluxes | SedModel + PassbandModel | SedBands: induction over filters, scatter lemma |
| C46, C47 additive and random models | SedModel multi-object part | SedMulti: induction over components |
| C48, C49 light-curve templates, SED basis | TemplateModel, TemplateSed: np.interp over R, box basis | interpolation lemmas, linear algebra of disjoint boxes |
| C50, C51 periodic and simple models | SimpleModels on top of the pipeline | C42 pipeline, mod lemmas |
| C52 bicubic interpolation | BicubicModel | field/nra, local basis lemmas |
| C53, C54, C57 magnitudes, units, zero points | NoiseModel | analysis |
| C55, C56 noise, depth | NoiseModel | analysis |
| C58 LCLIB | LclibModel: line state machine over strings | induction over lines, lexing lemmas |
| C59 grid files | GridModel | induction over rows |
| C60 post-processing | PostModel | list lemmas |
| C61, C62, C63 parameters, dependency graph, pytree | NodeModel, NodeGraph, NodeDep | DFS invariant |
| C64 GivenValueSampler | SamplerModel | cumulative sums |
| C65 passband tables | PassbandModel | list order lemmas |
| C66 survey values | ObsTableModel | case analysis |
| C67, C68 noise-free curves, effects on bands | SimulateModel, SedModel | pipeline, linearity of the trapezoid |
| C69 SALT2 | Salt2Model on BicubicModel/GridModel | polynomials, `Rpower` |
| C70 eclipsing binary | EclipseModel: circles' overlap, Planck's law | trigonometry, monotonicity |
| C71–C74 survey tables (fake, OpSim, ZTF, Roman) | FakeModel, SurveyModel, RomanModel on ObsTableModel | row-wise induction |
| C75 oversampling | OversampleModel | list lemmas, floor arithmetic |
| C76 AGN | AgnModel, AgnIntegral | Coquelicot `RInt_gen`, analysis |
| C77, C78 random nodes | NpRandomModel, DistModel: oracle draws / inverse cdf | induction, interpolation lemmas |
| C79 efficiencies | Tightened | analysis |
| C80 galaxy | GalaxyModel: great-circle separation | trigonometry |
| C81 detector footprint | FootprintModel: gnomonic projection, rotated axes | trigonometry |
| C82 scipy inverse-polynomial sampling | ScipyModel: abstract inverse with u-resolution, one uniform per sample | monotonicity, induction over samples |
| C83, C84 SN Ia utilities | SniaModel: rates, FlatLambdaCDM as Riemann integrals, HostmassX1, offset on the sphere | Coquelicot integrals, trigonometry |
| C85 white noise, generator threading | NoisyModel: effects over streams of normals | induction over the nested object (own induction principle) |
| C86 spline models | SplineModel: interpolating argument + concrete bilinear | interpolation lemmas |
| C87, C88 sncosmo and redback wrappers | SncosmoModel, RedbackProps: third-party source as an argument, object state as history | invariants over histories; fuel for the recursion |
| C89, C90 downloads and the SFD map | DownloadModel: file system + cache as maps, crash points as prefixes of the action list | induction over actions / prefixes |
| C91–C93 BayeSN | BayesnModel: natural cubic splines, elimination for `solve` | uniqueness of the tridiagonal solution, polynomial algebra |
| C94 bilby priors, C95 pzflow | ExternalModel: draw functions on a shared generator; flow as an argument | induction over parameters and samples |
| C96, C97 dust maps and extinction | DustModel on NodeModel/SedModel | induction, pipeline |
| C98 UniformRADEC, C99 ObsTableRADECSampler | RadecModel/RadecTable: generator as an abstract state delivering batches of numbers; NodeModel for the storage | trigonometry on R (RadecTrig), unfolding of the node's compute |
| C100 LCLIB table/file to light curves | LclibTable on LclibModel + TemplateModel; `ord` is any permutation (order of a Python set); text in a numeric column is a ValueError | induction over rows (rank of the row in its filter), C48 for the curves |
| C101 end-to-end simulation | EndToEndModel: the abstract arguments of SimulateModel.simulate filled with SedModel, GraphState lookups and the survey error models; non-finite error bars excluded, text t0 as None, masks pointwise | simulate on states restricted to the settled ones (pull/push), then C39_rows, C45 and the error formulas |
| C102 draw_single_random_sn, run_snia_end2end | SnRunModel: position lookups as pandas labels (select_labels), opsim errors, arbitrary deviates; the sncosmo check is left out | C35 search + C45 + errors row by row; labels = positions, else refuted on filtered tables |
| C103 sampling succeeds | NodeGraphModel (unchanged); a semantic type `good` per parameter and an invariant `fine` of the generators | induction on fuel with the stack of open nodes (ranks decrease), all closed nodes filled |
| C104 the SN Ia source | SniaSourceModel: the 14 nodes of `construct_snia_source` built in the heap of NodeGraphModel, and what each class computes (streams of uniform numbers, normal numbers and the inversion of densities abstract) | graph facts by computation on abstract constants; success from C103; relations by following links (C19) and function nodes (C22) through the graph |
| C105 calls in sequence | NodeGraphModel; a call is the node, the worlds before and after, arguments and result | induction on the fuel of `_sample_helper` collecting the calls; threading gives the intervals of a shared generator |
| C106 passbands from files | PassbandFileModel: suffix dispatch, columns, units, cache, directory listing, presets and SVO names over DownloadModel's file system; the readers' output (rows of numbers, VOTable fields, columns) is a parameter | iff-characterization of `from_file`; loading lists by induction with files only added; members of a group from the dictionary fold; descent on name lengths for missing filters |
| C107 saved survey tables | ObsFileModel: a file store (parquet table with metadata, database of named tables with sqlite's case-insensitive names, other), write_parquet/from_parquet, write_db/from_db, ZTF's from_db, the radius setter, time_bounds, over the constructors of ObsTableModel/SurveyModel/FakeModel/RomanModel; pyarrow's refusal of mixed columns and pandas' label column are modelled, the byte formats are not | ObsFileProofs/ObsFileProps (parquet), ObsDbProps (databases, times), ObsFileMore (findings, example): remapping a table with standard names is the identity; induction over what a user can do with a table |
| C108 array and SED files | ArrayFileModel: arrays as shape and entries, files as npy/npz/text (lines of numbers with their separator, comments), numpy's savetxt/loadtxt with the squeeze of axes of length one; read_numpy_data, write_numpy_data, StaticSEDModel.from_file, from_synphot (the unit conversion a parameter) over the constructor of TemplateModel | row lemmas by induction, transposes by index arithmetic; equality of the results of the file route and the array route, errors included |
| C109 distances from redshift | CosmoModel: the constructor of a physical model with a cosmology in the heap of NodeGraphModel, the helper function node, redshift_to_distance as a function of one redshift (any; for numbers the flat universe of SniaModel); NodeHelpers: helper nodes that serve the node they depend on | building by computing the heap symbolically; agreement from C19/C22 for every successful run; success by a stack invariant in which a node is entered again only after what the helper takes from it is known |
| C110 | `RegenModel.v` (`generate`, `list_params`, `set_allow_gradient`) over `NodeGraphModel.v` (`pytree`, `sample_parameters`, `get_param`) | `fixed_by` is an inductive specification of what a tree determines; induction on it with C19/C20/C22/C63 on both runs; existence by C103 and an induction on the rank of an acyclic model; flags: simulation between models that differ in flags only |
| C111 | `RandomSurveyModel.v` (`create_random_opsim`, `opsim_add_random_data`, `create_random_ztf_obs_data`) over `SurveyModel.v` | the cells of the table before renaming are computed and carried through C72/C73; positions through C98's `sky_position` with 1 - v; solid angle by C98_uniform |
| C112 | `EddingtonModel.v` (`eddington_ratio_dist_fun`) | the law is stated apart with decimal constants; capitalisation by a character-wise relation; unboundedness by solving for the ratio |
| C113 | `RegisterModel.v` (`load_and_register_passband`; the registry of sncosmo as a function) | from the facts about files and groups of C106; every failure leaves registry and files; `PassbandDefined.v`: when trimming and regridding give a passband (C29, C31) |
| C114 | `MathSampleModel.v` (the function made from an expression, numpy broadcasting and reductions, math's scalar functions, `FunctionNode.compute`) over an abstract type of numbers | induction on expressions against a separate evaluator for single numbers; broadcasting lemma for columns; refutations on integers |
| C115 | `NodeGraphModel.v` and `DustModel.v` again (no new code) | `NodeBackProps.v`: the invariant of C103 with a 'ready' condition (everything read back by the nodes behind a node is there), by induction on the recursion; `NodeBackDust.v`: values by C19, C105 and C96; the documented model as the concrete case; refutations by computation |
| C116 | `MocModel.v` (ApproximateMOCSampler as a node, `to_order().flatten()`, `build_moc`); HEALPix geometry, `MOC.from_cones` and the generator's methods are parameters with contracts | `MocProps.v`: arithmetic of nested pixel numbers (C27), storing by `set_values` (C98), histories by the frame of the node; a tessellation into slices of right ascension meets the contracts; refutation for every map of one finer cell |
| C117 | `PlotModel.v` (plot_lightcurves, plot_bandflux_lightcurves, plot_flux_spectrogram, LightcurveData.plot_lightcurves): the axes are a list of artists with the data given to matplotlib; styles and rendering are left out, Python's rounding and formatting are parameters | `PlotProps.v`, `PlotTemplates.v`: a loop that puts artists on the axes puts the concatenation; the rows of the distinct filters are a permutation of all rows; `l[::k]` by position; templates through C48's stored curves |
| C118 | `KwargsModel.v`: `set_parameter`/`add_parameter` with keyword arguments (`resolve`, `wrap_kw`), the constructors of ConstantSEDModel, SNIaHost and EclipsingBinaryStar on top of `physical_cosmo` | set_parameter_spec (C61) with the chosen value; explicit heap of the created nodes; C19/C21/C22 for runs |
| C119 | `SedBatchProps.v` on top of `SedModel.v`: `evaluate_sed` on a selection of the times/wavelengths of another call, and on times, wavelengths or observations cut in two (`picked`, `sized`, `pointwise_model`); by C42_pipeline (one function of time and wavelength for all calls) and C45_entries. Calls without wavelengths fail (C119_empty_refuted); keyword arguments make the claim false (C43_kwargs_dropped_refuted). |
| C120 | `OverrideProps.v` on `NodeGraphModel.v`: runs keep the graph state well formed on any heap (`kept`), only nodes with a computed parameter call functions (`calls_ok`), nodes without one run like nodes without outputs (`blank`), so that C19_linked_agree applies; the last step of the sampled node is C22_outputs_in_order. |
| C121 | `PassbandShareModel.v`: passband objects on a heap, groups as references plus cached data, a failing loop leaves what it did | `PassbandShareProofs.v` (heap against the value model of C29–C33), `PassbandShareProps.v`: invariant over programs, refinement, retry; two refutations with concrete spectra |


No property of the list is outside a model; the *parts* that are (network access, text parsing of
numbers, floating point rounding, plotting) are listed in section 3.

## 3. Trusted base

**Kernel and axioms.**  Coq 8.16.1's kernel.  No axiom, parameter, admitted proof, functor or module
type is declared in the development; no kernel check is switched off.  `ASSUMPTIONS.md` (written by
`tools/assumptions.py`) lists what `Print Assumptions` says for every theorem of `MANIFEST.json`: the
graph-state, node, sampler, parser (LCLIB) and random-node theorems are closed under the global context;
theorems over `R` use the standard library's `ClassicalDedekindReals.sig_forall_dec`,
`ClassicalDedekindReals.sig_not_dec`, `FunctionalExtensionality.functional_extensionality_dep` and
`Classical_Prop.classic`.  Coquelicot (used in `AgnIntegral.v` and later integral files) adds no axioms of
its own to a theorem's list.  `coqchk` also names the sealed constants of the loaded standard libraries
(`Rdefinitions.RbaseSymbolsImpl.*`, `RinvImpl`, `ssrunder.Under_rel.*`): module-sealing of the standard library, not
assumptions of a theorem.

**That the model is the code.**  The model is hand-written from `/repo`; each definition cites the lines it
models.  Nothing checks this correspondence mechanically.  Numpy, scipy, pandas, astropy and jax
functions are modelled from their documented behaviour (searchsorted, interp, trapezoid, unique, vectorize,
broadcasting of scalars and arrays, mask selection, ...).

**Modelled.**
`graph_state.py`, `base_models.py`, `math_nodes/*` (given_sampler, basic_math_node, np_random, scipy_random,
distribution_sampler, ra_dec_sampler, bilby_priors), `astro_utils/` (passbands, mag_flux, redshift, unit_utils, zeropoint,
noise_model, obs_utils, black_body, salt2_color_law, detector_footprint, snia_utils, dustmap, pzflow_node),
`obstable/*` (obs_table, opsim, ztf, roman, fake), `simulate.py`, `models/` (physical_model, basic_models, static_sed_model,
periodic_model, periodic_variable_star, lightcurve_template_model, multi_object_model, salt2_jax, agn, galaxy_models,
spline_model, sncomso_models, redback_models, bayesn),
`effects/*` (basic_effects, extinction, microlensing, white_noise), `utils/` (bicubic_interp, wave_extrapolate, io_utils,
post_process_results, data_download).

**Not modelled, or simplified.**
* Floating point: numbers are exact reals (or rationals, or an abstract type); non-finite numpy results are
  `None`/undefined.  JAX's 32-bit arithmetic likewise.
* `base_models.py`: the resolution `value is None and name in kwargs` of `set_parameter` is modelled in `KwargsModel.v` (C118) and taken as
  already done elsewhere; `set_parameter` on declared outputs is C120.
* Random numbers: every theorem is for all draws (oracle functions of generator and call history).
* k-d tree: any ball query meeting `ball_spec` (exactly the points within the radius).
* ObsTable: ra/dec/time columns numeric, filter columns text; `None` query coordinates are outside.
* `process_transmission_tables` raising midway: the state left behind is modelled in `PassbandShareModel.v` (C121) only.
* Simulation: the physical model is an abstract pointwise function (no stochastic effects); citations are not modelled.
* Flux pipeline: the generator is not threaded; sub-objects of multi-object models are
  distinct objects; reserved-keyword clashes in `**params` are outside; `np.empty` is zeros; a wrongly shaped
  `compute_sed` result is a ValueError.
* Units are positive sizes; the units' names are as astropy parses them.
* Light curves: float 2-D arrays; the error column is not represented.
* LCLIB: `float()` abstract, ASCII white space only; an astropy Table is an equal-length check.  Grid
  reader: after astropy's text parsing, no NaN.
* Post-processing: how nested_pandas stores masked flags; row labels are naturals.
* SALT2: `float()`/`int()` parsing abstract.  Eclipsing binary: Planck's law with astropy's constants.
* Survey tables: pandas' masking of an unknown first band; ISO date → MJD is an abstract
  function; Roman characterisation tables (network files) are parameters; non-text BANDPASS / non-numeric PASS cells are outside; the caller's
  table after a failing constructor.
* Oversampling: distinct row labels, numeric ids, sampling an oracle, float `arange` as exact reals.
* AGN: `quad` is the value of the (proved to exist) improper integral; `Rpower` for positive bases.
* DistributionSampler: `kind="linear"` only, total mass not zero.
* Footprint: sky regions are rectangles centred on (0, 0); pixel regions an abstract test plus bounding box;
  a user WCS an abstract function; the `include` flag and plotting are outside; wcslib gives nan for points 90° or more away.
* Inverse-polynomial sampling: the inverse cdf is any function within the u-resolution; one uniform number per sample.
* Cosmology: FlatLambdaCDM without radiation, distances are exact Riemann integrals; astropy's `offset_by` as its spherical formula.
* White noise: normal draws are streams; `default_rng()` without a seed is a stream chosen by the environment.
* Spline models: the pieces of a higher-degree spline are an interpolating argument (degree 1 is concrete).
* sncosmo / redback: the third-party source is an argument (any function, any parameter list); Python's stack is fuel.
* Downloads: pooch 1.x semantics as documented, a download is atomic, a connection failure is a RuntimeError; unpacking
  is a list of file writes, a crash is a prefix of it.
* BayeSN: `np.linalg.solve` is elimination (solution proved unique); the dust law is any partial function.
* bilby priors are draw functions on one shared generator; rejection of constrained draws is not modelled.  Normalising
  flows and pandas frames are arguments/row lists.  SkyCoord: no broadcasting of length-1 arrays.  `dust_extinction` is a
  list of modules with their exported names.
* Not modelled at all: how matplotlib renders the artists that C117 says are drawn, `Footprint.plot`, `plot_sed_basis`; the bodies of third-party packages; the text/FITS format of files.

## 4. Findings

Where a property is false of the code as written, the refutation is itself a theorem (suffix `_refuted`, a
concrete witness), and the proved theorem carries the condition under which the claim holds.  The most consequential ones:

* C04 `len` counts a rejected set; C05 extracted samples cannot be set; C06 one-sample/vector states do not recombine; C12 arrays are shared in
  one-sample states; C14 equality is asymmetric.
* C121 groups share passband objects: after processing one group (or after a call that failed) another group holding the same passband silently returns wrong band fluxes (stale wavelengths).
* C30 band flux of a flat spectrum is off by delta_wave/step on other grids; C31 an upper interval is lost; C33 wrong wavelengths or IndexError on close grids.
* C34 scalar bounds with several queries, radii above 180°; C36 `get_observations` after `filter_rows` returns another row.
* C42 two effects of one class share a parameter; C43 extrapolation queries an extra wavelength; C48 a magnitude baseline of 0.
* C60 relative times after `results_drop_empty` raise or use another object's t0.
* C70 documented units; C74 `ma_table_path` always fails; C75 bands must divide times; C76 the damped random walk never rises
  above its mean; C77 array-valued draws with parameters; C78 inverse cdf not defined below its first value; C80 radians compared with degrees; C81 half-pixel offset and
  arcsec/degree mix-up.
* C82 an extra draw is made and parameters set later are ignored; C83 an integer H0 is refused; C84 positions come from the
  global generator, not the one given; C85 `simulate_lightcurves` passes no generator to the flux pipeline, effects share one sigma; C86 unsorted times
  are refused by the library; C87 parameters set by `set` persist, unknown names raise late, `t0 = None`; C88 a source that is
  zero beyond its bounds recurses for ever; C89 `force_download` does not refresh pooch's cache, two URLs with one file name collide; C90 a cached
  archive is never unpacked to another directory, a crash while unpacking leaves a map that is never repaired.
* C92 second derivatives are half of the spline's and divided by h instead of h², so the surface jumps at phase knots; C93 `Rv` is
  not used by the extinction law; C94 all bilby nodes share one generator; C95 a conditional flow with one sample is a ValueError; C96 NaN
  declination: scalar and array differ; C97 `effect_name` breaks looking a law up by name, a second effect's `ebv` is ignored.
* C98 one-sample positions are stored as one-element arrays; C99 declinations above 90 near a pole; C100 a forced epoch of a periodic table is refused
* C102 on a filtered table positions are used as labels: KeyError, or times of other rows than the error bars; the given generator does not reach the noise
* C106 duplicate wavelengths in a file raise TypeError instead of being averaged; `from_dir` with a relative path looks in dir/dir; the Roman preset accepts neither `units="micron"` nor `force_download`; the ZTF preset ignores `delta_wave` and `trim_quantile`; `from_dir` does not understand full names as filters
* C107 ZTF tables with a column obsdate, RomanObsTables, FakeObsTables with a constant flux error and tables with a column under a survey's own name can be written to parquet but not read again; a FakeObsTable read from parquet has the signature's dark current, read noise and radius; `ZTFObsTable.from_db` reads "exposures" by default, `write_db` writes "observations"; `write_db` raises ValueError where FileExistsError is documented; a failed `write_db(overwrite=True)` has dropped the old table; every database trip adds a label column, the third fails.
* C109 a model with a cosmology and any keyword argument of its own (SNIaHost(hostmass=..., cosmology=...), SncosmoWrapperModel(x0=..., cosmology=...)) is built but can never be sampled: the argument is passed on to redshift_to_distance (TypeError).
* C110: `generate` documents `**kwargs` as additional function arguments and ignores them (C110_kwargs_refuted); a PyTree does not bring back the values of random nodes (C110_random_refuted).
* C111: a random OpSim has no seeing, sky brightness and number of exposures, so its flux errors (and simulate_lightcurves with them) raise KeyError (C111_opsim_errors_refuted); the docstring lists `seed` among the returned values, nothing but the table is returned.
* C112: eddington_ratio_dist_fun sums the two power laws; the cited papers (Weigel 2017, Sartori 2019) take the inverse of the sum, which falls off on both sides (C112_falls_off_refuted).
* C113 (not proved): the table registered with sncosmo is the normalised response, already divided by the wavelength; sncosmo's band flux weighs by the wavelength itself.
* C114: in a numpy math node max and min reduce over the samples: `max(x, 0)` gives every sample the largest sample (the 0 is an axis), `max(x, y)` raises TypeError.
* C115: a dust map node linked to the model's position can be sampled through the model but not by itself (TypeError or KeyError), and only if the position comes before E(B-V) in the model's parameters.
* C116: a map finer than the sampler's depth (default 12) is silently coarsened: positions outside of the map are drawn. `build_moc` stops at depth 10 by default, so its maps are safe with the default sampler.
* C117: `plot_lightcurves` without filters draws no point at all (the list of "none" is compared with the string "None", and indexing with the resulting False gives an empty array), and with error bars it raises; more than seven filters without a colormap are an IndexError; `plot_bandflux_lightcurves` keeps the ticks of the first curve; a template's picture at given times ignores the baseline.
* C118: a plain function as a parameter is wrapped with *all* keyword arguments of the model, including `node_label`: `ConstantSEDModel(brightness=f, node_label="x")` builds, and every run of it is a duplicate-label ValueError; `ConstantSEDModel(brightness=f, redshift=0.1)` calls `f(redshift=0.1)`, a TypeError unless `f` takes it; `SNIaHost(hostmass=f)` calls `f(hostmass=f())`.
* C17: the graph methods are recursive, one Python frame or more per link: a chain of objects longer than the recursion limit (1000 by default) cannot be numbered, sampled or drawn (C17_deep_chain_refuted).
* C120: `set_parameter` on one output of a function node with several outputs (say `ra` of a position sampler) is accepted and then ignored: the results of the function overwrite it (C120_one_output_set_refuted).
* C108 text formats lose axes of length one (a 1 x n, n x 1 or one-element array); a text write that is refused (0-d, 3-d and higher) has already emptied the existing file; write_numpy_data accepts .dat, read_numpy_data does not; an SED of two wavelengths saved as two rows is loaded, without an error, as another SED; from_synphot refuses z > 0 but takes z < 0.
  unless it is 0 or its first time, and the last row of a closed periodic table is replaced by the first of the next period.

## 5. Testing the theorems against wrong programs

`seeded/mut_*.py` hold single edits of model definitions (the way a bug would change the program);
`tools/mutate.py` applies each in a scratch copy, rebuilds and records which theorems of the manifest stop
proving; `seeded/log.py` writes `seeded/LOG.jsonl`.  Mutants that every theorem survived led to the theorems listed in the
log's `tightened` field (mostly in `Tightened.v` to `Tightened22.v`), and were run again.

`tools/automut.py` makes single-token edits mechanically (comparison operators, boolean connectives, constants, strings,
swapped projections, signs, kinds of errors, ...) at every place of every definition of the model files and compiles all dependent
files until a proof breaks; `seeded/autolog.py` adds the attempts to the log (ids `auto-...`), `seeded/auto_tight.json` says
for each survivor which theorem was added or why the edit leaves the program's behaviour as it was.  Edits of the kind of an
exception in a case that no documented claim mentions are noted as such.
