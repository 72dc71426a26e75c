# Formal model of eserie/wax-ml in Rocq (Coq 8.16.1)

## Layout

`rocq/theories/`
* `Model/*.v`  – total Gallina models of the code; every definition cites the file and lines of /repo/src/wax it models, and says
  what it simplifies.
* `Spec/*.v` – small independent specifications (plain list functions, sums, quantified predicates) used by the statements.
* `Proofs/*.v` – lemmas.
* `Props/*.v`  – the property theorems only, each closed by `exact`, followed by `Print Assumptions`, with `Example`s that
  show that concrete non-trivial cases meet the hypotheses.

`tools/props.py` and `tools/manifest.py` generate `properties.jsonl` and `MANIFEST.json`; `tools/mutate.py` runs the seeded wrong
programs of `seeded/mutants*.json` and logs to `seeded/LOG.jsonl`; `tools/automut.py` generates systematic single-token edits of every model definition and logs to `seeded/AUTO.jsonl`.

## Modelling conventions

* A haiku `transform_with_state` pair is a record (init, apply) of pure functions, arbitrary in every theorem about the unroll,
  the batching, the wrappers and the optimisers.  haiku's `init` returns the *initial* value of every state (the init value of
  `hk.get_state`), not the value after `hk.set_state`; flax's `init` returns the variables as the initialising call leaves them.
* Random keys: `jax.random.split` is an arbitrary function on an arbitrary type of keys.
* jax arrays: structural modules (Buffer, Lag, HasChanged, merge, encoders …) are polymorphic in the element.  Element-wise
  float code is modelled per scalar element (vectors and matrices where entries interact: EWMCov, masks, Newton).
* Floats are `fl := NaN | PInf | NInf | Fin (r : R)`: IEEE special values with exact real arithmetic.  No rounding,
  no overflow, no signed zero (x/0 is ±inf by the sign of x, 0/0 is NaN).  Only C110–C113 model rounding (Model/Rounded.v): each
  operation is followed by a rounding, abstract or IEEE single/double by Flocq's definitions (`FLT_exp`, `ZnearestE`), and overflow.
* Machine integers wrap explicitly where the property concerns them (Counter, flax ring index, int64 codec, sketch hashes);
  elsewhere Z/nat.
* Exceptions are values (`option`).  Python generators are lists of the remaining items.  Python sets are lists without
  duplicates whose iteration order is an arbitrary function (hash seeds).  Mutable objects are threaded states.
* A while loop is a structural recursion with fuel, and the theorems say for which fuel it ends.

## Trusted base

* Coq's kernel (8.16.1), no plugin, no axiom of this development, no functor or module type.
* Axioms: `Print Assumptions` after each theorem in `Props/*.v` lists at most these of the standard library:
  `ClassicalDedekindReals.sig_forall_dec`, `ClassicalDedekindReals.sig_not_dec`,
  `FunctionalExtensionality.functional_extensionality_dep` (the three of Reals), and `Classical_Prop.classic` (through lemmas of
  Reals).  Theorems about structural code (unroll, batching, buffers on arbitrary elements, streams, gym, callbacks, format, state
  machines) are closed under the global context.
* The reading of the Python code (nothing can be run here) and of the primitives of jax/haiku/flax/optax/xarray/sklearn used
  (`lax.scan`, `fori_loop`, `vmap`, `jnp.where`, `jnp.roll`, `at[].set`, out-of-range gather clamps, `nan_to_num`, uint32/int32/int64
  wrap-around, pytree flattening order, `haiku.data_structures.partition/merge`, `LabelEncoder`, `deque(maxlen)`, xr.DataArray's checks).

## Modelled code

| code (src/wax) | model |
|---|---|
| unroll.py, pytrees | Model/Unroll.v, UnrollMore.v, Tree.v |
| vmap (batching), stateful.py, transform.py | Model/Batch.v |
| modules/{buffer,lag,diff,pct_change,rolling_mean,has_changed,ffill,fill_nan_inf,counter}.py | Model/Modules.v, Float.v |
| modules/{ewma,ewmvar,ewmcov}.py, numba/ewma_numba.py | Model/Ewm.v |
| modules/{apply_mask,mask_mean,mask_std,mask_normalize}.py | Model/Masks.v |
| modules/{ohlc,update_on_event,arma,snarimax,gym_feedback}.py | Model/Dynamics.v |
| optim/newton.py | Model/Newton.v |
| modules/{update_params,optax_optimizer,online_optimizer,func_optimizer}.py | Model/Optim.v |
| encode.py | Model/Encode.v |
| stream.py | Model/Stream.v |
| gym/ (gym_unroll, callbacks, haiku_agent, haiku_env) | Model/Gym.v |
| format.py, formatting of accessors.py | Model/Format.v |
| flax/core/{transform,unroll}.py, flax/modules with a haiku counterpart | Model/FlaxModules.v |
| flax/core/{advanced_state_patterns,streaming_transforms}.py | Model/FlaxCore.v |
| flax/modules/compressed_buffer.py | Model/Compressed.v |
| the decorators of flax/core and flax/modules/compressed_buffer.py, StreamingOptimizer with has_aux, get_relevant_states | Model/FlaxDecor.v: a decorated function is a module of its own; positional arguments only; hierarchical_composition, conditional_update and state_machine are not modelled (next note) |
| flax/modules/ohlc.py, arma.py, snarimax.py, apply_mask.py, mask_mean.py, mask_std.py, mask_normalize.py, gym_feedback.py, vmap.py | Model/FlaxMore.v |
| flax/modules/update_params.py, optax_optimizer.py, online_optimizer.py, func_optimizer.py, online_supervised_learner.py, flax/core/state_utils.py (apply_with_state) | Model/FlaxOptim.v: parameters are nested dictionaries; jax.grad, optax and the wrapped model are arbitrary functions; the haiku branch of OnlineOptimizer (plain function models) only through the names of its parameters |
| flax/debug/debugger.py, profiler.py, memory_tracker.py | Model/Debug.v: execution times and memory readings are inputs of the model (real numbers); not modelled: timestamps, cpu, gc and device memory, printing, the interactive prompt of a breakpoint, negative intervals; an interval of 0 raises and leaves the tracker unchanged in the model |
| flax/visualization/computation_graph.py html page | Model/GraphHtml.v | dictionaries of shapes and parameters are given texts |
| flax/visualization/computation_graph.py drawing by matplotlib | Model/GraphDraw.v | positions are reals, the layout is any function; not: titles, axes, saving |
| flax/visualization/computation_graph.py _render_text, choice of a format | Model/GraphText.v | dictionaries of shapes and parameters are given texts |
| flax/modules/apply_mask.py ApplyMask on arrays of any rank | Model/FlaxApplyMask.v | broadcasting of jnp.where with a scalar; not: dtypes |
| flax/visualization/nested_graph_viz.py HierarchicalGraphAnalyzer and NestedGraphVisualizer used several times | Model/AnalyzerSession.v | returned dictionaries as references to the state; not: the drawing of the graphviz backend, files |
| flax/visualization/data_flow_visualizer.py DataFlowVisualizer (backends, create_streaming_plot, update_plot, text plot) | Model/FlowPlot.v | figures as curves, markers and rows; order of sets as a parameter; not: drawing, monitoring threads |
| flax/debug/profiler.py get_summary, create_performance_report; memory_tracker.py get_memory_summary, get_module_memory_analysis, generate_memory_report | Model/Reports.v | values and lines; exact reals; not: clock, number formats, JSON export, jax_arrays_size_mb |
| flax/visualization/bokeh_viz.py create_state_heatmap, dashboard panels, create_streaming_line_plot; jupyter_viz.py create_pipeline_graph | Model/Panels.v | data sources, curves, quads, limits, markers and lines; not: drawing, texts, layouts (an argument), random generators (an argument) |
| flax/modules ewma.py, ewmvar.py, ewmcov.py, diff.py, pct_change.py, rolling_mean.py (floating point) | Model/RoundedFlax.v | as in Model/FlaxModules.v with every operation rounded; not: fused or reordered operations |
| flax/visualization/nested_graph_viz.py (documents) | Model/GraphDocs.v | Cytoscape elements, D3 nodes and links, Graphviz clusters, nodes and edges; not: HTML/JavaScript, properties, fonts, files |
| flax/examples/transform_compositions.py predictors | Model/Predictors.v: on one number, with optax.sgd and optax.adam written out from their definition (library code); the gradient of the squared error is written out |
| modules/update_on_event.py by names | Model/EventNames.v: the frame of states as a dictionary of dictionaries, the wrapped module as a function of the frame; haiku's choice of names is given |
| gym/callbacks/progressbar.py | Model/Progress.v: total, count, closed; the display of tqdm is not modelled |
| modules/lag.py tree_lag | Model/TreeLag.v: one module state per leaf |
| flax/core/transform.py (dictionaries), flax/core/state_utils.py (wrappers) | Model/Variables.v: variables as dictionaries of collections, flax modules as functions of them |
| flax/visualization/computation_graph.py: _generate_dot_content, _create_node_label, _get_shape, colors, export_graph_to_dot | Model/Dot.v: characters are bytes, parameters given as texts, repr escapes quotes and backslashes only; the reader covers documents with a semicolon after every statement |
| testing.py assert_tree_all_close, utils.py dict_map, get_unique_dtype | Model/Testing.v: leaves are numbers and arrays; treedefs are texts; real arithmetic in the comparison |
| stream.py split_dataset_from_time_dims, start_dataset_streams, np_select_item | Model/Split.v: dimension coordinates only; a variable is its entries along its first axis; not modelled: progress bars, verbose output |
| flax/examples/streaming_demo.py, jax_scan_compatibility.py, scan_validation.py, conditional_computation_demo.py | Model/Demos.v: scalar float prices, real arithmetic; not modelled: the demo_ and main functions |
| stream.py Stream.get_dataset_schema, get_encoders, the encoding in prepare | Model/Schema.v: arrays by dtype, row-major; texts are Coq strings in their order; one floating dtype; not modelled: types_encoders given by the caller, integer and boolean variables |
| modules/{ewma,ewmvar,ewmcov,diff,pct_change,rolling_mean}.py, rounded | Model/Rounded.v: one rounding per operation in the order of the code, sums left to right; not modelled: fused or reordered operations of XLA, the rounding of exp(log(com)) (com is the resulting value), the accuracy of the power function beyond the stated hypothesis |
| flax/examples/transform_compositions.py | Model/Compositions.v: scalar float inputs, real arithmetic; not modelled: adaptive_price_predictor and ensemble_predictor (cf. C81), the demo, the int32 dtype of integer volumes |
| flax/debug: get_summary, export_events, finalize statistics, get_module_summary, get_memory_summary, get_module_memory_analysis | Model/Summary.v: durations are given, a dictionary with fixed keys is a record; not modelled: the locks, the printed reports, jax_arrays_size_mb |
| flax/visualization/data_flow_visualizer.py (tracker, data of the plots, animation), interactive_dashboard.py (state and routes), bokeh_viz.py (streams), jupyter_viz.py (streams, controls, animated flow) | Model/Viz.v: times are given by the caller, metadata are numbers, float arithmetic is exact, a control is the widget last made for its parameter; not modelled: drawing, HTML, server and threads, the JSON form of values, heat maps and 3D views |
| flax/visualization/computation_graph.py (nodes, edges, types), nested_graph_viz.py (analysis, drawing order, edges, summary) | Model/Graph.v: a parameter tree is nested dictionaries with arrays as opaque leaves; ["w" in str(params)] is whether a key at some depth contains w; the loop of levels and the drawing recursion take fuel; rendering to DOT is in Model/Dot.v (C130); not modelled: HTML and matplotlib, functions whose init raises |
| accessors.py (apply of the four containers, ewm), stream.py Stream.prepare, trace_dataset, get_dataset_index, access_data | Model/Accessors.v: arrays are lists of rows, a row the flattened list of its elements; values already encoded; exceptions are None; not modelled: multi-level index and columns, the final xr.Dataset of format_dataset, verbose output.  The window clause of C44 (access_out in Model/Stream.v, one value per position) speaks of variables whose only dimension is time; C91 says what happens to the others.  ewm takes keyword arguments only: a positional one raises TypeError (accessor is the first field of the dataclass), not modelled |
| modules/online_supervised_learner.py | Model/Learner.v: on FuncOptimizer of Model/Optim.v; the loss creates no parameter or state; jax.grad is an arbitrary function of the loss (as a function of the parameters) and of the parameters |

Reading of flax which cannot be checked here: StreamingStateMachine, ConditionalStateUpdate and HierarchicalState (streaming_transforms.py)
define their own `__init__` without `parent` and `name`, which flax's `clone` passes when it binds a module, and set attributes after
`super().__init__()`; as far as we can tell binding them (and so the three decorators built on them) raises.  C53, C66 and C67 speak of
their methods as written; the other patterns are plain flax dataclasses.

Not modelled: XLA/jit tracing, rounding (except C110–C113), dtype promotion, plotting and rendering, the printing functions of the examples, datasets, progress bars,
logging, environment configuration; the attention query path (its value does not reach any result); sorting of labels by pandas' unstack; NaT inside streams.

## Per property

| id | modelled | proof |
|----|----------|-------|
| C01–C08 | unroll.py (init/apply, scan, static_scan with leaf lists, skip_first, overrides, fori_loop, gym_static_unroll) over abstract pairs | induction on the sequence; key schedule as an iterate; refutations by witness |
| C09, C60 | vmap lanes, lifted unroll, transform_batch_with_state | induction over time and lanes, column extraction |
| C10–C18 | small haiku modules | invariants over all runs: buffer = last values padded in front |
| C19–C22, C61, C62 | ewma.py step over `fl`, all options | state invariant = weighted sums over the history; weights as functions of the missing pattern |
| C23, C24 | ewmvar.py, ewmcov.py | invariants over weighted moments; positive semi-definiteness by sums of squares |
| C25, C26, C63 | ewma_numba.py column loop and its state object | bisimulation with EWMA; append lemma for runs |
| C27, C28 | mask modules on arrays of any shape (axis=None) or dimension ≤ 2 | index arithmetic; non-interference |
| C29, C30 | OHLC, UpdateOnEvent | invariant over bins/events: filtered run |
| C31–C33 | ARMA, SNARIMAX, GymFeedback | invariants on buffers; causality refutation for SNARIMAX |
| C34 | UpdateParams, OnlineOptimizer, FuncOptimizer with arbitrary gradient and optimiser | invariants on the parameter dictionaries |
| C35 | newton.py | Sherman–Morrison by matrix algebra over finite sums; induction on updates |
| C36–C39 | encode.py over Z with explicit wraps | Z arithmetic; insertion sort; round trips |
| C40–C45 | stream.py merge loop, deques, tracing, unroll_stream | invariants of the merge loop over all interleavings |
| C46, C47, C59 | gym_unroll as a log of calls, callback scopes as a small language with exceptions, agents and environments as objects | trace induction, induction on programs |
| C48, C64 | format.py | structural induction on pytrees, list lemmas |
| C49–C51 | flax ring buffer, modules, flax unroll | refinement to the haiku models; wrap-around at 2^31 refuted |
| C52, C65 | execution order and coordination of HierarchicalStateMachine, arbitrary set iteration order | graph invariants, longest paths, permutation invariance |
| C53–C56, C66–C68 | StreamingStateMachine, streaming_scan, conditional modules, selector, composite managers, HierarchicalState, StreamingOptimizer | induction on histories; segments between events |
| C57, C58, C69–C71 | CompressedBuffer, HierarchicalBuffer | sub-sampled windows, quantile order lemmas, counting lemmas |
| C72–C76 | flax OHLC, ARMA, masks, SNARIMAX, GymFeedback | history of a ring (`ring_hist`), invariants along runs, reductions cell by cell |
| C77–C81 | flax UpdateParams, OnlineOptimizer, FuncOptimizer, learners, apply_with_state, VMap | lookup characterisation of flatten/unflatten on prefix-free paths; invariants along runs; refutations by construction |
| C82–C86 | flax debugger, conditions, decorators, profiler, memory tracker | invariants over sessions (per-hook projection of the session), equality of decorated and bare runs, closed forms of deque contents and statistics, refutations for all runs of a shape |
| C87–C91 | accessors: labels, ewm, datasets with several time axes, no look-ahead, refutations for matrices | reduction of prepare to the merge of C40–C45 on positions, gather of positions = rows, relational invariant for two datasets with the same past, broadcasting computed |
| C92 | OnlineSupervisedLearner (haiku) | trace of the scan, relational argument on two target sequences |
| C93 | the remaining entry points of unroll.py (pairs already unrolled, nested unrolls, deprecated wrappers, static_scan without inputs, data_unroll) | induction on the chunks; leaf-wise stacking as for C04 |
| C94 | the decorators as pattern followed by function; streaming_optimizer with and without auxiliary outputs | induction on the calls; C56, C65 and injectivity of decimal printing for the names |
| C95 | vectors of states, get_relevant_states (refuted as documented) | list lemmas; the ring invariant of C56 |
| C96 | compression_params and the setup of CompressedBuffer and HierarchicalBuffer | case analysis on the names; C57, C58 for the EWMA levels |
| C97 | StreamDataset.apply with formatting (without the final xr.Dataset of a dict of arrays) | C89 for the number of steps, C48 and C64 for the labels |
| C98 | ComputationGraphRenderer.analyze_streaming_function, on the tree of parameters that init returned | the traversal is a fold over the list of outermost modules with their paths; paths of modules are distinct, and none is inside another; dotted is injective on keys without dots |
| C99 | HierarchicalGraphAnalyzer and the traversals of the renderers, with fuel for the two loops | a rank that decreases from child to parent (length of ids, 0 for clusters) makes the hierarchy a forest; the queue is processed level by level, and layers of depth k are finite in number; the drawing recursion returns the nodes below each root |
| C100 | DataFlowTracker over a history of calls; curves, rates and frames as functions of its points | invariant: bounded deques are the last points of the list recorded so far, globally and by module; the animation by division of steps |
| C101 | InteractiveDashboard over a history of registrations, records, steps and connections, with its routes | each call changes one tracker; the keys of the metrics are injective (suffixes differ); accepted records determine metrics and alerts |
| C102 | streams of the Bokeh and Plotly views, the controls, one round of the animated flow | invariants per stream; first trace of a name; replace of the trailing word never straddles |
| C103 | the summaries as functions of the states of C82, C85 and C86 | the statistics meet declarative definitions that determine them (sorted permutation for the median); composed with the exact states of C82, C85, C86 |
| C104 | the function as a flax module with a ring and an EWMA (Model/Compositions.v), run by init then apply | the state is a product of module states, each characterised by C19, C49 and C50; algebra of the bands |
| C105 | three EWMA states | as C104; affine equivariance of the weighted mean; trend by a Chebyshev-type inequality on the weights, by induction |
| C106 | ConditionalComputation (C56) around a ring | invariant: the cache is the report of the last event |
| C107 | explicit parameter store: self.param returns the stored value | the value stored by init is computed (a constant window has deviation 0), then C104's lemmas |
| C108 | one ring and five EWMA | bounds of tanh and clip on all floats; exact formula by evaluation of the float operations on positive reals |
| C109 | stateless functions under streaming_scan (C55) | lax.scan of a stateless function is a map |
| C110 | EWMA with a rounding of each operation (Model/Rounded.v), abstract rounding mode; single and double as Flocq formats | invariant: the float state is near the exact state, errors contract at each step; instances by Flocq's error lemmas; the refutation by exact evaluation of the roundings |
| C111 | EWMVar with roundings | sign invariants using monotonicity and exactness of the rounding, no error bounds |
| C112 | Diff, PctChange, RollingMean with roundings | simulation with the exact modules; error of a running sum |
| C113 | the diagonal of EWMCov with roundings | exact evaluation of the roundings |
| C114 | EWMCov and EWMVar of Model/Ewm.v | both states expressed by the weighted mean and weighted square mean; induction on the series |
| C115 | EWMA of Model/Ewm.v | the state after s is a convex combination of the state at s and the later observations with weight at most (com/(1+com))^n |
| C116 | Lag, Diff, PctChange, Ffill of Model/Modules.v | index arithmetic; telescoping sums and products |
| C117 | ARMA of Model/Dynamics.v | strong induction with the C31 recursion; linearity and blocks of p steps |
| C118, C119 | Newton of Model/Newton.v | the state is the inverse of eps I + sum g g^T (C34); Cauchy-Schwarz for the quadratic form; telescoping potential; for the logarithm, the pivot product (determinant) of the hessian along the run, the matrix determinant lemma, Hadamard's and Jensen's inequalities |
| C120 | OnlineOptimizer of Model/Optim.v | potential |v_t - z|^2 along the run |
| C121 | Model/Schema.v on top of Model/Encode.v and Model/Accessors.v | the position of a text among the sorted classes is the number of smaller distinct texts; the encoded array, alone in a dataset, is read in the same way, so C89 and C97 apply |
| C122 | Model/Demos.v, modules of Model/Compositions.v | the states of the modules are those of each module alone; ema lemmas of C104–C105 |
| C123 | Model/Demos.v, portfolio_apply: modules numbered by creation order | induction on the dicts, position by position; by name through the index of a key |
| C124 | Model/Demos.v, the scan stacking outputs and reading rows back | lax_scan as a loop; rows of the stacked outputs are the outputs |
| C125 | Model/Demos.v, leaves are arrays or Python objects | filling raises iff a Python leaf; induction on the inputs, the cache keeping keys |
| C126 | Model/Split.v on top of Model/Stream.v | the split is a filter by axis (induction on the variables); C41–C43, C45 with values = dicts of entries |
| C127 | Model/Testing.v (trees as treedef text and leaves; broadcasting) | forallb over the pairs of leaves, expansion to the same shape is the identity |
| C128 | Model/Ewm.v | one system of weights for all the entries (functional form of EWMA), bilinearity of weighted covariances, C114, discriminant of the quadratic form |
| C129 | Model/Ewm.v | weights as in C128; C115 applied to the series (x - c)^2 |
| C130 | Model/Dot.v (the document character by character; repr of Python texts and tuples); Spec/DotSpec.v has the reader | a sequence of pieces each read as known tokens, composed over the lines; the first double quote of a nested shape is followed by a key and a colon |
| C131 | Model/Modules.v; Spec/AlgebraSpec.v | the output is the average of the observed part of the window (C14), which is linear and bounded; differences telescope |
| C132 | Model/Modules.v; Spec/AlgebraSpec.v | pointwise from C12, C13: the last valid value scales |
| C133 | Model/Ewm.v, Modules.v, Dynamics.v | a simulation between the two runs (same mean, weight irrelevant), or C10, C11, C14 |
| C134 | Model/Dynamics.v; Spec/AlgebraSpec.v (merged) | bars are unique (C29) and the merged bar is the bar of the concatenation |
| C135 | Model/Progress.v, Gym.v; Spec/MiscSpec.v | the bar's field through the iterations of C46; HaikuEnv by C59 |
| C136 | Model/TreeLag.v; Spec/MiscSpec.v (column) | the list of states is stepped leaf by leaf; C11 for each leaf |
| C137 | Model/Variables.v; Spec/MiscSpec.v | dictionary lookups; induction on the calls |
| C138 | Model/EventNames.v; Spec/EventNamesSpec.v | dictionaries by qualified names, which are distinct; induction on the history; simulation with Model/Dynamics.v |
| C139 | Model/Predictors.v; Spec/PredictorSpec.v | state after a history by induction from the right, ema of C104; closed form on constants, geometric sequences |
| C140 | Model/Predictors.v; Spec/PredictorSpec.v | Adam's moments are exponential averages; Jensen by induction and comparison of the two averages |
| C141 | Model/Masks.v; Spec/MaskSpec.v, Spec/MaskAlgebraSpec.v | closed forms of C29-C31, affine change of the selected values, sums of squares |
| C142 | Model/Stream.v; Spec/AnyOrderSpec.v | the reader is a prefix of the generator at any time; its end is determined by the maximum of the local times, induction from the right |
| C143 | Model/Rounded.v (EWMCov_r: matrices, every operation rounded); Spec/RoundSpec.v | entry by entry three rounded EWMAs (C110's bound), the exact average is non-expansive (weights non-negative with sum 1), error of the product and difference |
| C144 | Model/Rounded.v (EWMVar_r); Spec/RoundSpec.v (counts_to, power_within) | relative error of the weight of each mode; one step contracts the error of mean and variance by 1 - alpha and adds O(u); simulation of the two runs; the count is min(n, N) |
| C145 | Model/RoundedNumba.v (numba_ewma_r: the loop with every operation rounded); Spec/EwmModesSpec.v | a column is a module run; one step of the loop is a step of the rounded EWMA except when the shortcut applies, where the error shrinks; error invariant of C110 and C146; the shortcut keeps a constant column |
| C146 | Model/Rounded.v (EWMA_r); Spec/RoundSpec.v (counts_to) | the weights are counted exactly up to com (invariant: equal after capping at com), so each step adds O(u) and contracts the error |
| C147 | Model/GraphDocs.v (cytoscape, d3, colors) on Model/Graph.v; Spec/GraphDocsSpec.v (clash) | documents are maps over the hierarchy (C99); ids: split at the first underscores, digits and classes have none, classes do not begin with c, so only edges between nodes can clash |
| C148 | Model/GraphDocs.v (gv_body: nested clusters); Spec/GraphDocsSpec.v (trail, shows) | the nodes are drawn in the order of `drawn` (C99), so once each; invariant of the recursion: the clusters around a node are the frames of the chain from the parent asked for |
| C149 | Model/RoundedFlax.v (flax modules, one rounding per operation) and Model/Rounded.v; Spec/RoundFlaxSpec.v | simulation step by step: the calls differ only at a missing input after an infinite mean; the ring buffer read in order is the buffer; error bounds of C110 exclude overflows; computed examples for the refutations |
| C150 | Model/Panels.v (heatmaps, panels, np.histogram, plot registry); Spec/PanelSpec.v | grid indices by induction on rows; folds of min/max; group_points of C100; int part of (v-lo)n/(hi-lo) against the edges; decimal names are injective |
| C151 | Model/Panels.v (create_pipeline_graph) over Model/Graph.v | successors of networkx.DiGraph as an insertion-ordered set; C98 (no edges) for the refutation |
| C152 | Model/Reports.v (get_summary, create_performance_report); Spec/ReportSpec.v | C85 for the metrics kept; folds of min and max, insertion sort for the median, deviation by its square; labels of the lines |
| C153 | Model/Reports.v (get_memory_summary, get_module_memory_analysis, generate_memory_report) | C86 for the snapshots kept and the leaks; steady growth for the refutations |
| C154 | Model/FlowPlot.v; Spec/FlowPlotSpec.v | a state machine of tracker, figures and operations; invariants by induction on the operations; C100 for curves and rates |
| C155 | Model/AnalyzerSession.v; Spec/AnalyzerSpec.v | the two dictionaries as a state, calls as steps; induction on the calls, each step equal to the analysis of C99 |
| C156 | Model/FlaxApplyMask.v; Spec/FlaxApplyMaskSpec.v | row-major arrays of any rank and numpy's broadcasting; entries read as nested blocks; induction on shapes; haiku and statistics by comparison of entries |
| C157 | Model/GraphText.v; Spec/GraphTextSpec.v | the text character by character and an independent reader of it; induction on lines and characters |
| C158 | Model/GraphHtml.v; Spec/GraphHtmlSpec.v | the page character by character and an independent reader of tags and of the texts after them; induction on pieces of the page |
| C159 | Model/GraphDraw.v | the list of boxes, names and arrows; any layout; induction on nodes and edges |

Later properties (C72 …) are described in `properties.jsonl`; their model files are listed above.

Findings (properties which the documentation suggests and which are false of the code) are stated as `…_refuted` theorems with a
witness, next to the strongest true variant.
