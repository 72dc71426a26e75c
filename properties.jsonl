{"id": "C01", "title": "unroll is the step-by-step iteration of the transformed function", "statement": "unroll(fun)(xs) returns, for an input sequence of length T, exactly T outputs; output t is the output of fun.apply on xs[t] with the state left by the previous t calls (the first call using the state of fun.init on xs[0], the original initial state and not a state already advanced by init), with the parameters of fun.init, and with a key obtained by splitting the given key t+1 times (no key at all if rng is None); the returned final state is the state left by the last call.", "quantifier": "all transformed pairs (init, apply), all keys and splitting functions, all non-empty input sequences of any length", "why_tests_cant": "tests run a handful of modules on fixed-length series; the law must hold for every module and every length.", "anchors": ["src/wax/unroll.py:unroll", "src/wax/unroll.py:unroll_transform_with_state"]}
{"id": "C02", "title": "unroll is causal", "statement": "Outputs of an unroll at time t depend only on xs[0..t]: two input sequences which agree up to time t give the same outputs up to time t; unrolling a prefix gives the prefix of the outputs (no look-ahead).", "quantifier": "all modules, keys, pairs of input sequences with a common non-empty prefix", "why_tests_cant": "Absence of look-ahead is a statement on every pair of futures of every prefix, for every module; a test fixes one module and one or two futures.", "anchors": ["src/wax/unroll.py:unroll", "src/wax/unroll.py:unroll_transform_with_state"]}
{"id": "C03", "title": "an unroll can be stopped and resumed", "statement": "Unrolling xs++ys in one call gives the same outputs and final state as unrolling xs with return_final_state and then unrolling ys with params= and state= set to the parameters and final state of the first call (rng=None, params not None).  With an rng key this fails: the advanced key is dropped, the second call restarts from the same key.", "quantifier": "all modules, all split points of all sequences", "why_tests_cant": "Every split point of every sequence, for every module and carried state, must be equivalent to the uninterrupted run; tests fix one module, one sequence and one split.", "anchors": ["src/wax/unroll.py:unroll", "src/wax/unroll.py:unroll_transform_with_state"]}
{"id": "C04", "title": "static and dynamic unroll agree", "statement": "unroll(fun, dynamic=False) returns the same outputs and final state as unroll(fun, dynamic=True) on every sequence leaving at least one step to run; when no step is left (length one with skip_first) the static version raises while the dynamic one returns an empty output.", "quantifier": "all modules with multi-leaf outputs, all input sequences, both values of skip_first", "why_tests_cant": "The two implementations are compared by tests on one module and one length; agreement must hold for every output structure and length, including the boundary lengths where one of them raises.", "anchors": ["src/wax/unroll.py:static_scan", "src/wax/unroll.py:iter_first_axis", "src/wax/unroll.py:unroll_transform_with_state"]}
{"id": "C05", "title": "skip_first only uses the first value for initialisation", "statement": "With skip_first=True, an unroll on xs returns T-1 outputs which are those of the plain unroll on xs[1:] started from the params and state initialised on xs[0].", "quantifier": "all modules, keys, non-empty sequences", "why_tests_cant": "It must hold for every module (including those whose first step changes the state), every key and every length, down to a single element.", "anchors": ["src/wax/unroll.py:unroll_transform_with_state"]}
{"id": "C06", "title": "params and state arguments override initialisation independently", "statement": "unroll(fun, params=p) uses p and the state of init; unroll(fun, state=s) uses s and the params of init; with both given, the output does not depend on fun.init at all.", "quantifier": "all modules, params, states, sequences", "why_tests_cant": "Independence from init when both arguments are given is a statement on all pairs of modules with the same apply and different inits.", "anchors": ["src/wax/unroll.py:unroll"]}
{"id": "C07", "title": "fori_loop unroll agrees with scan unroll", "statement": "dynamic_unroll_fori_loop(fun, params, state, rng, skip_first, xs) gives the same outputs and final state as the scan unroll whenever fun.apply does not use its key; for key-dependent functions it re-uses the same key at each step and differs.", "quantifier": "all modules with a single array output, all sequences leaving at least one step", "why_tests_cant": "It is an equivalence of two loops for all modules and lengths; the difference on key-dependent functions only shows with random modules, which the tests do not use.", "anchors": ["src/wax/unroll.py:dynamic_unroll_fori_loop"]}
{"id": "C08", "title": "gym_static_unroll output alignment", "statement": "gym_static_unroll returns one output per applied observation.  It holds with skip_first=True; with skip_first=False the first observation is applied and advances the state, but its output is missing from the result.", "quantifier": "all functions, key sequences, data generators", "why_tests_cant": "The missing output concerns every run without skip_first; the alignment is a statement on all lengths, keys and generators, while tests look at one run and at its final result.", "anchors": ["src/wax/unroll.py:gym_static_unroll"]}
{"id": "C09", "title": "batching acts lane by lane", "statement": "VMap/add_batch/vmap_lift of a module on a batch of inputs gives in lane i exactly the outputs and states of the module alone on lane i with the keys split for the lanes (no key in the variants that do not split); lanes never influence one another.  unroll_lift_with_state is the unroll of the lifted module inside a transformed function.", "quantifier": "all modules, batch sizes, sequences", "why_tests_cant": "Non-interference between lanes quantifies over every value of all other lanes, for every module and batch size.", "anchors": ["src/wax/modules/vmap.py:VMap", "src/wax/stateful.py:vmap_lift_with_state", "src/wax/stateful.py:unroll_lift_with_state"]}
{"id": "C10", "title": "Buffer is a sliding window", "statement": "After n calls, Buffer(maxlen) returns an array of length maxlen whose last min(n,maxlen) entries are the last min(n,maxlen) inputs in chronological order and whose other entries are fill_value; the returned state has len_buffer=min(n,maxlen) and i_start=maxlen-len_buffer, so buffer[i_start:] are exactly the recorded data.", "quantifier": "all maxlen>=1, fill values, input sequences", "why_tests_cant": "The window content depends on an unbounded history and on any capacity; tests use one capacity and a few inputs.", "anchors": ["src/wax/modules/buffer.py:buffer_fn", "src/wax/modules/buffer.py:Buffer"]}
{"id": "C11", "title": "Lag returns the input lag steps ago", "statement": "Lag(k) returns at step t the input of step t-k if t>=k and fill_value otherwise (k=0 is the identity).  With return_state=True it does not return a lagged value but the whole buffer.", "quantifier": "all lags, fill values, sequences and times", "why_tests_cant": "The claim relates outputs to inputs arbitrarily far in the past for every lag, including 0 and lags longer than the series.", "anchors": ["src/wax/modules/lag.py:Lag"]}
{"id": "C12", "title": "Diff is the first difference", "statement": "Diff(1) returns NaN at step 0 and x[t]-x[t-1] afterwards, NaN if one of both is NaN; any other periods is rejected at construction.", "quantifier": "all float sequences including NaN and infinities", "why_tests_cant": "The float cases (NaN, infinities of the same sign) of every pair of consecutive inputs must be covered; tests use one regular series.", "anchors": ["src/wax/modules/diff.py:Diff"]}
{"id": "C13", "title": "PctChange follows the pandas definition", "statement": "PctChange() returns NaN at step 0; at step t it returns x[t]/p-1 where p is the last non-NaN value among x[0..t-1]; when x[t] is NaN it returns 0 if such a p exists and fillna_zero, and NaN otherwise.  With another fill_method the module cannot be called (TypeError).", "quantifier": "all sequences with NaN, both fillna_zero flags", "why_tests_cant": "The last non-missing value may be arbitrarily far in the past, and zero and infinite denominators must be covered as well as both flags; tests follow pandas on one series.", "anchors": ["src/wax/modules/pct_change.py:PctChange"]}
{"id": "C14", "title": "RollingMean is the mean of the non-missing values of the window", "statement": "RollingMean(h, m) returns at step t the arithmetic mean of the non-NaN values among the last min(t+1,h) inputs if there are at least max(m,1) of them, NaN otherwise (m<=0 and an empty window gives NaN too).  Inputs older than h steps have no influence.", "quantifier": "all horizons, min_periods, sequences with NaN", "why_tests_cant": "All windows with all patterns of missing values and all min_periods must be covered, and the claim that older inputs have no influence ranges over all pasts.", "anchors": ["src/wax/modules/rolling_mean.py:RollingMean"]}
{"id": "C15", "title": "HasChanged flags exactly the changes", "statement": "HasChanged returns at step t>0 true iff input t differs from input t-1 in some component (NaN differs from anything).  At step 0 it returns true unless the input equals the default of its dtype (never for floats; -99999 for ints, 0 for unsigned, False for booleans, for which the first value is reported as unchanged).", "quantifier": "all sequences, shapes and dtypes", "why_tests_cant": "It ranges over all histories and dtypes; the exceptions at the first step depend on values (the dtype defaults) that tests do not try.", "anchors": ["src/wax/modules/has_changed.py:HasChanged", "src/wax/stream.py:DTYPE_INIT_VALUES"]}
{"id": "C16", "title": "Ffill returns the last valid value", "statement": "Ffill returns at each step the most recent non-NaN input so far, NaN if there is none; it is the identity on NaN-free series and idempotent.", "quantifier": "all sequences with any pattern of NaN", "why_tests_cant": "Gaps of missing values are unbounded, and idempotence is a statement on every series.", "anchors": ["src/wax/modules/ffill.py:Ffill"]}
{"id": "C17", "title": "FillNanInf output is finite and finite values are preserved", "statement": "FillNanInf(v) maps NaN, +inf, -inf to v and is the identity on finite values; with finite v the result is always finite and the operation is idempotent.", "quantifier": "all floats and pytrees", "why_tests_cant": "It is a statement on every float, and on every pytree of them.", "anchors": ["src/wax/modules/fill_nan_inf.py:FillNanInf"]}
{"id": "C18", "title": "Counter counts the calls modulo 2^32", "statement": "Counter returns n at its n-th call for n<2^32 and wraps modulo 2^32.", "quantifier": "any number of calls", "why_tests_cant": "The wrap-around happens after 2^32 calls, which no test can perform.", "anchors": ["src/wax/modules/counter.py:Counter"]}
{"id": "C19", "title": "EWMA(adjust=True) is the exponentially weighted average of the observations", "statement": "With adjust=True, EWMA returns at step t sum(w_i x_i)/sum(w_i) over the non-NaN observations i<=t, with w_i=(1-alpha)^k where k is the number of steps since i (ignore_na=False) or the number of later non-NaN observations (ignore_na=True); NaN if there is no observation yet or fewer than min_periods.", "quantifier": "all com>0, NaN patterns, lengths, both ignore_na, all min_periods", "why_tests_cant": "The closed form sums over an unbounded history with any pattern of missing values, for real parameters; tests compare with pandas on a few series.", "anchors": ["src/wax/modules/ewma.py:EWMA"]}
{"id": "C20", "title": "EWMA(adjust=False) is the exponential recursion", "statement": "With adjust=False, EWMA starts at the first observation (or initial_value) and then y=(1-a)^(g) weighted recursion y_t=(old_wt*y+alpha*x)/(old_wt+alpha), old_wt=(1-alpha)^(1+gap) with gap the NaN-gap (0 if ignore_na); on NaN-free data y_t=(1-alpha)y_{t-1}+alpha x_t, i.e. the closed form (1-alpha)^t x_0+alpha sum (1-alpha)^(t-i) x_i.", "quantifier": "all com, sequences", "why_tests_cant": "The recursion has to be related to the closed form for any length, any gap between observations and any initial value.", "anchors": ["src/wax/modules/ewma.py:EWMA"]}
{"id": "C21", "title": "EWMA output stays within the range of the observations", "statement": "Every non-NaN EWMA output (all adjust modes) lies between the minimum and the maximum of the observations (and initial_value) seen so far; on a constant series it is that constant; missing inputs leave the output unchanged.", "quantifier": "all sequences, parameters", "why_tests_cant": "It is an invariant of all histories and all modes; a violation would need a particular pattern of missing values and weights to be seen by a test.", "anchors": ["src/wax/modules/ewma.py:EWMA"]}
{"id": "C22", "title": "EWMA(adjust='linear') interpolates from the plain mean", "statement": "With adjust='linear' (and ignore_na=True, or no missing value after the first observation), the effective alpha at the n-th observation is max(1/n, 1/(1+com)) so that the output is the plain arithmetic mean of the first observations while n<=1+com and the exponential recursion afterwards.", "quantifier": "all com, NaN-free prefix lengths", "why_tests_cant": "The switch from the plain mean to the exponential regime happens at n = 1 + com for each real com; tests use one com and one length.", "anchors": ["src/wax/modules/ewma.py:EWMA"]}
{"id": "C23", "title": "EWMVar is a weighted variance", "statement": "EWMVar is never negative on any sequence of finite or missing inputs; it is 0 on constant series, is invariant by translation and scales with the square of the inputs; on NaN-free data it equals the weighted variance sum w_i (x_i - m)^2 / sum w_i with the EWMA weights.  Before the first observation it returns 0, not NaN.", "quantifier": "all sequences, com, adjust modes", "why_tests_cant": "Positivity, invariance by translation and scaling are statements on all real sequences; a negative variance is precisely what a test on well-behaved data does not show.", "anchors": ["src/wax/modules/ewmvar.py:EWMVar"]}
{"id": "C24", "title": "EWMCov is symmetric, and positive on the diagonal", "statement": "EWMCov(x,y) is the transpose of EWMCov(y,x); EWMCov(x,x) has non-negative diagonal; it equals EWMA(x y^T)-EWMA(x)EWMA(y)^T.", "quantifier": "all sequences of finite vectors", "why_tests_cant": "Symmetry, positivity and the closed form must hold for all histories of vectors of any dimension.", "anchors": ["src/wax/modules/ewmcov.py:EWMCov"]}
{"id": "C25", "title": "the numba EWMA agrees with the jax EWMA", "statement": "ewma_numba processes every column independently and produces the same values as the EWMA module (adjust True/False, both ignore_na, min_periods, initial_value) on the same series.", "quantifier": "all data frames with any NaN pattern, any com>0", "why_tests_cant": "It is the equivalence of two implementations on all tables, patterns of missing values and parameters; tests compare them on one table.", "anchors": ["src/wax/numba/ewma_numba.py:NumbaExponentialMovingWindow", "src/wax/modules/ewma.py:EWMA"]}
{"id": "C26", "title": "the numba EWMA can be resumed from its state", "statement": "Calling the numba EWMA on the first rows, then on the remaining rows with the returned state gives the rows of a single call on everything and the same final state.", "quantifier": "all split points", "why_tests_cant": "Every split point of every table must be equivalent to one call, including splits inside a gap of missing values.", "anchors": ["src/wax/numba/ewma_numba.py:NumbaExponentialMovingWindow"]}
{"id": "C27", "title": "ApplyMask replaces exactly the masked entries", "statement": "ApplyMask(mask_value, axis) keeps entries where the mask is true and puts mask_value elsewhere, broadcasting a 1-d mask along the documented axis; incompatible shapes raise.", "quantifier": "all matrices, masks, axes", "why_tests_cant": "All shapes, axes and masks must be covered, and the rejection of incompatible shapes too.", "anchors": ["src/wax/modules/apply_mask.py:ApplyMask"]}
{"id": "C28", "title": "MaskMean, MaskStd and MaskNormalize only depend on unmasked values", "statement": "Values under the mask have no influence on MaskMean, MaskStd; on finite data MaskMean is the arithmetic mean of the unmasked values and MaskStd (no axis, axis=0, or assume_centered) their population standard deviation; MaskNormalize divides by it (without centring), is 0 where that is undefined, and always finite. MaskStd with axis=1 and assume_centered=False is not the row-wise statistic.  NaN values that are not masked are dropped from the sum but still counted.", "quantifier": "all vectors and masks", "why_tests_cant": "Independence from masked values quantifies over every value that can be put under the mask, including NaN and infinities.", "anchors": ["src/wax/modules/mask_mean.py:MaskMean", "src/wax/modules/mask_std.py:MaskStd", "src/wax/modules/mask_normalize.py:MaskNormalize"]}
{"id": "C29", "title": "OHLC bars", "statement": "Between two resets OHLC returns open=first valid value of the bin, high/low=max/min of the valid values, close=last valid value; always low<=open<=high and low<=close<=high when defined; a reset starts a new bin that ignores anything older.", "quantifier": "all value sequences with NaN and reset patterns", "why_tests_cant": "Bins, positions of missing values and schedules of resets are unbounded.", "anchors": ["src/wax/modules/ohlc.py:OHLC"]}
{"id": "C30", "title": "UpdateOnEvent holds the last output and state between events", "statement": "UpdateOnEvent(f)(on_event, x) returns, at any step, the output f had at the last event, the inner state being that of running f on the inputs of the event steps only; between events nothing changes.", "quantifier": "all modules, event patterns", "why_tests_cant": "All schedules of events must be covered, for every inner module and state.", "anchors": ["src/wax/modules/update_on_event.py:UpdateOnEvent"]}
{"id": "C31", "title": "ARMA recursion", "statement": "ARMA(alpha,beta) produces y_t = sum_i alpha_i y_{t-(p-i)} + sum_j beta_j eps_{t-(q-j)} + eps_t with missing history counted as 0 (coefficients oldest first).", "quantifier": "all coefficients, noises, lengths", "why_tests_cant": "The recursion has unbounded depth: each output depends on the whole past through previous outputs, for arbitrary coefficients.", "anchors": ["src/wax/modules/arma.py:ARMA"]}
{"id": "C32", "title": "SNARIMAX features and accepted orders", "statement": "SNARIMAX feeds its model the last q one-step errors and the last p targets, missing ones filled; the seasonal and differencing orders other than 0 are rejected.", "quantifier": "all orders, sequences", "why_tests_cant": "The features depend on the whole history of predictions and targets, for all orders p and q including 0.", "anchors": ["src/wax/modules/snarimax.py:SNARIMAX"]}
{"id": "C33", "title": "GymFeedback closes the loop causally", "statement": "GymFeedback applies the agent to the observation produced by the environment and the environment to the previous action: the action used by the environment at step t is the agent's action of step t-1 (initial action at t=0); outputs expose exactly the requested fields.", "quantifier": "all agents, environments, input sequences", "why_tests_cant": "The loop couples an arbitrary agent and an arbitrary environment; delays of one step only show in a statement about all closed-loop histories.", "anchors": ["src/wax/modules/gym_feedback.py:GymFeedback"]}
{"id": "C34", "title": "online optimisation preserves what is not trained", "statement": "UpdateParams/OnlineOptimizer only modify parameters selected by the predicate: the others are returned unchanged at every step; partition then merge is the identity on parameters.", "quantifier": "all parameter trees, predicates, gradient sequences", "why_tests_cant": "That untrained parameters never move is an invariant over all gradients, predicates and numbers of steps.", "anchors": ["src/wax/modules/online_optimizer.py:OnlineOptimizer", "src/wax/modules/update_params.py:UpdateParams", "src/wax/flax/modules/update_params.py:UpdateParams", "src/wax/flax/modules/online_optimizer.py:OnlineOptimizer"]}
{"id": "C35", "title": "the Newton optimiser tracks the exact inverse Hessian", "statement": "After any sequence of gradients g_1..g_n, the state of newton(eps) is the inverse of eps times the identity plus the sum of g_i g_i^T (Sherman-Morrison), the denominator never vanishes for eps>0, so updates are always defined.", "quantifier": "all dimensions, gradient sequences", "why_tests_cant": "It is an identity between matrices for every dimension and every number of updates, and the absence of a division by zero is a statement on all gradients.", "anchors": ["src/wax/optim/newton.py:sherman_morrison", "src/wax/optim/newton.py:scale_by_newton"]}
{"id": "C36", "title": "int64 encoding is lossless", "statement": "decode_int64(encode_int64(x))=x for every 64-bit integer, encodings are injective, and each word fits uint32.", "quantifier": "all 2^64 integers", "why_tests_cant": "There are 2^64 inputs; tests sample a few dates.", "anchors": ["src/wax/encode.py:encode_int64", "src/wax/encode.py:decode_int64"]}
{"id": "C37", "title": "datekey comparison orders times", "statement": "less(encode(a),encode(b)) is true iff a<b, for a, b of the same sign (all timestamps after 1970); it is wrong for dates before 1970 against dates after.", "quantifier": "all pairs of int64", "why_tests_cant": "There are 2^128 pairs; the failing ones (dates on both sides of 1970) are not in the tests.", "anchors": ["src/wax/encode.py:less", "src/wax/encode.py:encode_int64"]}
{"id": "C38", "title": "floor_datetime floors", "statement": "floor_datetime(t, freq) is the largest multiple of the period not after t: floor(t)<=t<floor(t)+period, idempotent, monotone, for every t whose floor is representable (earlier times, NaT included, wrap to 2262); floor on encoded datekeys commutes with encoding; frequencies other than the day are rejected.", "quantifier": "all timestamps", "why_tests_cant": "It must hold for all int64 timestamps, including negative ones, and all frequencies; tests sample a few dates of recent years.", "anchors": ["src/wax/encode.py:floor_datetime", "src/wax/encode.py:floor_jax_datekey"]}
{"id": "C39", "title": "encoders round-trip", "statement": "string_encoder/datetime64_encoder/encode_dataset followed by decode gives back the original data; codes are order-preserving indices in the sorted unique labels.  (An encoder fitted on an array of two or more dimensions decodes to the shape it was fitted on: other shapes do not round-trip.)", "quantifier": "all arrays of labels and datasets", "why_tests_cant": "Arrays of labels of any size, with any repetitions and orders, must round-trip, and codes must follow the order of labels.", "anchors": ["src/wax/encode.py:string_encoder", "src/wax/encode.py:encode_dataset", "src/wax/encode.py:decode_dataset"]}
{"id": "C40", "title": "a merged stream never leaks future data", "statement": "In a Stream merge, the values of a secondary stream visible at a local time T are observations whose timestamp is strictly before T (after embedding T at the stream frequency), whatever happens later: changing or removing any secondary observation not strictly before T does not change the outputs up to T.", "quantifier": "all stream sets, timestamps, frequencies, local times", "why_tests_cant": "Absence of leaks from the future is a statement on all pairs of futures and all interleavings of clocks; tests use regular calendars.", "anchors": ["src/wax/stream.py:Stream.merge", "src/wax/stream.py:timestamp_is_before_local"]}
{"id": "C41", "title": "a merged stream with ffill shows the latest past observation", "statement": "For a forward-filled secondary stream with increasing timestamps the merged output at local time T is the most recent observation strictly before T, and the initial value if there is none; it persists after the stream is exhausted.", "quantifier": "all interleavings of clocks", "why_tests_cant": "All interleavings of clocks must be covered, including repeated local times, exhausted streams and streams that start late.", "anchors": ["src/wax/stream.py:Stream.merge"]}
{"id": "C42", "title": "a merged stream without ffill shows only new observations", "statement": "Without ffill, the merged output at a local time is the latest observation which became available since the previous local time, and the initial default value when there is none.", "quantifier": "all interleavings", "why_tests_cant": "All interleavings of clocks must be covered: several observations between two local times, none, or a stream that is exhausted.", "anchors": ["src/wax/stream.py:Stream.merge"]}
{"id": "C43", "title": "a buffered secondary stream contains the last observations in order", "statement": "For a stream with a buffer of length n the merged output holds the last n observations the generator made available, in chronological order, padded in front by the default value; without ffill it reverts to the default window when there is no new observation. The generator of a dataset yields the first observation twice: while fewer than n observations are available the window holds it twice (refuting the naive claim), and is exact afterwards.", "quantifier": "all interleavings, buffer lengths", "why_tests_cant": "The window depends on an unbounded history of two clocks, for every buffer length, with and without forward fill.", "anchors": ["src/wax/stream.py:Stream.merge", "src/wax/stream.py:tree_buffer_transform"]}
{"id": "C44", "title": "index streams address the right data", "statement": "Tracing a dataset with index streams then accessing the data gives the values of the plain stream, with the dtype default where there is no observation, for every default index < 0 (a default index >= 0 shows the datum at this position before its time). Scalars without time dimension are constant; vectors without time dimension are read at wrong positions (component i at step s is component min(s*i, m-1)): refuted.", "quantifier": "all datasets, local times", "why_tests_cant": "All datasets, default indices and interleavings must be covered; the failing default indices are not tried by tests.", "anchors": ["src/wax/stream.py:access_data", "src/wax/stream.py:get_dataset_index", "src/wax/stream.py:Stream.trace_dataset"]}
{"id": "C45", "title": "one merged observation per local time", "statement": "The merged stream yields exactly one item for each time of the local stream, in order, whatever the secondary streams are, including exhausted ones; unroll_stream collects every leaf over the items (with skip_first only for items with one leaf: refuted for more).", "quantifier": "all stream sets", "why_tests_cant": "It must hold for any number of secondary streams with arbitrary clocks, exhausted or not, and for items of any structure.", "anchors": ["src/wax/stream.py:Stream.merge", "src/wax/stream.py:Stream.get_local_time"]}
{"id": "C46", "title": "gym_unroll terminates and reports every step", "statement": "gym_unroll performs steps agent-then-env until the environment reports done or a callback asks to stop; callbacks see reset, each step once in order, and the end once; Stop(n) with counter _t ends after max(1, n - _t) steps (the counter is not reset between runs) unless something else ends the run before; Record adds one row for each step where the environment is not done.", "quantifier": "all environments, agents, callback lists", "why_tests_cant": "Termination and exactly-once reporting range over all environments, agents, lists of callbacks and counters left by earlier runs.", "anchors": ["src/wax/gym/gym_unroll.py:gym_unroll", "src/wax/gym/callbacks/stop.py:Stop", "src/wax/gym/callbacks/record.py:Record"]}
{"id": "C47", "title": "callback registration scopes", "statement": "add_callbacks installs callbacks for the extent of a with-block and removes them after, even on exception; an unroll uses the active callbacks, hides them from nested unrolls and restores them.  Two naive claims fail: explicit callbacks are not combined with the active ones (they replace them), and a callback already active which is installed by a with-block is removed at the end of the block.", "quantifier": "all nestings and exceptions", "why_tests_cant": "Scopes can be nested in any way and an exception can leave any of them; tests try one nesting.", "anchors": ["src/wax/gym/callbacks/callbacks.py:add_callbacks", "src/wax/gym/callbacks/callbacks.py:local_callbacks", "src/wax/gym/callbacks/callbacks.py:Callback"]}
{"id": "C48", "title": "automatic dimension labelling", "statement": "auto_format_with_shape gives an array whose shape, not (), is a prefix of the shape of some dataset variable the corresponding prefix of the dimensions of the first such variable, with the coordinates of these names and the same contents, and labels nothing else; the tree version does so leaf by leaf.", "quantifier": "all shapes", "why_tests_cant": "All shapes and all sets of dataset variables must be covered, including ambiguous prefixes; tests use a few shapes.", "anchors": ["src/wax/format.py:auto_format_with_shape"]}
{"id": "C49", "title": "the flax ring Buffer refines the sliding window", "statement": "The flax Buffer (circular write index) returns at each of the first 2^31-1 calls (at every call if maxlen is a power of two) the same window as the haiku Buffer, oldest first; at call 2^31 the int32 index wraps and the window is rotated.", "quantifier": "all maxlen, sequences", "why_tests_cant": "The failure needs 2^31 calls, which no test can perform; before that, all capacities and histories must be covered.", "anchors": ["src/wax/flax/modules/buffer.py:Buffer"]}
{"id": "C50", "title": "flax modules agree with the haiku modules", "statement": "The flax Lag, Diff, PctChange, RollingMean, Ffill, HasChanged, Counter, EWMA, EWMVar, EWMCov produce the same outputs as their haiku counterparts from their initial states on every input sequence (ring buffers: within the limit of C49; EWMA: initial value not infinite).", "quantifier": "all sequences, parameters", "why_tests_cant": "It is an equivalence of two implementations of ten modules, for all parameters and input sequences; tests compare them on one series.", "anchors": ["src/wax/flax/modules/lag.py:Lag", "src/wax/flax/modules/ewma.py:EWMA", "src/wax/flax/modules/ewmvar.py:EWMVar", "src/wax/flax/modules/ffill.py:Ffill"]}
{"id": "C51", "title": "flax unroll starts from the initial state", "statement": "Unrolling a flax module gives the outputs obtained by running it from its initial state.  Fails: the flax init runs the module once on the first input and keeps the mutated state, the first input is processed twice.", "quantifier": "all modules, sequences", "why_tests_cant": "The double processing of the first input changes the outputs of every module with a state; tests check shapes or modules on which it is invisible.", "anchors": ["src/wax/flax/core/unroll.py:unroll", "src/wax/flax/core/transform.py:transform_with_state"]}
{"id": "C52", "title": "state hierarchy execution order", "statement": "get_execution_order returns every active state exactly once, terminates even on cyclic dependencies, and, whatever the iteration order of the Python set, puts after its active dependencies each state that neither is on a cycle nor depends on one (so every state when there is no cycle).", "quantifier": "all dependency graphs", "why_tests_cant": "All dependency graphs, cyclic ones included, and all iteration orders of Python sets must be covered.", "anchors": ["src/wax/flax/core/advanced_state_patterns.py:get_execution_order"]}
{"id": "C53", "title": "streaming state machine only takes declared transitions", "statement": "StreamingStateMachine moves only along a declared transition whose condition holds, otherwise remains; the first declared satisfied transition wins; the module of each state behaves as if it only received the inputs that arrive in that state; no input makes the machine fail when all targets are declared.", "quantifier": "all transition tables, inputs", "why_tests_cant": "All transition tables, input histories and modules must be covered, and the claim that no input makes it leave the declared transitions is an invariant.", "anchors": ["src/wax/flax/core/streaming_transforms.py:StreamingStateMachine"]}
{"id": "C54", "title": "streaming_scan with reset", "statement": "streaming_scan processes segments separated by reset conditions, each segment being the scan from the initial state (the given one, or that of init on the first input); the resetting element itself belongs to the previous segment; without reset condition, or with preserve_state=False, there is one segment.  A key can only be given together with params and state: otherwise the call raises.", "quantifier": "all reset patterns", "why_tests_cant": "All patterns of resets must be covered, including consecutive resets and a reset at the last element.", "anchors": ["src/wax/flax/core/streaming_transforms.py:streaming_scan"]}
{"id": "C55", "title": "conditional computation caches outputs", "statement": "ConditionalComputation returns the inner output when the condition holds and the last such output otherwise; unlike UpdateOnEvent the inner state advances at every step.", "quantifier": "all condition patterns", "why_tests_cant": "All schedules of the condition must be covered, with the inner state advancing in between.", "anchors": ["src/wax/flax/core/streaming_transforms.py:ConditionalComputation"]}
{"id": "C56", "title": "attention selector history and composite managers", "statement": "The attention history of the selector contains the last N recorded vectors in order; pipeline manager composes its managers in order, parallel runs them on the same input.", "quantifier": "all histories", "why_tests_cant": "Histories are unbounded and wrap around the circular storage; compositions range over all lists of managers.", "anchors": ["src/wax/flax/core/advanced_state_patterns.py:AttentionBasedStateSelector", "src/wax/flax/core/advanced_state_patterns.py:CompositeStateManager"]}
{"id": "C57", "title": "CompressedBuffer keeps every factor-th sample, in order", "statement": "With downsampling, CompressedBuffer stores exactly the inputs of calls 0,f,2f,... and its capacity is max(1,maxlen//f).  The returned window is chronological only on update steps (rotated by the number of stored inputs on the others).  With compression=\"none\" it is the plain window, with \"ewma\" the EWMA.", "quantifier": "all maxlen, factors, sequences", "why_tests_cant": "The rotation of the window on non-update steps depends on the number of stored inputs; all factors, capacities and lengths must be covered.", "anchors": ["src/wax/flax/modules/compressed_buffer.py:CompressedBuffer"]}
{"id": "C58", "title": "HierarchicalBuffer levels are sub-sampled windows", "statement": "The recent level is the window of all inputs, the medium and long levels are their CompressedBuffer fed with every 5th and every 50th input; between these calls the last output is repeated.  The last part fails except for EWMA compression: 0.0 is returned.", "quantifier": "all sequences", "why_tests_cant": "The slow level updates every 50 inputs: tests do not run long enough, and the failure of the repeated outputs shows only between updates.", "anchors": ["src/wax/flax/modules/compressed_buffer.py:HierarchicalBuffer"]}
{"id": "C59", "title": "agent and environment wrappers are state machines around the pure functions", "statement": "HaikuAgent/HaikuEnv produce on successive calls the outputs of the unrolled pure function; reset restarts from scratch except for the sequence of random keys, which goes on; the environment reports done exactly when its data generator is exhausted.", "quantifier": "all call sequences", "why_tests_cant": "It ranges over all sequences of calls and resets, and over the key sequence shared by successive episodes.", "anchors": ["src/wax/gym/haiku_agent.py:HaikuAgent", "src/wax/gym/haiku_env.py:HaikuEnv"]}
{"id": "C60", "title": "transform_batch_with_state is a resumable scan with a fixed key", "statement": "transform_batch_with_state(fun).apply runs fun.apply over the elements in order with the params, state and key stored in the batch state (the same unsplit key at every step, the key argument being ignored), returns one output per element and a batch state from which a next batch continues exactly; the static variant agrees when given the stored key, and otherwise uses the key argument.", "quantifier": "all functions, batch states, keys, batches and split points", "why_tests_cant": "All batches and split points must be covered, and the ignored key argument is only visible with random functions.", "anchors": ["src/wax/transform.py:transform_batch_with_state", "src/wax/transform.py:transform_batch_with_state_static"]}
{"id": "C61", "title": "EWMA return_info reports the effective center of mass and the number of observations", "statement": "With return_info=True, info['nobs'] at step t is the number of non-NaN inputs up to t, and at an observation info['com_eff'] is a number c with 0<=c<=com such that the new mean is (c*previous+x)/(c+1) (c=0 when there is no previous mean), in all adjust modes.", "quantifier": "all configurations and input sequences", "why_tests_cant": "The reported numbers are defined by an unbounded history with any pattern of missing values, in all modes.", "anchors": ["src/wax/modules/ewma.py:EWMA"]}
{"id": "C62", "title": "EWMA is a linear average with weights independent of the values", "statement": "For a given pattern of missing inputs, every EWMA output (all modes, initial_value NaN) is sum w_k x_k with non-negative weights of sum 1, zero on missing inputs, that do not depend on the values of the inputs.", "quantifier": "all configurations, patterns and values", "why_tests_cant": "The weights must be the same for all values with the same missing pattern: a statement on pairs of series of any length.", "anchors": ["src/wax/modules/ewma.py:EWMA"]}
{"id": "C63", "title": "the numba EWMA overwrites the state object it is given", "statement": "Calling the numba EWMA with a state updates the arrays of that state object in place: the returned state is the same object, other objects are untouched, and a second call with the same object continues the series.  In particular a saved state cannot be replayed.", "quantifier": "all states, call sequences", "why_tests_cant": "Aliasing between state objects depends on the whole sequence of calls; tests use each returned state once.", "anchors": ["src/wax/numba/ewma_numba.py:ewma"]}
{"id": "C64", "title": "format_dims given as a tuple of names applies to every output", "statement": "format_dataarray labels every array with the whole tuple of names, or each array with its own names when format_dims has the structure of the data; the DataArray accessor falls back on the first name for all outputs.  format_dataframe and format_series do the same and put all the names in index and columns; without names, dim_0, dim_1, ... of the first array.  Fails for a tuple of as many arrays as names: the names are distributed over the arrays.", "quantifier": "all pytrees, shapes, dims and coordinates", "why_tests_cant": "All output structures and tuples of names must be covered; the failing ones have as many arrays as names, a coincidence that tests avoid.", "anchors": ["src/wax/format.py:format_dataarray", "src/wax/accessors.py:StreamDataArray"]}
{"id": "C65", "title": "the hierarchical state machine coordinates without touching the modules", "statement": "A HierarchicalStateMachine calls every registered module exactly once per step, on the same input, whatever the strategy, the dependencies (cyclic ones included) and the iteration order of Python sets, none of which changes the result; sequential and parallel strategies return the outputs as they are (an error entry for a module that raised); the hierarchical one blends into each number of a returned dictionary 10% of the number found under the same key in the results of all states of smaller level, in order of level, the level being the length of the longest dependency chain.", "quantifier": "all modules, dependency graphs, set orders, states and inputs", "why_tests_cant": "dependency graphs and hash-seed dependent set orders are unbounded.", "anchors": ["src/wax/flax/core/advanced_state_patterns.py:HierarchicalStateMachine"]}
{"id": "C66", "title": "ConditionalStateUpdate freezes its module between events", "statement": "ConditionalStateUpdate runs its module on the inputs that satisfy the condition only, with the outputs and state it would have had on these inputs alone, and returns the other inputs unchanged.", "quantifier": "all modules, conditions and input sequences", "why_tests_cant": "All interleavings of events must be covered, for every module and condition.", "anchors": ["src/wax/flax/core/streaming_transforms.py:ConditionalStateUpdate"]}
{"id": "C67", "title": "HierarchicalState passes outputs forward only", "statement": "HierarchicalState.execute_in_order calls each module once in declaration order with the external inputs and the outputs of its declared dependencies that were declared earlier; an external input wins over an output of the same name; dependencies declared later are silently absent.", "quantifier": "all modules, declaration orders, dependency tables and inputs", "why_tests_cant": "All declaration orders and dependency tables must be covered; ignored late dependencies are silent.", "anchors": ["src/wax/flax/core/streaming_transforms.py:HierarchicalState"]}
{"id": "C68", "title": "StreamingOptimizer optimises a scale and leaves the model alone", "statement": "The outputs and state of the model inside a StreamingOptimizer are those of the model alone; the loss and gradient reported at each step are those of scale*output at the current scale, which starts at 1 and moves by the updates of the optimizer.", "quantifier": "all models, losses, optimizers and input sequences", "why_tests_cant": "The claim that the model is not influenced ranges over all models, losses and optimizers, along any number of steps.", "anchors": ["src/wax/flax/core/streaming_transforms.py:StreamingOptimizer"]}
{"id": "C69", "title": "quantile compression returns quantiles of the recent window", "statement": "With quantile compression the estimates are, on the calls 0, 10, 20, ..., the linearly interpolated quantiles of the non-missing values of the window of the last min(maxlen,1000) inputs, and are unchanged on the other calls; they lie between values of the window and increase with the percentile.  Until the window is full the fill value counts as an observation.", "quantifier": "all percentiles, window lengths and input sequences", "why_tests_cant": "Quantiles of windows of real values with missing entries, for all percentiles and phases of the refresh schedule, cannot be enumerated.", "anchors": ["src/wax/flax/modules/compressed_buffer.py:CompressedBuffer"]}
{"id": "C70", "title": "sketching compression estimates frequencies", "statement": "Each bucket of the table kept with sketching counts the inputs hashed to it, so it never underestimates a frequency.  The returned vector should allow the same estimate.  Fails: it is the minimum over hash functions of a same column, which can be zero everywhere after any number of occurrences of a value.", "quantifier": "all table sizes, inputs", "why_tests_cant": "Never underestimating a frequency is an invariant over all inputs and hash collisions; the failing minimum needs particular collisions.", "anchors": ["src/wax/flax/modules/compressed_buffer.py:CompressedBuffer"]}
{"id": "C71", "title": "compressed buffers have constant memory and report it", "statement": "The number of values a CompressedBuffer keeps is constant; get_memory_usage accounts 8 bytes for each of them, except when factor > maxlen; get_total_memory_usage is the sum over the levels of a HierarchicalBuffer, except for sketching.", "quantifier": "all strategies, sizes, input sequences", "why_tests_cant": "Constant memory is an invariant over runs of any length; the accounting fails only for special sizes.", "anchors": ["src/wax/flax/modules/compressed_buffer.py:CompressedBuffer.get_memory_usage", "src/wax/flax/modules/compressed_buffer.py:HierarchicalBuffer.get_total_memory_usage"]}
{"id": "C72", "title": "flax OHLC bars", "statement": "The flax OHLC returns at each step the bar of the values since the last reset: open the first non-missing value, close the latest input (even if missing), high and low the extrema of the values since the first non-missing one.  Without missing values it agrees with the haiku OHLC.  Fails with missing values: one NaN inside an open bar makes high and low NaN until the next reset, where haiku ignores it.", "quantifier": "all value/reset sequences", "why_tests_cant": "a bar depends on an unbounded history of resets and missing values; a test fixes one history.", "anchors": ["src/wax/flax/modules/ohlc.py:OHLC", "src/wax/modules/ohlc.py:OHLC"]}
{"id": "C73", "title": "flax ARMA computes the ARMA recursion", "statement": "The flax ARMA should return y[t] = eps[t] + sum alpha[i] y[t-i] + sum beta[j] eps[t-j].  Fails: its output ring also receives a 0 at each step, so that coefficient number k from the end (k=1 for the last) is ignored if k is odd and applies to the output k/2 steps before otherwise; the moving average starts at the current input.  In particular a single autoregressive coefficient has no effect and, with two or more, every output from a missing input on is 0.", "quantifier": "all coefficients and finite input sequences (within the int32 range of the ring index), all positions of a missing input", "why_tests_cant": "The recursion is unbounded, with arbitrary real coefficients; the skipped coefficients only show with orders above those tested.", "anchors": ["src/wax/flax/modules/arma.py:ARMA", "src/wax/flax/modules/buffer.py:Buffer"]}
{"id": "C74", "title": "flax masked statistics", "statement": "The flax MaskMean is the haiku one on masks of the shape of the data (all axes); a mask with one entry per row and axis=0 stands for the matrix with constant rows; MaskStd is the standard deviation of the selected values over everything, per column and per row, NaN for an empty selection, and agrees with haiku on finite values, but is 0 as soon as one selected value is missing; MaskNormalize divides the finite values by it and is 0 elsewhere.  A mask with one entry per column fails with axis=1.", "quantifier": "all shapes, masks and values", "why_tests_cant": "all shapes, masks, real values and placements of missing values.", "anchors": ["src/wax/flax/modules/mask_mean.py:MaskMean", "src/wax/flax/modules/mask_std.py:MaskStd", "src/wax/flax/modules/mask_normalize.py:MaskNormalize", "src/wax/flax/modules/apply_mask.py:ApplyMask"]}
{"id": "C75", "title": "flax SNARIMAX predicts before seeing the target", "statement": "The flax SNARIMAX applies its regressor to the last lags_x inputs, the last lags_y differences target-input and the input.  It should use targets of previous steps only.  Fails: the difference of the current step is among the features, so the prediction can be the current target itself.", "quantifier": "all lags, regressors, inputs and targets (some steps possibly without target)", "why_tests_cant": "The dependence on the current target is a statement on pairs of histories and all regressors; tests check shapes.", "anchors": ["src/wax/flax/modules/snarimax.py:SNARIMAX"]}
{"id": "C76", "title": "flax GymFeedback returns the actions of its agent", "statement": "The actions of a flax GymFeedback are those of the agent called alone on the observations and rewards; the stored previous action is the last action and never influences the agent; GymFeedbackLoop returns (observation, action, reward) with reward 0 if none is given.", "quantifier": "all agents, observation and reward sequences", "why_tests_cant": "It ranges over all agents and histories of observations and rewards, and non-influence of the stored action is a statement on all pairs of stored actions.", "anchors": ["src/wax/flax/modules/gym_feedback.py:GymFeedback", "src/wax/flax/modules/gym_feedback.py:GymFeedbackLoop"]}
{"id": "C77", "title": "flax UpdateParams: partition and merge", "statement": "partition_params puts each parameter of a nested dictionary on exactly one side, according to the predicate on the first and last name of its path and its value; merge_params of the two sides returns all the parameters with their values when each top-level module is wholly trainable or wholly not.  Fails otherwise: the non-trainable parameters of a module with a trainable one are lost, and a module name containing a slash (as haiku makes them) comes back as nested names.", "quantifier": "all nested dictionaries with distinct slash-free names, all predicates, all values", "why_tests_cant": "nested dictionaries have unbounded depth and width, and predicates are arbitrary functions; a test fixes one dictionary.", "anchors": ["src/wax/flax/modules/update_params.py:UpdateParams.partition_params", "src/wax/flax/modules/update_params.py:UpdateParams.merge_params"]}
{"id": "C78", "title": "flax OnlineOptimizer: which parameters move and which loss is reported", "statement": "In a run of the flax OnlineOptimizer with a predicate on modules, each loss reported is the loss of the parameters reported by the previous call (first those of the initialisation), the non-selected modules keep their initial values for ever, the other collections of variables never change, the selected arrays move by the optimiser's update of the reported gradients (then the projection), and the gradients are finite.  Fails with a predicate on parameter names: the frozen parameters of a module with a trainable one disappear at the first evaluation; and for models whose module names contain a slash.", "quantifier": "all models, losses, gradient functions, optimisers, projections keeping the modules, and input sequences of any length", "why_tests_cant": "frozen parameters must stay frozen along unbounded runs, for every optimiser and model.", "anchors": ["src/wax/flax/modules/online_optimizer.py:OnlineOptimizer", "src/wax/flax/modules/optax_optimizer.py:OptaxOptimizer"]}
{"id": "C79", "title": "flax FuncOptimizer and OnlineSupervisedLearner learn", "statement": "When everything is trainable, each loss of the flax FuncOptimizer is that of the current variables, and every array of every collection moves by the update of its (finite) gradient.  Fails otherwise: with a plain function nothing is ever learnt, so OnlineSupervisedLearner always returns the predictions and the loss of the fixed model with empty gradients; the predicate receives names of collections instead of modules, so that selecting modules freezes everything; and frozen parameters next to trainable ones are missing from the evaluation.", "quantifier": "all functions, optimisers, gradient functions and input sequences", "why_tests_cant": "\"never learns\" is a statement about every sequence and every optimiser.", "anchors": ["src/wax/flax/modules/func_optimizer.py:FuncOptimizer", "src/wax/flax/modules/online_supervised_learner.py:OnlineSupervisedLearner"]}
{"id": "C80", "title": "apply_with_state threads the variables", "statement": "Feeding the variables returned by apply_with_state to the next call gives the run of the module, for a parameter-free module with its state in the collection state; without state nor cache the variables are returned as given.  Fails for a module with parameters and state: the variables returned contain the mutable collections only, so the next call with them raises.", "quantifier": "all modules, variables and input sequences", "why_tests_cant": "It is a statement on sequences of calls for every module; the failure needs a module with parameters, called more than once.", "anchors": ["src/wax/flax/core/state_utils.py:apply_with_state"]}
{"id": "C81", "title": "flax VMap mean", "statement": "With take_mean the flax VMap returns the arithmetic mean of the results over the lanes, which is missing as soon as one lane is missing and for an empty batch.", "quantifier": "all functions and batches of any size", "why_tests_cant": "All functions, batch sizes (including the empty batch) and missing lanes must be covered.", "anchors": ["src/wax/flax/modules/vmap.py:VMap"]}
{"id": "C82", "title": "StreamingDebugger records exactly the steps it sees", "statement": "After any session of step, add_hook, remove_hook, clear_history, enable and disable calls: the state history holds the last max_history states seen since the last clear, the performance data the times of exactly the timed ones with their step numbers, the step count the steps made while enabled (clearing does not reset it); a disabled debugger changes nothing; a hook has been triggered by exactly the seen steps its condition accepts (a raising condition does not accept), independently of the other hooks, and keeps its last max_events events.  Fails: a state-change hook added without a condition (its default) never triggers, and a history entry of a dictionary with both params and state drops every other collection and all parameter values.", "quantifier": "all sessions of operations of any length, all conditions (stateful ones included), all states, inputs and outputs", "why_tests_cant": "the record depends on the whole history of interleaved operations, and conditions are arbitrary closures with a memory of their own; a test replays one session.", "anchors": ["src/wax/flax/debug/debugger.py:StreamingDebugger", "src/wax/flax/debug/debugger.py:DebugHook"]}
{"id": "C83", "title": "Ready-made debugger conditions", "statement": "step_interval(k) triggers at the multiples of k and only there; value_threshold triggers at exactly the inputs (or field values) above the threshold, never at a missing value nor where the input is not a number; state_change_detector triggers when the Euclidean distance to the value at its last trigger (or at the first step) exceeds the tolerance, skips values with a NaN or of an incompatible length and steps without the field, and spreads a value of length 1 over the other one; a performance monitor triggers at exactly the steps slower than its threshold when all steps are timed.  Fails: a NaN in the first value silences the detector for ever, and a slow step followed by untimed ones triggers the monitor again at each of them.", "quantifier": "all step sequences, thresholds, tolerances, fields and times, missing values included", "why_tests_cant": "the detector's reference value depends on all the earlier triggers; silence for ever is a statement about every continuation.", "anchors": ["src/wax/flax/debug/debugger.py:CommonConditions", "src/wax/flax/debug/debugger.py:StreamingDebugger.add_performance_monitor"]}
{"id": "C84", "title": "Debug decorators do not change what they decorate", "statement": "A function decorated with debug_streaming, profile_streaming or track_memory_usage, driven over any sequence of calls threading the state, returns the same outputs and states and raises at the same call as the bare function; and the debugger receives exactly one step per call that returned, with the returned state and output (the old state when no pair is returned).", "quantifier": "all apply functions (raising ones included), all argument sequences, all debugger, profiler and tracker states", "why_tests_cant": "transparency is an equality of two programs over every function and every history of calls.", "anchors": ["src/wax/flax/debug/debugger.py:debug_streaming", "src/wax/flax/debug/profiler.py:profile_streaming", "src/wax/flax/debug/memory_tracker.py:track_memory_usage"]}
{"id": "C85", "title": "StreamingProfiler: what is recorded and what the result says", "statement": "After any sequence of record_metrics calls the profiler keeps the last max_history metrics with their numbers, memory readings and differences, the bottlenecks are exactly the calls above the threshold, each module has exactly its times, data sizes are the sums over the nested arrays, and a leak is reported iff the last of the last ten metrics exceeds the first by more than the threshold.  Fails for a decorated function: each call is recorded twice (once with time 0), so n calls give 2n steps, half the mean time, a minimum of 0 and a median of half the smallest time; every profiled module is reported as having a high time variance, even with equal times; the general variance advice comes at 1.5 times the mean instead of 3; a process above 100 MB is told it allocates although its memory never changes; no jit compilation is ever recorded; the advice about large inputs never comes; and the bottlenecks of a finalized result disappear when the profiler is reset and grow with later calls.", "quantifier": "all call sequences of any length, all times, memory readings, data and thresholds", "why_tests_cant": "statistics over unbounded histories, and aliasing between a result and a later profiler state.", "anchors": ["src/wax/flax/debug/profiler.py:StreamingProfiler", "src/wax/flax/debug/profiler.py:ProfilerContext", "src/wax/flax/debug/profiler.py:profile_streaming"]}
{"id": "C86", "title": "MemoryTracker: snapshots and leak reports", "statement": "After any sequence of take_snapshot calls there is one snapshot per forced call and per multiple of the interval (the last max_snapshots kept), with the memory differences between consecutive ones; every reported leak is a growth above the threshold between two snapshots at most ten apart; nothing is reported while the memory never grows; the growth rate is exact on linear growth; parameters and state variables of a snapshot add up to the bytes of the state.  Fails: with max_snapshots below five nothing is ever reported; a leak of at most a ninth of the threshold per snapshot is never reported however long it lasts; a process gaining b MB per call is reported again at each snapshot from the fifth on, with the rate b times the square of the interval.", "quantifier": "all call sequences of any length, memory readings, intervals, thresholds and capacities", "why_tests_cant": "leak detection must be sound for every memory curve; the missed leak is a statement about runs of unbounded length.", "anchors": ["src/wax/flax/debug/memory_tracker.py:MemoryTracker.take_snapshot", "src/wax/flax/debug/memory_tracker.py:MemoryTracker._check_for_leaks", "src/wax/flax/debug/memory_tracker.py:MemoryTracker._analyze_state_memory", "src/wax/flax/debug/memory_tracker.py:track_memory_usage"]}
{"id": "C87", "title": "Accessors apply a module to the rows and give back its labels", "statement": "On a DataArray, DataFrame or Series whose only time axis is its first dimension, accessor.stream().apply(module) unrolls the module over the rows, in order; outputs of the shape of the rows come back with the dims, index, columns and coordinates of the input, one number per step with the time labels only, and nested outputs with all the dims on every leaf or, when some leaf does not fit them, with the first dim on every leaf.  Data without a time axis, with several ones and no local_time, or with a time axis that is not first, raise an exception.  Fails: with skip_first=True there is one output less than time labels, so formatting always raises.", "quantifier": "all modules, arrays of any size, coordinates, nested output structures, rng, params and states", "why_tests_cant": "the module is an arbitrary stateful function and the labels must match for every shape and coordinate; a test checks one module on one array.", "anchors": ["src/wax/accessors.py:StreamDataArray.apply", "src/wax/accessors.py:StreamDataFrame.apply", "src/wax/accessors.py:StreamSeries.apply", "src/wax/stream.py:Stream.prepare"]}
{"id": "C88", "title": "accessor.ewm(...).mean()", "statement": "x.wax.ewm(com or alpha, ...).mean() has the labels of x and each of its columns is the EWMA of the column of x alone; with adjust=True the entry at row t is the exponentially weighted average of the values of the column up to row t.  Giving neither or both of com and alpha raises.", "quantifier": "all arrays, frames and series, missing values included, all arguments", "why_tests_cant": "every entry depends on all earlier rows of its column and must not depend on the other columns.", "anchors": ["src/wax/accessors.py:WaxAccessor.ewm", "src/wax/accessors.py:ExponentialMovingWindow.mean"]}
{"id": "C89", "title": "What a module reads from a dataset with several time axes", "statement": "Applying a module to a dataset is unrolling it on what it reads at each local time: the current row of the variables of the local time axis; scalars unchanged; for a variable of another time axis, with ffill its latest row strictly before the local time seen at the frequency of the axis, without ffill the latest row since the previous local time, else the default value of its dtype; for a buffered 1-d variable the window of its latest rows, the very first one counted twice.  Datasets of variables along one time axis (unbuffered, or 1-d) or without time (at most 1-d) raise no exception.  Fails: a vector without time is not read unchanged, its j-th element at step t is the one at position min(t*j, last).", "quantifier": "all datasets, any number of time axes and variables, all times (ties included), frequencies, ffill and buffer options", "why_tests_cant": "what is read at a step depends on all the times of both axes up to it; tests check one calendar.", "anchors": ["src/wax/stream.py:Stream.prepare", "src/wax/stream.py:Stream.trace_dataset", "src/wax/stream.py:get_dataset_index", "src/wax/stream.py:access_data", "src/wax/accessors.py:StreamDataset.apply"]}
{"id": "C90", "title": "Modules applied to datasets do not look ahead", "statement": "If two datasets agree on their first n local rows and, along every other time axis, on the rows before these n local times, then for every module the first n outputs of accessor.stream().apply are equal, whatever comes later in either dataset (other values, other times, other lengths).", "quantifier": "all pairs of datasets with the same past, all modules, all options", "why_tests_cant": "a statement about all pairs of futures and all modules (a hyperproperty); no finite set of runs settles it.", "anchors": ["src/wax/stream.py:Stream.prepare", "src/wax/stream.py:Stream.merge", "src/wax/stream.py:access_data", "src/wax/accessors.py:StreamDataset.apply"]}
{"id": "C91", "title": "Datasets with matrices without time, or buffered matrices", "statement": "A variable without time dimension but with several dimensions, or a buffered variable with several dimensions, should be readable.  Fails: both raise, because the mask of the missing rows does not broadcast, unless the window has the length of the last axis or one of them is 1; and when the window is as long as the rows are wide and not yet full, no exception is raised but the mask is applied to the columns: missing rows show values of the first row, and present rows lose their first values.", "quantifier": "all datasets with such a variable, all sizes", "why_tests_cant": "the failure depends on an accidental equality of sizes and on the window being not yet full.", "anchors": ["src/wax/stream.py:access_data", "src/wax/stream.py:get_dataset_index"]}
{"id": "C92", "title": "OnlineSupervisedLearner predicts before it learns", "statement": "A run of OnlineSupervisedLearner over (x, y) pairs: at each step the prediction is that of the model at the current parameters, the loss compares it with the target, the optimiser receives the gradient of this loss at the current parameters (zeros in place of NaN and infinities unless switched off), and the parameters it returns are the ones reported and used from the next step on; the first ones come from the initialisation of the model.  Hence the predictions up to step t do not depend on the targets from step t on.  With optax.sgd a parameter does not move where its derivative is not finite, so a missing target changes nothing.  A model with state is refused.", "quantifier": "all models, losses, optimisers, sequences of any length, rng keys, missing targets", "why_tests_cant": "no leak of the target is a statement about all pairs of target sequences; the parameters at a step depend on the whole history.", "anchors": ["src/wax/modules/online_supervised_learner.py:OnlineSupervisedLearner", "src/wax/modules/func_optimizer.py:FuncOptimizer"]}
{"id": "C93", "title": "Nested unrolls, pairs already unrolled, deprecated wrappers and data_unroll", "statement": "unroll of a pair made by unroll_transform_with_state uses the skip_first of that pair and ignores its own.  Unrolling an unrolled pair reads a sequence of sequences as their concatenation: same outputs cut in the same way, same final state, each level skipping its own first element; with a key, every inner sequence is an ordinary unroll from the state reached so far with the key split off for it.  init_params_state, dynamic_unroll and static_unroll give the results of unroll.  data_unroll stacks the observations of a generator so that slice t is observation t, and unrolling on the stacked data is running on the observations one after the other.  static_scan without inputs (xs=None, length=n) always raises, although lax.scan accepts it.", "quantifier": "all functions, sequences of sequences of any lengths (also ragged), keys, overrides, flags; all generators of observations of one structure", "why_tests_cant": "the concatenation law and the key schedule hold for all splits of all sequences and all functions.", "anchors": ["src/wax/unroll.py:unroll_transform_with_state", "src/wax/unroll.py:unroll", "src/wax/unroll.py:dynamic_unroll", "src/wax/unroll.py:static_unroll", "src/wax/unroll.py:static_scan", "src/wax/unroll.py:data_unroll"]}
{"id": "C94", "title": "Decorated streaming functions: pattern and function are independent", "statement": "A function decorated with streaming_state_machine, streaming_attention_state, streaming_compose_states, streaming_compressed_memory or streaming_hierarchical_memory behaves, over any sequence of calls, as the pattern run alone on the same arguments followed by the function called on what the pattern returned and the arguments: the function cannot influence the pattern, and a call raises only when the pattern does.  The patterns that take one input see the first argument only; streaming_compose_states keeps separate variables for its modules even if one module is given several times, and raises for an unknown strategy, while streaming_state_machine reads an unknown strategy as parallel, never raises except for the hierarchical one, and does not distinguish sequential from parallel.  streaming_optimizer returns the loss and the output of every step; auxiliary outputs are passed through and change nothing; the target is the second argument, or the first when it is the only one.", "quantifier": "all patterns, functions with state, strategies, sequences of calls, optimisers", "why_tests_cant": "the independence must hold for every decorated function and every history of calls; a test fixes one of each.", "anchors": ["src/wax/flax/core/advanced_state_patterns.py:streaming_state_machine", "src/wax/flax/core/advanced_state_patterns.py:streaming_attention_state", "src/wax/flax/core/advanced_state_patterns.py:streaming_compose_states", "src/wax/flax/modules/compressed_buffer.py:streaming_compressed_memory", "src/wax/flax/modules/compressed_buffer.py:streaming_hierarchical_memory", "src/wax/flax/core/streaming_transforms.py:StreamingOptimizer", "src/wax/flax/core/streaming_transforms.py:streaming_optimizer"]}
{"id": "C95", "title": "Attention selector: what of a state is seen, and which past states are returned", "statement": "The attention selector turns a state into a vector of exactly embed_dim entries (cut or padded with zeros; the entries of a dictionary in order, anything but a number or an array counting as one zero), so that two histories which agree on the first embed_dim entries are indistinguishable.  get_relevant_states is documented to return the most relevant past states: it does not; whatever the state asked about, it returns the oldest top_k of the last max_history_length embeddings, with equal weights, or one zero row when nothing is stored.", "quantifier": "all states, histories of any length, embedding functions, sizes and top_k", "why_tests_cant": "holds for every history, including those long enough to wrap the circular buffer, and for every query.", "anchors": ["src/wax/flax/core/advanced_state_patterns.py:AttentionBasedStateSelector.get_relevant_states", "src/wax/flax/core/advanced_state_patterns.py:AttentionBasedStateSelector.__call__"]}
{"id": "C96", "title": "Compression settings", "statement": "CompressedBuffer accepts exactly the five documented compressions and HierarchicalBuffer likewise for its two levels.  Without compression_params, or with an empty dictionary, the documented defaults are used (alpha 0.1; percentiles 10, 25, 50, 75 and 90; factor 2; 4 hashes of 1024 buckets), and a setting that is given is the one used whatever the other keys.  A HierarchicalBuffer with EWMA levels returns on every call the average with alpha 0.1 of the inputs 0, 5, 10, ... and the one with alpha 0.01 of the inputs 0, 50, 100, ...  (A non-empty dictionary without percentiles gives three percentiles instead of the documented five.)", "quantifier": "all names, dictionaries of settings, sizes and sequences of inputs", "why_tests_cant": "the combinations of names and partly given settings, and the histories of inputs, are unbounded.", "anchors": ["src/wax/flax/modules/compressed_buffer.py:CompressedBuffer.setup", "src/wax/flax/modules/compressed_buffer.py:HierarchicalBuffer.setup"]}
{"id": "C97", "title": "Outputs of a module applied to a Dataset", "statement": "dataset.wax.stream(...).apply(module, format_dims=dims) returns one output per local time (one less with skip_first); an output whose shape agrees with dims gets those dims and the coordinates of the dataset; nested outputs all get dims or, when one of them does not fit, all get the first of dims, and there is an exception when this does not fit either.  Fails without format_dims: with its default value () formatting raises an exception for every dataset and every module with outputs.", "quantifier": "all datasets with any number of variables and time axes, modules, output structures, format_dims, parameters, states and keys", "why_tests_cant": "the labels depend on the whole structure of outputs and coordinates; the default value is not tested at all, and fails for all inputs.", "anchors": ["src/wax/accessors.py:StreamDataset.apply", "src/wax/format.py:format_dataset"]}
{"id": "C98", "title": "Nodes of a computation graph", "statement": "ComputationGraphRenderer().analyze_streaming_function(f, x) gives a graph with a node 'main' for the function and one node per outermost dictionary of parameters, named by its dotted path, whose type is decided by the first matching line of a fixed table on the name and the parameter names; any other callable is a single node.  Fails: there is never an edge; a module nested in one that has parameters of its own is not shown; analyzing a second function with the same renderer keeps the nodes of the first.", "quantifier": "all trees of parameters with keys that are not empty and have no dot, all names, all sequences of analyses", "why_tests_cant": "parameter trees have any depth and width, and the missing edges and nodes are absences for all of them; tests look at one small network.", "anchors": ["src/wax/flax/visualization/computation_graph.py:ComputationGraphRenderer.analyze_streaming_function", "src/wax/flax/visualization/computation_graph.py:_extract_modules_from_params", "src/wax/flax/visualization/computation_graph.py:_infer_module_type"]}
{"id": "C99", "title": "Hierarchy of a computation graph", "statement": "analyze_streaming_function of the nested graph analyzer ends and returns a forest: each node's level is the number of its ancestors, its children are exactly the nodes it is the parent of, levels lists each node once, get_max_level is the greatest level; without clustering parents are those given by the ids, with clustering the nodes without parent of a class are put under one cluster exactly when there are at least cluster_min_nodes of them; every node is drawn exactly once, with one edge per parent and child, and the summary counts are exact.  Fails: for the graph of a function, a module never becomes the parent of the modules below it (only 'main' can precede a dot); a node whose id merely begins with that of a node of type Module becomes its child (layer10 under layer1).", "quantifier": "all dictionaries of nodes with distinct ids, not empty and not beginning with cluster_; all cluster sizes", "why_tests_cant": "the traversal runs on forests of any shape and must end on all of them; ids that begin one another are not in the tests.", "anchors": ["src/wax/flax/visualization/nested_graph_viz.py:HierarchicalGraphAnalyzer", "src/wax/flax/visualization/nested_graph_viz.py:GraphvizNestedRenderer._render_hierarchy_recursive", "src/wax/flax/visualization/nested_graph_viz.py:_add_hierarchy_edges", "src/wax/flax/visualization/nested_graph_viz.py:get_hierarchy_summary"]}
{"id": "C100", "title": "Points kept by a data flow tracker", "statement": "DataFlowTracker keeps the last max_history points recorded since it was created or cleared, in order, each with the number of step() calls before it, the time since then and the shape of its value; get_module_history returns the last max_history points of that module alone, of the type asked for; get_recent_data(n) the last n; clear_history makes it as new; each curve has the points of its module in order; a frame of create_flow_animation shows the points of its share of the steps and leaves the tracker unchanged.  Fails: get_recent_data(0) is everything; the track_* flags have no effect; the module history holds points that the history lost; the flow rate of regular data is 10/9 of the true one and ignores the last point; no frame shows the last step; if drawing raises, the later points are lost.", "quantifier": "all histories of calls, all limits, all values, all frames", "why_tests_cant": "eviction depends on the whole interleaving of modules, steps and clears; the tests record a handful of points, below every limit.", "anchors": ["src/wax/flax/visualization/data_flow_visualizer.py:DataPoint", "src/wax/flax/visualization/data_flow_visualizer.py:DataFlowTracker", "src/wax/flax/visualization/data_flow_visualizer.py:DataFlowVisualizer._update_matplotlib_plot", "src/wax/flax/visualization/data_flow_visualizer.py:create_flow_animation"]}
{"id": "C101", "title": "Isolation of the pipelines of a dashboard", "statement": "The data served for a pipeline are the last 100 (at most max_data_points) recorded on it since it was last registered, with its own number of steps; recording on a pipeline never registered changes nothing; /api/performance gives for each pipeline the last 50 values it reported, their last and mean, and never mixes pipelines or kinds whatever their names; alerts are the last 100 raised, strictly above the limits, in order; a record sends its alerts and then, when a client is connected, the point.  Fails: the alerts of a pipeline vanish after a hundred of other pipelines; metrics survive a new registration.", "quantifier": "all histories of registrations, records, steps, connections and disconnections, all pipeline names, all configurations", "why_tests_cant": "isolation must hold for all names (keys are made by concatenation) and all interleavings of pipelines.", "anchors": ["src/wax/flax/visualization/interactive_dashboard.py:InteractiveDashboard.register_pipeline", "src/wax/flax/visualization/interactive_dashboard.py:record_pipeline_data", "src/wax/flax/visualization/interactive_dashboard.py:step_pipeline", "src/wax/flax/visualization/interactive_dashboard.py:_update_performance_metrics", "src/wax/flax/visualization/interactive_dashboard.py:_register_flask_routes"]}
{"id": "C102", "title": "Streams and controls of the notebook views", "statement": "A Bokeh stream shows the last max_points points given since it was last added, x beside y, and an update of an unknown stream does nothing; a Plotly stream shows the last max_history_points updates of that name on that figure; the controls give the last value set for each parameter of a known type, and each change calls every callback once, in order, with all current values; the animated flow shows for a stage the points of its module among the last 50.  Fails: max_points=0 keeps everything; a second Plotly stream of the same name is never updated; a stage whose name contains ' Data' shows another module.", "quantifier": "all histories of additions and updates on all figures, all limits, all panels and callbacks, all stage names", "why_tests_cant": "the buffers are shared by all figures and keyed by name, so that the claim ranges over all interleavings; names with ' Data' are not in the tests.", "anchors": ["src/wax/flax/visualization/bokeh_viz.py:BokehStreamingVisualizer.add_line_stream", "src/wax/flax/visualization/bokeh_viz.py:update_stream", "src/wax/flax/visualization/jupyter_viz.py:StreamingDataVisualizer", "src/wax/flax/visualization/jupyter_viz.py:InteractiveParameterControls", "src/wax/flax/visualization/jupyter_viz.py:AnimatedPipelineFlow"]}
{"id": "C103", "title": "Numbers shown by the summaries of debugger, profiler and memory tracker", "statement": "In every summary the maximum, minimum, mean, median and standard deviation are those of the readings they stand for, in the stated unit.  StreamingDebugger.get_summary counts all the steps seen while enabled, and its history, times, hits and events since the last clear_history; export_events('dict') lists the kept events of each hook and agrees with the summary; another format raises.  ProfileResult.get_summary gives steps, throughput and bottlenecks of the whole session and the statistics of the last max_history records; efficiency is between 0 and 1.  get_module_summary, get_memory_summary and get_module_memory_analysis cover the records or snapshots kept, and give an error exactly when there are none.  Fails: clear_history does not reset total_steps; total_allocated counts the memory held before the session; the number of jax arrays is always 0; one steady growth is counted as a leak at each snapshot.", "quantifier": "all sessions of steps, clears, hooks, records and snapshots, all limits, all readings", "why_tests_cant": "the claims range over all histories longer than the limits and all lists of readings; the tests check that keys are present after a few steps.", "anchors": ["src/wax/flax/debug/debugger.py:StreamingDebugger.get_summary", "src/wax/flax/debug/debugger.py:export_events", "src/wax/flax/debug/debugger.py:clear_history", "src/wax/flax/debug/profiler.py:ProfileResult.get_summary", "src/wax/flax/debug/profiler.py:StreamingProfiler.finalize", "src/wax/flax/debug/profiler.py:get_module_summary", "src/wax/flax/debug/memory_tracker.py:MemoryTracker.get_memory_summary", "src/wax/flax/debug/memory_tracker.py:get_module_memory_analysis"]}
{"id": "C104", "title": "Bollinger bands example", "statement": "After init(rng, p0) and any sequence of apply calls, bollinger_bands(window, num_std) returns the exponential moving average of period `window` of all the prices seen (p0 included, missing ones skipped) as center line, bands at num_std population standard deviations of the valid prices among the last `window`, symmetric about the center and ordered if num_std >= 0, and a band position which is (price - lower) / (upper - lower) for a width above 1e-8 and 0.5 otherwise, in [0, 1] exactly when the price is between the bands; before a first valid price everything is NaN with position 0.5.  Fails: the position is in [0, 1] for every price series.", "quantifier": "all price series with NaN, windows >= 2, num_std, lengths below 2^31", "why_tests_cant": "quantifies over all price histories and windows; the test compares ordering on one random series with a tolerance.", "anchors": ["src/wax/flax/examples/transform_compositions.py:bollinger_bands"]}
{"id": "C105", "title": "MACD example", "statement": "macd_indicator returns the difference of the exponential moving averages of the two periods, as signal the average of period signal_period of all the MACD values so far, and as histogram their difference, NaN before the first valid price.  On constant prices the lines are 0; scaling and shifting the prices scales the lines; with fast_period <= slow_period the MACD is >= 0 when the prices seen never fall and <= 0 when they never rise.", "quantifier": "all price series with NaN, all periods >= 2", "why_tests_cant": "equivariance and the sign in a trend are statements on all series; the test only checks that macd - signal = histogram on a few steps.", "anchors": ["src/wax/flax/examples/transform_compositions.py:macd_indicator"]}
{"id": "C106", "title": "Event-driven breakout detector example", "statement": "volume_breakout_detector returns the report computed at the last input whose volume exceeded 1000 (price, volume, momentum against the mean of the last 20 prices, volatility of their changes, strength, strength > 2), unchanged between such inputs; the prices of the other inputs are recorded all the same, and the first price pads the window.  A flat price is no breakout.  Fails: without any event the fields are NaN and is_breakout is True.", "quantifier": "all series of prices and volumes, lengths below 2^31", "why_tests_cant": "depends on the position of the last event in an unbounded history.", "anchors": ["src/wax/flax/examples/transform_compositions.py:volume_breakout_detector", "src/wax/flax/core/streaming_transforms.py:ConditionalComputation"]}
{"id": "C107", "title": "Regime-aware processor example", "statement": "regime_aware_processor reports as volatility the standard deviation of the last 50 prices (padded with the first, NaN if one is missing) and as regime whether it exceeds the threshold.  Fails: the signal does not depend on the regime: the two EWMA share one parameter and one state, and the alpha used is the one of the branch taken in init, 0.05 for a threshold >= 0, for ever.", "quantifier": "all price series, thresholds, lengths below 2^31", "why_tests_cant": "the statement compares the signal with an average over the whole history; the test only checks which keys are returned.", "anchors": ["src/wax/flax/examples/transform_compositions.py:regime_aware_processor", "src/wax/flax/modules/ewma.py:EWMA.__call__"]}
{"id": "C108", "title": "Complete trading system example", "statement": "complete_trading_system returns a final position in [-0.1, 0.1] and signals in [-1, 1], or NaN, whatever the inputs, NaN and infinities included.  For positive prices every output is given by its formula from the averages and the deviation of the prices seen, the clipping never acts, and the volume only selects (above 1200) which of two averages, both updated at each step, gives the momentum.  Fails: a flat market gives no position: it gives a short one, tanh(-1/2)/30.", "quantifier": "all sequences of prices and volumes", "why_tests_cant": "bounds over all inputs, including the non-finite ones, and all histories.", "anchors": ["src/wax/flax/examples/transform_compositions.py:complete_trading_system"]}
{"id": "C109", "title": "Scanned examples", "statement": "adaptive_position_sizing.scan_apply gives, for each signal, 2% of the signal limited to [-1, 1]; an empty sequence is refused.  Fails: cumulative_returns_with_reset accumulates: each output is the logarithm of its own price plus 1e-8 (NaN below), and the reset condition has no effect.", "quantifier": "all sequences of signals and prices", "why_tests_cant": "a statement on every element of every sequence.", "anchors": ["src/wax/flax/examples/transform_compositions.py:cumulative_returns_with_reset", "src/wax/flax/examples/transform_compositions.py:adaptive_position_sizing"]}
{"id": "C110", "title": "Rounding error of EWMA does not accumulate", "statement": "With every operation rounded (unit roundoff u, overflow threshold far away), each output of EWMA with adjust True or False on missing or bounded observations (|x| <= X) is missing exactly when the exactly computed one is, and otherwise within 80 u (1 + com)^2 X of it, whatever the length of the series and the pattern of missing values; for float32 with com < 256 and float64 with com < 2^23.  Fails: the average stays between the smallest and the largest observation: in float32 with com = 4 the average of 3, 3 is 3 + 2^-22.", "quantifier": "all series of any length, configurations and rounding modes within the stated ranges", "why_tests_cant": "a test compares two floating point programs on short series; a bound independent of the length is a statement on all series.", "anchors": ["src/wax/modules/ewma.py:EWMA.__call__"]}
{"id": "C111", "title": "EWMVar is never negative in floating point", "statement": "With every operation rounded, whatever the missing values, infinities and overflows, no output of EWMVar is negative (in each adjust mode; adjust=True with a power function not above its square, such as a correctly rounded one, and com small against 1/sqrt(u)).", "quantifier": "all inputs, lengths, modes, com; float32 for com < 256", "why_tests_cant": "a negative value would appear only at specific rounding patterns.", "anchors": ["src/wax/modules/ewmvar.py:EWMVar.__call__"]}
{"id": "C112", "title": "Rounding of Diff, PctChange and RollingMean", "statement": "With every operation rounded, Diff gives the correctly rounded difference; PctChange gives the same missing and infinite values as exact arithmetic and otherwise an error at most 3u(1 + |change|) (plus 3 underflows); RollingMean on observations bounded by X gives the same missing values and an error at most 3(horizon+1) u X (plus 3 underflows), at every step of a series of any length.", "quantifier": "all series, horizons with 100 horizon u <= 1, rounding modes", "why_tests_cant": "error bounds over all inputs and lengths.", "anchors": ["src/wax/modules/diff.py:Diff", "src/wax/modules/pct_change.py:PctChange", "src/wax/modules/rolling_mean.py:RollingMean"]}
{"id": "C113", "title": "The variances of EWMCov can be negative in floating point", "statement": "EWMCov(x, x) computes mean(x x) - mean(x)^2.  Fails: its diagonal is non negative: in float32 with com = 4 the variance of the constant series 3, 3 is 0, then -2^-20 (in exact arithmetic it is the weighted variance, C24).", "quantifier": "one series refutes it; the model with exact arithmetic is that of C24 for all series", "why_tests_cant": "depends on the rounding of each operation.", "anchors": ["src/wax/modules/ewmcov.py:EWMCov.__call__"]}
{"id": "C114", "title": "EWMVar is the diagonal of EWMCov", "statement": "EWMCov(x, x) and EWMVar with the same com and adjust agree: the i-th diagonal entry is EWMVar of the i-th column at every step where min_periods observations were made, and is missing otherwise, provided missing values do not age the weights (ignore_na, or no missing value after the first observation).", "quantifier": "all matrices of observations and missing values, com >= 0, adjust modes, min_periods, steps", "why_tests_cant": "two algorithms (a recursion on the variance, a difference of averages) that must agree on all series.", "anchors": ["src/wax/modules/ewmvar.py:EWMVar.__call__", "src/wax/modules/ewmcov.py:EWMCov.__call__"]}
{"id": "C115", "title": "EWMA forgets its past geometrically", "statement": "Two runs of EWMA with missing values at the same steps, equal after step s, differ at step t by at most (com/(1+com))^n of their difference at s, n the observations made in between; once the observations lie in an interval the distance of the average to it decays at that rate; on an eventually constant series the average converges to the constant, uniformly over the past.  For every adjust mode, ignore_na, min_periods and initial_value.", "quantifier": "all series and configurations with com >= 0, all s <= t", "why_tests_cant": "asymptotic statement on all histories.", "anchors": ["src/wax/modules/ewma.py:EWMA.__call__"]}
{"id": "C116", "title": "Lags add up, Diff sums back, PctChange compounds", "statement": "Lag(a) followed by Lag(b) is Lag(a+b); the series is its first value plus the running sum of Diff(1); the forward filled series is its first value times the running product of 1 + PctChange(1).", "quantifier": "all series, lags, fill values", "why_tests_cant": "algebraic laws over all series and lengths.", "anchors": ["src/wax/modules/lag.py:Lag", "src/wax/modules/diff.py:Diff", "src/wax/modules/pct_change.py:PctChange", "src/wax/modules/ffill.py:Ffill"]}
{"id": "C117", "title": "Stable ARMA processes stay bounded and forget", "statement": "When the absolute values of the autoregressive coefficients sum to A < 1, innovations bounded by E give outputs bounded by (1 + |beta|) E / (1 - A) at every step, and runs whose innovations agree after step s differ by at most A^n (1 + |beta|) D / (1 - A) after s + q + n p steps.", "quantifier": "all coefficients, orders, innovations and lengths", "why_tests_cant": "bounds over all lengths.", "anchors": ["src/wax/modules/arma.py:ARMA.__call__"]}
{"id": "C118", "title": "Newton updates stay bounded whatever the gradients", "statement": "scale_by_newton(eps) maps each gradient g to an update u with 0 <= g.u < 1 and |u|^2 <= 1/(4 eps); along any direction x the squared updates sum to at most |x|^2/eps, in total to at most n/eps, and the inverse matrix of the state only decreases.", "quantifier": "all dimensions, sequences of gradients of any length, eps > 0", "why_tests_cant": "worst case over all gradient sequences.", "anchors": ["src/wax/optim/newton.py:scale_by_newton"]}
{"id": "C119", "title": "Regret of the online Newton step", "statement": "The iterates x - lr u satisfy the exact regret identity of the online Newton step for any comparison point; on losses with f(x) - f(z) <= g.(x-z) - beta/2 (g.(x-z))^2 and lr = 1/beta the cumulated loss exceeds that of z by at most beta eps |x0-z|^2/2 plus a term at most sqrt(T G^2 n/eps)/(2 beta), and also at most n/(2 beta) ln(1 + T G^2/(n eps)): the regret is logarithmic in the number of steps.", "quantifier": "all losses, gradients, comparison points, horizons", "why_tests_cant": "a guarantee over all loss sequences.", "anchors": ["src/wax/optim/newton.py:scale_by_newton", "src/wax/optim/newton.py:newton"]}
{"id": "C120", "title": "Regret of OnlineOptimizer with sgd", "statement": "With sgd(lr), subgradients of squared norm at most G2 and a projection that brings no point further from z, the losses reported by OnlineOptimizer over T steps exceed those of the constant parameters z by at most |v0 - z|^2/(2 lr) + lr G2 T/2, whatever the model state, the split of the parameters in trainable and frozen, and the regularization.", "quantifier": "all models, losses, data, projections, T", "why_tests_cant": "a guarantee over all data sequences.", "anchors": ["src/wax/modules/online_optimizer.py:OnlineOptimizer.__call__"]}
{"id": "C121", "title": "Texts and dates of a dataset reach the module", "statement": "get_dataset_schema gives an encoder to each array of texts or dates and to nothing else, and raises exactly when a text has no dimension; with check=True it also refuses dates of another dimension than 1, without entry or with NaT.  Along the local time a module reads at step t the code of the t-th text (the number of distinct texts before it, so that codes are distinct and ordered), the two words of the t-th date, or the t-th row of numbers; along another time axis the last one strictly before the local time (since the previous step without forward fill), and -99999 or the words of 1970-01-01 when there is none.  A matrix of texts is read entry by entry, not row by row.  A number without dimension is read at each step; a vector of texts without time is read at the positions min(t*j, m-1).  Dates of another dimension than 1, scalar texts, objects and buffered dates (buffers of one or two entries excepted) raise; datasets of readable variables do not.", "quantifier": "all datasets, values, shapes, options, steps", "why_tests_cant": "the encoders are fitted on each dataset; the statement ranges over all of them.", "anchors": ["src/wax/stream.py:Stream.get_dataset_schema", "src/wax/stream.py:Stream.prepare", "src/wax/stream.py:access_data", "src/wax/encode.py:string_encoder", "src/wax/encode.py:datetime64_encoder", "src/wax/encode.py:encode_dataset"]}
{"id": "C122", "title": "The signal processor of the streaming demo", "statement": "streaming_signal_processor outputs the price, the last ten prices (zeros before), the exponential averages of alpha 0.3 and 0.1, the average (alpha 0.2) of the distance of each price to the slow average, their difference as momentum, and tanh(momentum / (volatility + 1e-6)).  Once a price is known the signal is in (-1, 1) with the sign of the momentum, before that everything is NaN; constant prices give 0, rising prices a nonnegative and falling prices a nonpositive signal; adding a constant to all prices changes neither momentum, volatility nor signal.", "quantifier": "all price histories, prices may be missing", "why_tests_cant": "the averages accumulate over the whole history; tests check the shape of a few outputs.", "anchors": ["src/wax/flax/examples/streaming_demo.py:streaming_signal_processor"]}
{"id": "C123", "title": "The portfolio of the streaming demo keeps the assets apart", "statement": "When every dict of prices lists the same assets in the same order, portfolio_manager gives each asset the outputs of its own streaming_signal_processor on its own prices (contrary to the comment in the code).  The state belongs to the position in the dict, not to the name: the same prices in another order mix the assets up, and an asset more than at init raises.", "quantifier": "all portfolios, assets and histories", "why_tests_cant": "flax names modules by order of creation; a test with one order never sees it.", "anchors": ["src/wax/flax/examples/streaming_demo.py:portfolio_manager"]}
{"id": "C124", "title": "The scan demos: loop and scan agree", "statement": "streaming_processor and simple_processor output the exponential average of the prices and the mean (and deviation) of the last 5 (3) prices; process_with_jax_scan returns the results and final state of process_with_for_loop for every sequence.  The mean counts the zeros the buffer starts with, so it is not a mean of prices until it is full.", "quantifier": "all price sequences and initial states", "why_tests_cant": "one sequence of ten prices is compared in the demo.", "anchors": ["src/wax/flax/examples/jax_scan_compatibility.py:streaming_processor", "src/wax/flax/examples/jax_scan_compatibility.py:process_with_for_loop", "src/wax/flax/examples/jax_scan_compatibility.py:process_with_jax_scan", "src/wax/flax/examples/scan_validation.py:simple_processor"]}
{"id": "C125", "title": "The conditional computation demo", "statement": "always_updating_baseline outputs the exponential average, the deviation of the last five prices (100 before) and a signal in (-1, 1) which is missing exactly when one of the last five prices is.  Initialising an update_on_event function raises exactly when its output contains a Python object: high_price_signal and volume_based_signal, which return a Python True, therefore raise for every input.  A function returning arrays only outputs at every step what the always updated function gave at the last event, NaN if there was none.", "quantifier": "all prices, volumes, events and functions", "why_tests_cant": "the demo has no test; the hold property ranges over all histories.", "anchors": ["src/wax/flax/examples/conditional_computation_demo.py:high_price_signal", "src/wax/flax/examples/conditional_computation_demo.py:volume_based_signal", "src/wax/flax/examples/conditional_computation_demo.py:always_updating_baseline", "src/wax/flax/core/streaming_transforms.py:ConditionalComputation", "src/wax/flax/core/streaming_transforms.py:update_on_event"]}
{"id": "C126", "title": "A dataset streamed by its time axes", "statement": "split_dataset_from_time_dims gives one dataset per time axis with its times and exactly the variables along it, drops the variables without time, and raises exactly when there is no time axis or a variable has two.  Streaming these datasets and merging them gives one item per local time, with the entries of the local variables at that time and, for each other axis, the entries of all its variables at its latest time before the local one (ffill), at its latest time since the previous local one (no ffill, else the default values), or the window of the latest ones with the very first one counted twice (buffer); with time as first dimension nothing raises.  Fails when time is not the first dimension of a variable: nothing is raised and the first observation holds all the times of the first entry along the other dimension, future ones included.", "quantifier": "all datasets, axes, configurations of the other axes and local times", "why_tests_cant": "it relates every variable, time axis and local time; the tests stream datasets with time first.", "anchors": ["src/wax/stream.py:get_dataset_time_coords", "src/wax/stream.py:split_dataset_from_time_dims", "src/wax/stream.py:np_select_item", "src/wax/stream.py:start_dataset_stream", "src/wax/stream.py:start_dataset_streams", "src/wax/stream.py:merge"]}
{"id": "C127", "title": "Comparing trees of arrays", "statement": "Between trees whose leaves have the same shapes, assert_tree_all_close passes exactly when the structures have the same text (if asked for) and every leaf agrees with its counterpart: same class and dtype, equal integers, floats within 1e-8 + 1e-5 |y|, no NaN.  So a tree agrees with itself exactly when it has no NaN; get_unique_dtype succeeds exactly when there are leaves and all have one dtype; dict_map keeps the keys.  Fails: shapes are not compared (n equal entries agree with one, an empty array with any entry), the relation is not symmetric, and a tree with '_test' in a key does not agree with itself when structures are compared.", "quantifier": "all trees, leaves, shapes and values", "why_tests_cant": "it is the meaning of the helper the tests themselves rely on.", "anchors": ["src/wax/testing.py:assert_tree_all_close", "src/wax/utils.py:dict_map", "src/wax/utils.py:get_unique_dtype"]}
{"id": "C128", "title": "Covariances under affine maps", "statement": "On vectors entirely observed or entirely missing, EWMCov(Ax + a, By + b) = A EWMCov(x, y) B^T, defined at the same steps; EWMVar of a portfolio c.x is the quadratic form c^T EWMCov(x, x) c (same com and adjust, missing values not ageing the weights); correlations lie in [-1, 1].  Fails when single components are missing: a covariance of -1 between variances 0 and 1, a portfolio with negative variance.", "quantifier": "all matrices, portfolios, dimensions, series and missing steps, com >= 0", "why_tests_cant": "it relates the modules on every series and its images by every affine map.", "anchors": ["src/wax/modules/ewmcov.py:EWMCov", "src/wax/modules/ewmvar.py:EWMVar"]}
{"id": "C129", "title": "The variance forgets the past", "statement": "EWMVar is the average squared distance to any point c minus the squared distance of the average to c (averages by EWMA with ignore_na).  Once the observations stay within r of c it is at most r^2 plus (com/(1+com))^n times what the past left, n the observations made since; in particular on a series that becomes constant the variance decays to 0 at that rate, whatever the past.", "quantifier": "all series with missing values, adjust modes, com >= 0, points c and steps s <= t", "why_tests_cant": "it bounds the effect of every past on every future.", "anchors": ["src/wax/modules/ewmvar.py:EWMVar", "src/wax/modules/ewma.py:EWMA"]}
{"id": "C130", "title": "The DOT document of a graph can be read back", "statement": "The DOT content of ComputationGraphRenderer, read by the grammar of DOT, declares exactly the nodes and the edges in order, each node with its label, color, style and shape, edges with the attributes that are not default, provided the texts hold no double quote and no unpaired final backslash: nothing is escaped.  export_graph_to_dot of a function whose modules have plain names is readable exactly when the example input has no dictionary inside a dictionary: the shape shown in the label then contains double quotes and the document is rejected.", "quantifier": "all graphs, options, names, nested parameters and example inputs", "why_tests_cant": "it ranges over every graph and every text, and needs a reader of the language.", "anchors": ["src/wax/flax/visualization/computation_graph.py:ComputationGraphRenderer._generate_dot_content", "src/wax/flax/visualization/computation_graph.py:ComputationGraphRenderer._create_node_label", "src/wax/flax/visualization/computation_graph.py:ComputationGraphRenderer._get_shape", "src/wax/flax/visualization/computation_graph.py:export_graph_to_dot", "src/wax/flax/visualization/computation_graph.py:PipelineNode.__post_init__"]}
{"id": "C131", "title": "RollingMean is linear, stays within its window and telescopes on differences", "statement": "RollingMean of a x + b is a times RollingMean(x) plus b whatever is missing; of a sum of two series missing at the same steps, the sum; each output is missing or lies within any bounds of the observations of its window; of the output of Diff it is (x_t - x_(t-h))/h once h differences are available.", "quantifier": "all series with missing values, horizons, min_periods, a and b", "why_tests_cant": "it relates the outputs for every pair of inputs.", "anchors": ["src/wax/modules/rolling_mean.py:RollingMean.__call__", "src/wax/modules/diff.py:Diff.__call__"]}
{"id": "C132", "title": "Diff ignores shifts and PctChange ignores units", "statement": "Diff of a x + b is a times Diff of x; PctChange of c x is PctChange of x for every positive c, zeros and missing values included.", "quantifier": "all series with missing values and all constants", "why_tests_cant": "it relates the outputs for every pair of inputs.", "anchors": ["src/wax/modules/diff.py:Diff.__call__", "src/wax/modules/pct_change.py:PctChange.__call__"]}
{"id": "C133", "title": "Modules with trivial parameters are the modules a user expects", "statement": "EWMA with com 0 (alpha 1) is Ffill for every adjust mode and ignore_na; EWMVar with com 0 is always 0; RollingMean of horizon 1 with min_periods at most 1, Lag 0 and Buffer 1 return their input; UpdateOnEvent with an event at every step is the wrapped module.", "quantifier": "all series, modes, wrapped modules and keys", "why_tests_cant": "it must hold for every history.", "anchors": ["src/wax/modules/ewma.py:EWMA.__call__", "src/wax/modules/ewmvar.py:EWMVar.__call__", "src/wax/modules/rolling_mean.py:RollingMean.__call__", "src/wax/modules/lag.py:Lag.__call__", "src/wax/modules/buffer.py:Buffer.__call__", "src/wax/modules/update_on_event.py:UpdateOnEvent.__call__"]}
{"id": "C134", "title": "OHLC bars of consecutive bins merge into the bar of their union", "statement": "Dropping the reset between two bins yields at the end the bar with the first open, the larger high, the smaller low and the last close of the two, a bin without observation being ignored.", "quantifier": "all histories, bins and missing values", "why_tests_cant": "it ranges over every history and every way of cutting it.", "anchors": ["src/wax/modules/ohlc.py:OHLC.__call__"]}
{"id": "C135", "title": "ProgressBar shows the number of steps of the unroll and changes nothing else", "statement": "After gym_unroll with a ProgressBar among the callbacks the bar is closed, its count is the number of env.step calls, its total len(env) after the reset (none if it raises); its on_step never asks to stop; over a HaikuEnv with the bar alone the count is the number of items of the generator. A bar that was used once shows nothing of later unrolls, and `with ProgressBar() as bar` binds None.", "quantifier": "all agents, environments, other callbacks, histories and numbers of steps", "why_tests_cant": "it must hold for every environment, history and order of the callbacks.", "anchors": ["src/wax/gym/callbacks/progressbar.py:ProgressBar", "src/wax/gym/callbacks/callbacks.py:Callback", "src/wax/unroll.py:gym_unroll"]}
{"id": "C136", "title": "tree_lag delays a nested structure leaf by leaf and keeps its shape", "statement": "tree_lag(shift)(*args) returns the tuple of arguments of shift steps before, in the same nested structure (and the filling values in the structure of the first arguments before that), also for one argument; more generally a module mapped over a structure gives each leaf what the module alone gives on the values of that leaf.", "quantifier": "all structures, shifts, values, modules and lengths", "why_tests_cant": "it must hold for every nested structure and history.", "anchors": ["src/wax/modules/lag.py:tree_lag", "src/wax/modules/lag.py:Lag.__call__"]}
{"id": "C137", "title": "Transformed flax modules thread exactly their non-parameter collections", "statement": "split_variables undoes combine_variables for a state without params (a state holding params overrides the parameters passed); over any sequence of calls of a transformed flax module each call sees the parameters passed and the collections left by the previous call, updates of params by the module are dropped; make_streaming_compatible computes the same outputs as create_streaming_module_wrapper, on nested variables and folded keys.", "quantifier": "all modules, parameters, states, inputs and numbers of calls", "why_tests_cant": "it must hold for every module and history.", "anchors": ["src/wax/flax/core/transform.py:flax_transform_with_state", "src/wax/flax/core/transform.py:combine_variables", "src/wax/flax/core/transform.py:split_variables", "src/wax/flax/core/state_utils.py:make_streaming_compatible", "src/wax/flax/core/state_utils.py:create_streaming_module_wrapper"]}
{"id": "C138", "title": "UpdateOnEvent freezes exactly the states that belong to the wrapped module by name", "statement": "Without an event UpdateOnEvent puts back every state of the wrapped module, of modules named below it and of modules it created, and leaves every other state as the call left it; with an event it changes nothing but its memory of the output; if the wrapped module writes only its own states, a call without event changes nothing at all, and over any history outputs and states are those of a wrapper around a module that owns its state. Fails for modules handed to the wrapped one from outside: in UpdateOnEvent(UpdateOnEvent(m)) the state of m moves at every event of the inner wrapper, whatever the outer one sees.", "quantifier": "all frames, names, wrapped modules, events and histories", "why_tests_cant": "it must hold for every set of module names and every history of events.", "anchors": ["src/wax/modules/update_on_event.py:set_params_or_state_dict", "src/wax/modules/update_on_event.py:set_state_from_dict", "src/wax/modules/update_on_event.py:UpdateOnEvent.__call__"]}
{"id": "C139", "title": "The ensemble predictor of the examples learns its volume, not its target", "statement": "At each call ensemble_predictor returns the half sum of 1.05 times the exponential average (alpha 0.2) of the prices and 0.001 times that (alpha 0.15) of the volumes, with these four numbers as diagnostics, and as loss the squared difference between that prediction times a scale and the volume of the call; the scale starts at 1 and follows gradient descent with rate 0.01 on that loss over all earlier calls, init included. Fails as a supervised learner: the target argument has no effect whatever. With constant inputs the loss at call t is (1-p^2/50)^(2(t+1)) (p-v)^2, so it vanishes for predictions p between -10 and 10 and grows without bound for larger ones. After one missing volume every later loss is NaN.", "quantifier": "all prices, volumes and targets, missing or not, and all numbers of calls", "why_tests_cant": "it must hold at every call of every history, and in the limit.", "anchors": ["src/wax/flax/examples/transform_compositions.py:ensemble_predictor", "src/wax/flax/examples/transform_compositions.py:prediction_loss", "src/wax/flax/core/streaming_transforms.py:StreamingOptimizer.__call__", "src/wax/flax/core/streaming_transforms.py:streaming_optimizer"]}
{"id": "C140", "title": "The adaptive predictor of the examples learns slowly and forgets nothing missing", "statement": "At each call adaptive_price_predictor returns 1.1 times the exponential average (alpha 0.1) of the features seen, whatever the targets, and as loss the squared difference between that prediction times a scale and the target; the scale starts at 1 and each call, init included, moves it by 0.001 times the exponential average of the slopes so far over the root of that of their squares (Adam). No call moves the scale by more than 0.01, whatever the data, so after t calls it is within t/100 of 1. After one missing target every later loss is NaN, while the predictions go on.", "quantifier": "all features and targets, missing or not, and all numbers of calls", "why_tests_cant": "it must hold at every call of every history.", "anchors": ["src/wax/flax/examples/transform_compositions.py:adaptive_price_predictor", "src/wax/flax/examples/transform_compositions.py:prediction_loss", "src/wax/flax/core/streaming_transforms.py:StreamingOptimizer.__call__", "src/wax/flax/core/streaming_transforms.py:streaming_optimizer"]}
{"id": "C141", "title": "Masked statistics are statistics", "statement": "For finite data and a mask that selects at least one value: MaskMean lies between the least and the greatest selected value and follows changes of unit and origin; the variance under MaskStd is zero exactly if all selected values are equal, ignores the origin and follows the square of the unit; what MaskNormalize returns has a standard deviation sqrt(v/(eps+v)), at most 1, and 1 without regularisation; in another unit it returns the same values up to the sign of the unit, with the regularisation divided by its square; and the mean over the union of two disjoint masks is the average of the two means weighted by the numbers of selected values.", "quantifier": "all shapes, masks, finite data, units, origins and regularisations", "why_tests_cant": "it relates the results on infinitely many inputs to one another.", "anchors": ["src/wax/modules/mask_mean.py:MaskMean.__call__", "src/wax/modules/mask_std.py:MaskStd.__call__", "src/wax/modules/mask_normalize.py:MaskNormalize.__call__"]}
{"id": "C142", "title": "Merging streams whose times are out of order", "statement": "With no hypothesis on the order of the times of any stream, the item a merge yields at a local time shows, of each secondary generator, the observations in front of the first one that is not strictly before the furthest (embedded) local time so far: the last of them, or the window of the last ones, and without ffill only if some became readable at this local time. So an observation hides all observations behind it until a local time passes it, however old these are. Fails: that the value shown is the latest of the past, or that the times shown never go backwards, when the times of a secondary stream are out of order.", "quantifier": "all local and secondary streams with times in any order", "why_tests_cant": "all interleavings and all orders must be covered; tests use sorted calendars.", "anchors": ["src/wax/stream.py:Stream.merge", "src/wax/stream.py:timestamp_is_before_local"]}
{"id": "C143", "title": "Rounding errors of EWMCov do not accumulate", "statement": "In any binary format with unit roundoff u (instances: IEEE single and double precision), for observations of absolute value at most X, some possibly missing, every entry of the covariance matrix EWMCov returns at any time is missing exactly when the exactly computed entry is, and otherwise within 400 u (1+com)^2 X^2 of it, whatever the length of the series (adjust True or False, assume_centered or not, no initial value). So a variance on the diagonal can be negative (C113), but by no more than that. Exchanging x and y transposes the computed matrix exactly, so with x = y it is symmetric, whatever the rounding.", "quantifier": "all formats, coms, sizes, series of bounded observations with any missing values, all times", "why_tests_cant": "the error after n steps must be bounded for every n and every rounding pattern.", "anchors": ["src/wax/modules/ewmcov.py:EWMCov.__call__", "src/wax/modules/ewma.py:EWMA.__call__"]}
{"id": "C144", "title": "Rounding errors of EWMVar do not accumulate", "statement": "In any binary format with unit roundoff u (instances: IEEE single and double precision), for observations of absolute value at most X, some possibly missing, the variance EWMVar returns at any time is missing exactly when the exactly computed one is, and otherwise within 1700 u (1+com) X^2 of it, for every series and for adjust True, False and 'linear', although the number of observations is itself a float that stops growing at 2^24 (single) or 2^53 (double), and the power function only has an error of two roundoffs.", "quantifier": "all formats, coms, adjustment modes, series of bounded observations with any missing values, all times", "why_tests_cant": "the error after n steps must be bounded for every n and every rounding pattern.", "anchors": ["src/wax/modules/ewmvar.py:EWMVar.__call__"]}
{"id": "C145", "title": "The compiled exponential average in floating point", "statement": "In any binary format with unit roundoff u (instance: IEEE double precision), for tables of values of absolute value at most X, some possibly missing, every cell that the numba exponential average returns is missing exactly when the exactly computed one is, and otherwise within 80 u (1+com)^2 X of it, whatever the number of rows, for adjust True, False and 'linear' (linear: as long as no missing value decays the weights, as in C22). A column whose observations are all equal comes back bit for bit, whatever the rounding, because the update is skipped when the average equals the observation; the jax module has no such shortcut, so the two agree only up to 160 u (1+com)^2 X and not bit for bit (single precision, com = 4, series 3, 3: 3, 3 against 3, 3 + 2^-22).", "quantifier": "all formats, coms, adjustment modes, tables of bounded observations with any missing values, all rows and columns", "why_tests_cant": "the error after n rows must be bounded for every n and every rounding pattern; tests compare a few tables with a tolerance.", "anchors": ["src/wax/numba/ewma_numba.py:ewma", "src/wax/numba/ewma_numba.py:numba_apply", "src/wax/modules/ewma.py:EWMA.__call__"]}
{"id": "C146", "title": "Rounding errors of EWMA with adjust='linear' do not accumulate", "statement": "In any binary format with unit roundoff u (instance: IEEE single precision), for observations of absolute value at most X, EWMA with adjust='linear' and a representable com returns at any time a value that is missing exactly when the exactly computed one is, and otherwise within 80 u (1+com)^2 X of it, whatever the length of the series, as long as no missing value decays the weights (ignore_na, or nothing missing after the first observation).", "quantifier": "all formats, representable coms, series of bounded observations, all times", "why_tests_cant": "the error after n steps must be bounded for every n and every rounding pattern.", "anchors": ["src/wax/modules/ewma.py:EWMA.__call__"]}
{"id": "C147", "title": "Nested graph documents for Cytoscape and D3", "statement": "For every computation graph with usual ids, with or without clusters, the Cytoscape document has one node element per node of the hierarchy, in order, with its name, class and number of ancestors; the parent of an element is an element one level higher; there is exactly one edge from each parent to each of its children, named parent_child. The D3 document has the same nodes, and each node but the roots is the target of exactly one link, from its parent. Nodes have the color configured for their class, grey otherwise (so clusters and unknown classes are grey and the input and output colors are never used). Cytoscape wants the ids of all elements to be distinct: they are exactly when the names of the edges between nodes do not clash with a node id or with each other, which clusters never cause. Refuted in general: the modules Norm, Norm_0, Norm_Norm_0 give an edge the id of a node.", "quantifier": "all graphs (any ids that are distinct, not empty and not starting with cluster_), all cluster sizes and configurations", "why_tests_cant": "whether two generated ids can collide depends on all the names at once; tests draw a few small graphs.", "anchors": ["src/wax/flax/visualization/nested_graph_viz.py:CytoscapeNestedRenderer._convert_to_cytoscape_format", "src/wax/flax/visualization/nested_graph_viz.py:D3NestedRenderer._convert_to_d3_format", "src/wax/flax/visualization/nested_graph_viz.py:NestedGraphConfig"]}
{"id": "C148", "title": "Nesting of the Graphviz drawing", "statement": "For every computation graph with usual ids, the Graphviz drawing of its hierarchy is finite, draws each node exactly once, and draws it inside exactly the clusters of its ancestors (and of itself if it has children), the outermost first; the cluster of a node bears its name and the color of its level, cycling through the configured colors; a node bears its name, its parameters on a second line when there are any and metadata are wanted, the color of its class, and is a box exactly when its class is module.", "quantifier": "all graphs with usual ids, all depths of nesting, configurations and parameter texts", "why_tests_cant": "nesting must be right at every depth; tests render small hierarchies.", "anchors": ["src/wax/flax/visualization/nested_graph_viz.py:GraphvizNestedRenderer.render_hierarchical_graph", "src/wax/flax/visualization/nested_graph_viz.py:_render_hierarchy_recursive", "src/wax/flax/visualization/nested_graph_viz.py:_add_node_to_graph", "src/wax/flax/visualization/nested_graph_viz.py:_add_hierarchy_edges"]}
{"id": "C149", "title": "Flax and Haiku modules agree bit for bit in floating point", "statement": "The Flax EWMA returns the result, effective com and count of the Haiku EWMA bit for bit, whatever the rounding of the operations, as long as no missing input directly follows an average which overflowed (and, without a minimal number of observations, only then: refuted after an overflow, where Haiku returns the largest float and Flax infinity); in particular on all series in the domain of the error bounds, in single and double precision. EWMVar, Diff and PctChange with forward filling agree bit for bit on every series; RollingMean too, because the ring buffer is summed in the order of arrival; EWMCov on finite inputs with the same com. The com which the Flax EWMCov recomputes from alpha is within ten rounding errors of 1 + com of the one given, but not always equal to it (refuted: 2^-60 becomes 0).", "quantifier": "all series, configurations, roundings of the operations, overflows", "why_tests_cant": "equality of every bit depends on the order of all operations and on every rounding; tests compare a few outputs up to a tolerance.", "anchors": ["src/wax/flax/modules/ewma.py:EWMA.__call__", "src/wax/flax/modules/ewmvar.py:EWMVar.__call__", "src/wax/flax/modules/ewmcov.py:EWMCov.setup", "src/wax/flax/modules/ewmcov.py:EWMCov.__call__", "src/wax/flax/modules/rolling_mean.py:RollingMean.__call__", "src/wax/flax/modules/diff.py:Diff.__call__", "src/wax/flax/modules/pct_change.py:PctChange.__call__", "src/wax/modules/ewma.py:EWMA.__call__"]}
{"id": "C150", "title": "Dashboard panels and heatmaps draw the data recorded", "statement": "A heatmap shows each entry of the array once, row i column j at (j, i), on a scale from the least entry to the greatest (refuted for an array with a NaN: both limits are NaN; an array without entries raises). The time series panel has one curve per module with a number among the last 200 points, in the order of first appearance, with all its numbers in order (refuted: the eleventh curve has the color of the first). The distribution panel is the histogram of the numbers among the last 500 points: 30 cells of equal width from the least to the greatest, each value counted once, in the cell it is in. Refuted: values which are arrays - as all values of jax are - appear in neither panel. The performance panel covers the last 51 steps; refuted: its times, and the correlation panel, are random numbers which do not depend on anything recorded. The line plots created are all kept, under the different names plot_0, plot_1, ...", "quantifier": "all arrays, all histories of records and steps, all values, all random numbers", "why_tests_cant": "the panels depend on the whole history recorded and on where each value falls between the edges; tests check that a figure is returned.", "anchors": ["src/wax/flax/visualization/bokeh_viz.py:BokehHeatmapVisualizer.create_state_heatmap", "src/wax/flax/visualization/bokeh_viz.py:BokehMultiPanelDashboard._create_time_series_panel", "src/wax/flax/visualization/bokeh_viz.py:BokehMultiPanelDashboard._create_distribution_panel", "src/wax/flax/visualization/bokeh_viz.py:BokehMultiPanelDashboard._create_performance_panel", "src/wax/flax/visualization/bokeh_viz.py:BokehMultiPanelDashboard._create_correlation_panel", "src/wax/flax/visualization/bokeh_viz.py:BokehStreamingPlot.create_streaming_line_plot"]}
{"id": "C151", "title": "The interactive pipeline graph shows the nodes and the connections of the graph", "statement": "The figure has one marker per node, at its place in the layout, and one line per pair of linked nodes however often they are linked; it fails exactly when an edge ends at something which is not a node. Refuted: for every analyzed function there is no line at all and all nodes have the same color; and the color, labelled node depth, is the number of nodes linked to: along a chain it is 1 for all nodes but the last.", "quantifier": "all graphs, layouts and functions", "why_tests_cant": "the property is about every graph; tests check that a figure is returned.", "anchors": ["src/wax/flax/visualization/jupyter_viz.py:InteractivePipelineGraph.create_pipeline_graph", "src/wax/flax/visualization/computation_graph.py:ComputationGraphRenderer.analyze_streaming_function"]}
{"id": "C152", "title": "The profiler's summary and performance report", "statement": "get_summary gives the steps of the whole session, the total, mean, median, maximum, minimum and sample deviation of the times of the last max_history calls, the maximum, mean, rises and minimum over maximum of their memory readings, the bottlenecks of the whole session and the compilations among the calls kept. create_performance_report shows these numbers once each, the advice numbered from 1, bottlenecks and compilations when there are some. Refuted: steps times average time is not the total once calls were dropped; the memory used before the session counts as allocated in it (a process whose memory never changes has allocated all of it); the report of a session without metrics raises KeyError; without bottlenecks the compilations are listed under memory statistics.", "quantifier": "all sequences of recorded calls, thresholds, history sizes and durations", "why_tests_cant": "the summary depends on the whole history of calls and on which of them were dropped; tests check a few keys after a few calls.", "anchors": ["src/wax/flax/debug/profiler.py:ProfileResult.get_summary", "src/wax/flax/debug/profiler.py:create_performance_report", "src/wax/flax/debug/profiler.py:StreamingProfiler.finalize"]}
{"id": "C153", "title": "The memory tracker's summary, module analysis and report", "statement": "get_memory_summary gives the memory of the last snapshot, the maximum, minimum, average and change from first to last of the snapshots kept, and the number of leaks recorded, critical and high; there is one unless no snapshot was kept. The analysis of a module is that of its own snapshots among those kept. generate_memory_report shows these numbers once each, says there is no leak exactly when none was recorded, and describes the first three critical ones in order. Refuted: the arrays counted are always 0; the total growth is not that of the session but of the window kept; one steady leak is counted again at each snapshot from the fifth.", "quantifier": "all sequences of calls, states, intervals, thresholds, history sizes", "why_tests_cant": "the property ranges over whole histories of snapshots; tests look at one short session.", "anchors": ["src/wax/flax/debug/memory_tracker.py:MemoryTracker.get_memory_summary", "src/wax/flax/debug/memory_tracker.py:MemoryTracker.get_module_memory_analysis", "src/wax/flax/debug/memory_tracker.py:MemoryTracker.generate_memory_report"]}
{"id": "C154", "title": "Streaming data flow plots show the last points recorded", "statement": "After update_plot, the figure created last shows the last max_points points of the attached tracker, whatever was done before: a curve of the numbers and one of the sizes of each module, one row per module and one marker per point at its time in the row of its module, red for inputs, blue for outputs, green for the others, and the flow rates; it stays so until the next update. Creating a plot fails exactly when no tracker is attached. The text plot lists the last ten points in order and counts the modules of the last twenty. Refuted: module_names, data_types and plot_type change nothing at all; a figure never changes once another was created; after clear_history an update leaves the old points; with plotly the four traces never have a point.", "quantifier": "all sequences of recordings, steps, clears, attachments, creations and updates, all orders of sets", "why_tests_cant": "the property ranges over all interleavings of recording, creating and updating; tests create one plot.", "anchors": ["src/wax/flax/visualization/data_flow_visualizer.py:DataFlowVisualizer.create_streaming_plot", "src/wax/flax/visualization/data_flow_visualizer.py:DataFlowVisualizer.update_plot", "src/wax/flax/visualization/data_flow_visualizer.py:DataFlowVisualizer._update_matplotlib_plot", "src/wax/flax/visualization/data_flow_visualizer.py:DataFlowVisualizer._create_text_plot"]}
{"id": "C155", "title": "An analyzer used again answers for the function it is given, and rewrites what it gave before", "statement": "Whatever was analyzed before, each call of analyze_streaming_function, get_hierarchy_summary or visualize_computation_graph returns the hierarchy, the counters or the document of its own function, as a new analyzer would; an unknown backend is an error; every sequence of calls ends. Refuted: a returned dictionary does not stay what it was: after a later call, every dictionary returned before, alone or in a summary, is the hierarchy of the later function, so the total_nodes of an earlier summary is no longer the number of nodes in its own hierarchy.", "quantifier": "all sequences of calls, all functions whose graphs have usual ids, all states of the analyzer, all configurations", "why_tests_cant": "the property ranges over all histories of one analyzer; tests analyze once.", "anchors": ["src/wax/flax/visualization/nested_graph_viz.py:HierarchicalGraphAnalyzer.analyze_streaming_function", "src/wax/flax/visualization/nested_graph_viz.py:NestedGraphVisualizer.get_hierarchy_summary", "src/wax/flax/visualization/nested_graph_viz.py:NestedGraphVisualizer.visualize_computation_graph"]}
{"id": "C156", "title": "flax ApplyMask selects along the axis it is given, on arrays of any rank", "statement": "With axis=0 a mask with the first dimensions of the array keeps the blocks where it is true and puts mask_value in the others; with axis=1 a mask of dimension 1 selects along the second dimension; without axis, and with any negative axis, a mask with the last dimensions of the array selects along them; a mask of the shape of the array selects its entries whatever the axis. The call raises exactly when the completed shape of the mask and that of the array do not broadcast, or the axis is greater than 1; nested structures are masked leaf by leaf. What the haiku module gives with a mask of dimension 1 the flax one gives, and the masks of the flax statistics are those of this module. Refuted: the result does not always have the shape of the input, and shapes for which the haiku module raises are accepted: on a scalar a mask with n entries gives n values.", "quantifier": "all ranks, shapes, masks, values, axes and nested structures", "why_tests_cant": "the property ranges over all shapes that broadcast; tests use a few matrices.", "anchors": ["src/wax/flax/modules/apply_mask.py:ApplyMask.__call__", "src/wax/modules/apply_mask.py:ApplyMask.__call__"]}
{"id": "C157", "title": "The text rendering of a computation graph can be read back", "statement": "When no richer renderer applies, that is matplotlib is missing and the format is neither dot, html nor one that an installed graphviz draws, a computation graph is rendered as text. If names are single words and details fit on one line, a reader of that text finds all nodes in order, with their name and type and with the input shapes and parameters that the options show, and all edges in order with their labels: two graphs with the same text have the same edges and show the same nodes. After any sequence of additions there is one node under each identifier, the last one added under it, and every added edge in order. Refuted: with names of several words two graphs with different edges can have the same text.", "quantifier": "all graphs, names, labels, options, installed libraries, formats and sequences of additions", "why_tests_cant": "the property ranges over all graphs and all texts; tests look for a few substrings in the text of one graph.", "anchors": ["src/wax/flax/visualization/computation_graph.py:ComputationGraphRenderer._render_text", "src/wax/flax/visualization/computation_graph.py:ComputationGraphRenderer.render", "src/wax/flax/visualization/computation_graph.py:ComputationGraphRenderer.add_node", "src/wax/flax/visualization/computation_graph.py:ComputationGraphRenderer.add_edge"]}
{"id": "C158", "title": "The html page of a computation graph shows every node and edge", "statement": "If no name, type, identifier, detail or label contains '<' and no color contains '>', the tags of the page are, in order, those of its head, one box per node with its color, its name in bold and one line for its identifier and for each of the shapes and parameters that the options show, one box per edge, and the end; the texts of those tags are the names, types, details and labelled edges of the renderer, and the headings give the numbers of nodes and edges. Refuted: nothing is escaped; a name can put a script in the page and is then not shown.", "quantifier": "all graphs, options, names, types, details, colors and labels", "why_tests_cant": "the property ranges over all graphs and the whole text of the page; tests look for a few substrings.", "anchors": ["src/wax/flax/visualization/computation_graph.py:ComputationGraphRenderer._render_html", "src/wax/flax/visualization/computation_graph.py:ComputationGraphRenderer._generate_html_content"]}
{"id": "C159", "title": "The matplotlib drawing of a computation graph draws every node and edge", "statement": "Whatever positions the layout chooses, the drawing never fails on a missing position: every node has a box of its color around its position and its name at it, and every edge has an arrow of its color from the position of its source to that of its target, edges added several times and edges to nodes that were never added included. What is laid out are the added nodes and the ends of edges, each once. Refuted: labels of edges are not drawn, so that graphs that differ in their labels have the same drawing.", "quantifier": "all graphs, layouts, positions, names, colors and labels", "why_tests_cant": "the property ranges over all graphs and layouts; tests check that a file is created.", "anchors": ["src/wax/flax/visualization/computation_graph.py:ComputationGraphRenderer._render_matplotlib"]}
