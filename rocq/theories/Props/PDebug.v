(** Property theorems C82-C86: the debugger, its conditions, the three decorators, the profiler and the
    memory tracker of flax.debug.  [lastn n l]: the last [n] elements of [l]. *)
From Coq Require Import String List Bool Arith Lia ZArith Reals Lra.
From Verif Require Import Model.Float Model.FlaxOptim Spec.StreamSpec Spec.DebugSpec
  Proofs.FloatFacts Proofs.FlaxOptimProofs Proofs.DebugProofs Proofs.DebugProofs2 Proofs.DebugProofs7 Proofs.DebugProofs3 Proofs.DebugProofs4 Proofs.DebugProofs5 Proofs.DebugProofs6.
From Verif Require Import Model.Debug.
Import ListNotations.
Local Open Scope list_scope.

(** C82: history, execution times, step numbers and step count of a session; [global_events] stays empty. *)
Theorem C82_records :
  forall {S I O M H : Type} (copy : S -> H) (track_state track_perf : bool) (mx : nat) (ops : list (op S I O M)),
  let items := seen track_perf true 0 [] ops in
    let l := since_clear items in
    let d : debugger S I O M H := session copy ops (new_debugger track_state track_perf mx) in
    d_history d = (if track_state then lastn mx (map (fun x => copy (ob_state x)) l) else []) /\
    d_times d = (if track_perf then flat_map (fun x => match ob_time x with Some t => [t] | None => [] end) l else []) /\
    d_steps d = (if track_perf then flat_map (fun x => match ob_time x with Some t => [ob_step x] | None => [] end) l else []) /\
    d_current d = count_seen items /\ d_globals d = [].
Proof. exact @records_exact. Qed.
Print Assumptions C82_records.

(** C82: a disabled debugger records nothing. *)
Theorem C82_disabled :
  forall {S I O M H : Type} (copy : S -> H) (ops : list (op S I O M)) (d : debugger S I O M H),
  d_enabled d = false -> Forall step_only ops -> session copy ops d = d.
Proof. exact @disabled_nothing. Qed.
Print Assumptions C82_disabled.

(** C82: a hook is triggered at exactly the seen steps its condition accepts, whatever the other hooks. *)
Theorem C82_hook :
  forall {S I O M H : Type} (copy : S -> H) (k : string) (c : condition S I O M) (m : M) (a : action) (mx : nat) (ops : list (op S I O M)) (d : debugger S I O M H),
  Forall (keeps k) ops ->
    let d' := session copy ops (add_hook k (new_hook (Some c) m a mx) d) in
    let l := since_clear (accepted c m (seen (d_track_perf d) (d_enabled d) (d_current d) (d_times d) ops)) in
    exists h, sget k (d_hooks d') = Some h /\ h_hits h = length l /\
              h_events h = lastn mx (map (event_of (match a with ABreak => true | _ => false end)) l).
Proof. exact @hook_exact. Qed.
Print Assumptions C82_hook.

(** C82: a breakpoint records, marked as such, its last 1000 accepted steps; a state change hook with a condition
    records them unmarked.  Neither stops anything: the session is the same function of the operations (C82_records). *)
Theorem C82_breakpoint :
  forall {S I O M H : Type} (copy : S -> H) (name : string) (c : condition S I O M) (m : M) (ops : list (op S I O M)) (d : debugger S I O M H),
  Forall (keeps (String.append "breakpoint_" name)) ops ->
    let d' := session copy ops (add_breakpoint name c m d) in
    let l := since_clear (accepted c m (seen (d_track_perf d) (d_enabled d) (d_current d) (d_times d) ops)) in
    exists h, sget (String.append "breakpoint_" name) (d_hooks d') = Some h /\ h_hits h = length l /\
              h_events h = lastn (Z.to_nat 1000) (map (event_of true) l).
Proof. intros. exact (hook_exact copy (String.append "breakpoint_" name) c m ABreak (Z.to_nat 1000) ops d H0). Qed.
Print Assumptions C82_breakpoint.
Theorem C82_state_change_hook :
  forall {S I O M H : Type} (copy : S -> H) (name : string) (c : condition S I O M) (m : M) (ops : list (op S I O M)) (d : debugger S I O M H),
  Forall (keeps (String.append "state_change_" name)) ops ->
    let d' := session copy ops (add_state_change_hook name (Some c) m d) in
    let l := since_clear (accepted c m (seen (d_track_perf d) (d_enabled d) (d_current d) (d_times d) ops)) in
    exists h, sget (String.append "state_change_" name) (d_hooks d') = Some h /\ h_hits h = length l /\
              h_events h = lastn (Z.to_nat 1000) (map (event_of false) l).
Proof. intros. exact (hook_exact copy (String.append "state_change_" name) c m ALog (Z.to_nat 1000) ops d H0). Qed.
Print Assumptions C82_state_change_hook.

(** C82: a state change hook added without a condition (the default) never triggers. *)
Theorem C82_no_condition_refuted :
  forall {S I O M H : Type} (copy : S -> H) (name : string) (m : M) (ops : list (op S I O M)) (d : debugger S I O M H),
  Forall (keeps (String.append "state_change_" name)) ops ->
    exists h, sget (String.append "state_change_" name) (d_hooks (session copy ops (add_state_change_hook name None m d))) = Some h /\
              h_hits h = 0 /\ h_events h = [].
Proof. exact @no_condition_never. Qed.
Print Assumptions C82_no_condition_refuted.

(** C82: a history entry keeps all the collections when "params" or "state" is missing ... *)
Theorem C82_copy_all :
  forall {V Sh : Type} (shape : V -> Sh) (st : list (string * ptree V)),
  sget "params"%string st = None \/ sget "state"%string st = None ->
  forall k, sget k (safe_copy_state shape st) = option_map CValues (sget k st).
Proof. exact @copy_keeps_all. Qed.
Print Assumptions C82_copy_all.

(** ... and drops the other collections and the parameter values when both are there. *)
Theorem C82_copy_all_refuted :
  forall {V Sh : Type} (shape : V -> Sh) (st : list (string * ptree V)) p s,
  sget "params"%string st = Some p -> sget "state"%string st = Some s ->
  sget "state_values"%string (safe_copy_state shape st) = Some (CValues s) /\
  (exists q, sget "params_shapes"%string (safe_copy_state shape st) = Some (CShapes q) /\ leafwise (fun v sh => sh = shape v) p q) /\
  forall k, k <> "state_values"%string -> k <> "params_shapes"%string -> sget k (safe_copy_state shape st) = None.
Proof. exact @copy_drops_collections. Qed.
Print Assumptions C82_copy_all_refuted.

Example C82_example :
  let h := new_hook (Some (fun (m : unit) _ _ s _ _ => (Some (2 <? s), m))) tt ACapture 2 in
  let d := session (fun s : nat => s)
    [OStep "m" 5 tt tt None; OStep "m" 1 tt tt None; ODisable; OStep "m" 9 tt tt None; OEnable; OClear;
     OStep "m" 3 tt tt None; OStep "m" 2 tt tt None; OStep "m" 4 tt tt None; OStep "m" 6 tt tt None]
    (add_hook "big" h (new_debugger true true 3)) in
  d_history d = [2; 4; 6] /\ d_current d = 6 /\
  match sget "big"%string (d_hooks d) with Some h' => (h_hits h', map e_step (h_events h')) = (3, [5; 6]) | None => False end.
Proof. cbn. repeat split. Qed.

(** C83: step_interval(k) triggers at each multiple of k. *)
Theorem C83_step_interval :
  forall {S I O M H : Type} (copy : S -> H) (name : string) (k : nat) (m : M) (a : action) (mx : nat) (ts tp : bool) (hist : nat)
      (ops : list (op S I O M)),
  k <> 0 -> Forall step_only ops ->
    exists h, sget name (d_hooks (session copy ops (add_hook name (new_hook (Some (step_interval k)) m a mx)
                                 (new_debugger ts tp hist : debugger S I O M H)))) = Some h /\
      h_hits h = length ops / k /\
      map e_step (h_events h) = lastn mx (map (fun j => j * k) (seq 1 (length ops / k))).
Proof. exact @step_interval_hits. Qed.
Print Assumptions C83_step_interval.

(** C83: value_threshold triggers at the inputs above the threshold; never at a missing value, nor where float() raises. *)
Theorem C83_value_threshold :
  forall {S O M H : Type} (copy : S -> H) (name : string) (thr : fl) (field : string) (m : M) (a : action) (mx : nat)
    (ts tp : bool) (hist : nat) (ops : list (op S inp O M)) (ins : list inp),
  Forall2 (fun a i => match a with OStep _ _ i' _ _ => i' = i | _ => False end) ops ins ->
  exists h, sget name (d_hooks (session copy ops (add_hook name (new_hook (Some (value_threshold thr field)) m a mx)
                               (new_debugger ts tp hist : debugger S inp O M H)))) = Some h /\
    h_hits h = length (filter (fun i => match reading field i with Some x => flt thr x | None => false end) ins).
Proof. exact @value_threshold_hits. Qed.
Print Assumptions C83_value_threshold.

(** C83: state_change_detector compares with the value at its last trigger (or at the first step), in Euclidean distance. *)
Theorem C83_state_change :
  forall {I O H : Type} (copy : list (string * list fl) -> H) (name field : string) (tol : R) (a : action) (mx w : nat)
    (ts tp : bool) (hist : nat) (ops : list (op (list (string * list fl)) I O (option (list fl)))) (vs : list (list R)),
  Forall2 (fun a v => match a with OStep _ s _ _ _ => sget field s = Some (map Fin v) | _ => False end) ops vs ->
  Forall (fun v => length v = w) vs ->
  exists h fired,
    sget name (d_hooks (session copy ops (add_hook name (new_hook (Some (state_change_detector field tol)) None a mx)
                        (new_debugger ts tp hist)))) = Some h /\
    length fired = length vs /\
    h_hits h = count_occ bool_dec fired true /\
    map e_step (h_events h) = lastn mx (map fst (filter snd (combine (seq 1 (length fired)) fired))) /\
    (forall t, t < length vs ->
       (nth t fired false = true <-> 0 < t /\ (tol < dist (nth t vs []) (nth (last_fired fired t) vs []))%R)).
Proof. exact @detector_exact. Qed.
Print Assumptions C83_state_change.

(** C83: steps whose state has not the field change nothing: same triggers as without these steps. *)
Theorem C83_state_change_absent :
  forall {I O H : Type} (copy : list (string * list fl) -> H) (name field : string) (tol : R) (a : action) (mx : nat)
    (ts tp : bool) (hist : nat) (ops : list (op (list (string * list fl)) I O (option (list fl)))),
  Forall (fun a => match a with OStep _ _ _ _ _ => True | _ => False end) ops ->
  let hook := fun ops => sget name (d_hooks (session copy ops (add_hook name (new_hook (Some (state_change_detector field tol)) None a mx)
                      (new_debugger ts tp hist)))) in
  exists h h', hook ops = Some h /\ hook (filter (has_field field) ops) = Some h' /\
    h_hits h = h_hits h' /\ map e_state (h_events h) = map e_state (h_events h').
Proof. intros. eapply detector_absent; eassumption. Qed.
Print Assumptions C83_state_change_absent.

(** C83: a value of length 1 is compared with all the entries of the other one ... *)
Theorem C83_state_change_broadcast :
  forall {I O : Type} field tol (v w : list R) perf n s (i : I) (o : O),
  sget field s = Some (map Fin v) -> v <> [] -> w <> [] -> length v = 1 \/ length w = 1 ->
  state_change_detector field tol (Some (map Fin w)) perf n s i o =
  if Rlt_b tol (dist (spread (length w) v) (spread (length v) w)) then (Some true, Some (map Fin v)) else (Some false, Some (map Fin w)).
Proof. exact @detector_broadcast. Qed.
Print Assumptions C83_state_change_broadcast.

(** ... other lengths neither trigger nor become the reference. *)
Theorem C83_state_change_shapes :
  forall {I O : Type} field tol (l cur : list fl) perf n s (i : I) (o : O),
  sget field s = Some cur -> length cur <> length l -> length cur <> 1 -> length l <> 1 ->
  state_change_detector field tol (Some l) perf n s i o = (Some false, Some l).
Proof. exact @detector_shapes. Qed.
Print Assumptions C83_state_change_shapes.

(** C83: a value with a NaN neither triggers nor becomes the reference ... *)
Theorem C83_state_change_nan :
  forall {I O : Type} field tol (l cur : list fl) perf n s (i : I) (o : O),
  sget field s = Some cur -> length cur = length l -> In NaN cur ->
  state_change_detector field tol (Some l) perf n s i o = (Some false, Some l).
Proof. exact @detector_nan_skipped. Qed.
Print Assumptions C83_state_change_nan.

(** ... but a NaN in the first value silences the detector for ever. *)
Theorem C83_state_change_nan_first_refuted :
  forall {I O H : Type} (copy : list (string * list fl) -> H) (name field : string) (tol : R) (a : action) (mx : nat)
    (ts tp : bool) (hist : nat) v0 nm s0 i0 o0 t0 (ops : list (op (list (string * list fl)) I O (option (list fl)))),
  sget field s0 = Some v0 -> In NaN v0 ->
  Forall (fun a => match a with OStep _ s _ _ _ => exists v, sget field s = Some v /\ length v = length v0 | _ => False end) ops ->
  exists h, sget name (d_hooks (session copy (OStep nm s0 i0 o0 t0 :: ops)
      (add_hook name (new_hook (Some (state_change_detector field tol)) None a mx) (new_debugger ts tp hist)))) = Some h /\
    h_hits h = 0.
Proof. exact @detector_nan_dead. Qed.
Print Assumptions C83_state_change_nan_first_refuted.

(** C83: a performance monitor triggers at the steps slower than its threshold ... *)
Theorem C83_performance_monitor :
  forall {S I O M H : Type} (copy : S -> H) (name : string) (thr : R) (m : M) (ts : bool) (hist : nat) (ops : list (op S I O M)) (times : list R),
  Forall2 (fun a t => match a with OStep _ _ _ _ t' => t' = Some t | _ => False end) ops times ->
    exists h, sget (String.append "perf_" name) (d_hooks (session copy ops (add_performance_monitor name thr m
                                 (new_debugger ts true hist : debugger S I O M H)))) = Some h /\
      h_hits h = length (filter (fun t => Rlt_b thr (t * 1000)) times).
Proof. exact @perf_timed. Qed.
Print Assumptions C83_performance_monitor.

(** ... and, when later steps carry no time, again at each of them. *)
Theorem C83_performance_monitor_stale_refuted :
  forall {S I O M H : Type} (copy : S -> H) (name : string) (thr : R) (m : M) (ts : bool) (hist : nat) nm s i o t (ops : list (op S I O M)),
  (thr < t * 1000)%R ->
    Forall (fun a => match a with OStep _ _ _ _ t' => t' = None | _ => False end) ops ->
    exists h, sget (String.append "perf_" name) (d_hooks (session copy (OStep nm s i o (Some t) :: ops) (add_performance_monitor name thr m
                                 (new_debugger ts true hist : debugger S I O M H)))) = Some h /\
      h_hits h = 1 + length ops.
Proof. exact @perf_stale. Qed.
Print Assumptions C83_performance_monitor_stale_refuted.

Example C83_example :
  (* a drift of 1 per step with tolerance 3/2 triggers at every second step *)
  fires (3 / 2) None [[0%R]; [1%R]; [2%R]; [3%R]; [4%R]] = [false; false; true; false; true] /\
  (let '(v, w) := ([3%R; 4%R], [0%R; 0%R]) in dist v w = 5%R).
Proof.
  assert (D : forall a b : R, (b <= a)%R -> dist [a] [b] = (a - b)%R).
  { intros a b L. unfold dist. cbn [sq_dist]. rewrite Rplus_0_r. apply sqrt_square. lra. }
  split.
  - unfold fires, fire. cbn [fst snd]. rewrite !D by lra.
    repeat (first [rewrite Rlt_b_true by lra | rewrite Rlt_b_false by lra]; cbn [fst snd]; rewrite ?D by lra). reflexivity.
  - unfold dist. cbn [sq_dist]. replace ((3 - 0) * (3 - 0) + ((4 - 0) * (4 - 0) + 0))%R with (5 * 5)%R by lra. apply sqrt_square. lra.
Qed.

(** C84: decorated with debug_streaming, a function returns what it did, and the debugger gets its steps. *)
Theorem C84_debug :
  forall {P K A O S : Type} (apply : P -> S -> K -> A -> option (result O S)) {M H : Type} (copy : S -> H) (name : string) (p : P),
  forall (xs : list (K * A * option R)) (s : S) (d : debugger S A O M H),
    let plain := drive (fun s x (_ : unit) => (apply p s (fst (fst x)) (snd (fst x)), tt)) s tt xs in
    drive (fun s x d => debug_apply apply copy name (snd x) p s (fst (fst x)) (snd (fst x)) d) s d xs =
    (fst (fst plain), snd (fst plain), session copy (reported name s xs (fst (fst plain))) d).
Proof. exact @debug_transparent. Qed.
Print Assumptions C84_debug.

(** C84: the same for profile_streaming ... *)
Theorem C84_profile :
  forall {P K A O S : Type} (apply : P -> S -> K -> A -> option (result O S)) (arg_data : A -> pdata) (result_data : result O S -> pdata) (name : string) (detailed : bool) (p : P),
  forall (xs : list (K * A * (R * R * R))) (s : S) (pr : profiler),
    let plain := drive (fun s x (_ : unit) => (apply p s (fst (fst x)) (snd (fst x)), tt)) s tt xs in
    fst (drive (fun s x pr => profile_apply apply arg_data result_data name detailed (fst (fst (snd x))) (snd (fst (snd x))) (snd (snd x))
                              p s (fst (fst x)) (snd (fst x)) pr) s pr xs) = fst plain.
Proof. exact @profile_transparent. Qed.
Print Assumptions C84_profile.

(** ... and for track_memory_usage. *)
Theorem C84_memory :
  forall {P K A O S : Type} (apply : P -> S -> K -> A -> option (result O S)) (state_data : S -> ptree nat) (name : string) (detailed : bool) (p : P),
  forall (xs : list (K * A * (R * R))) (s : S) (tr : tracker),
    t_interval tr <> 0 ->
    let plain := drive (fun s x (_ : unit) => (apply p s (fst (fst x)) (snd (fst x)), tt)) s tt xs in
    fst (drive (fun s x tr => memory_apply apply state_data name detailed (fst (snd x)) (snd (snd x))
                              p s (fst (fst x)) (snd (fst x)) tr) s tr xs) = fst plain.
Proof. exact @memory_transparent. Qed.
Print Assumptions C84_memory.

Example C84_example :
  let apply := fun (_ : unit) (s : nat) (_ : unit) (a : nat) => if a =? 0 then None else Some (RPair (s * a) (s + a)) in
  drive (fun s x d => debug_apply apply (fun s => s) "f" (snd x) tt s (fst (fst x)) (snd (fst x)) d) 1
    (new_debugger true true 5 : debugger nat nat nat unit nat) [(tt, 2, None); (tt, 5, None); (tt, 0, None); (tt, 7, None)] =
  ([RPair 2 3; RPair 15 8], 8, session (fun s => s) [OStep "f" 3 2 2 None; OStep "f" 8 5 15 None] (new_debugger true true 5)).
Proof. reflexivity. Qed.

(** C85: the metrics kept, the step count, the bottlenecks and the times per module of a sequence of record_metrics calls. *)
Theorem C85_records :
  forall (track_mem : bool) (bott leak : R) (mx : nat) (l : list rec_call),
  let ms := metrics_of track_mem 1 0 l in
  let p := fold_left record_q l (new_profiler track_mem bott leak mx) in
  p_metrics p = lastn mx ms /\ p_steps p = length l /\
  opt_list (p_bottlenecks p) = filter (fun m => Rlt_b bott (m_time m * 1000)) ms /\
  (forall k, opt_list (sget k (p_modules p)) = times_of k l).
Proof. exact @record_exact. Qed.
Print Assumptions C85_records.

(** C85: the size of nested data is the sum over its arrays, numbers and strings. *)
Theorem C85_sizes :
   forall d, data_size d = list_sum (data_leaves d).
Proof. exact @data_size_leaves. Qed.
Print Assumptions C85_sizes.

(** C85: a decorated function called n times counts 2n steps, halves the mean time, makes the minimum 0 and the median half the smallest time. *)
Theorem C85_two_records_per_call_refuted :
  forall {P K A O S : Type} (apply : P -> S -> K -> A -> option (result O S)) (arg_data : A -> pdata) (result_data : result O S -> pdata)
  (name : string) (detailed : bool) (p : P) (s : S) (xs : list (K * A * (R * R * R))) (track_mem : bool) (bott leak : R) (mx : nat),
  let run := profiled apply arg_data result_data name detailed p s xs track_mem bott leak mx in
  length (fst (fst run)) = length xs ->
  xs <> [] ->
  (forall t, In t (call_times xs) -> (0 <= t)%R) ->
  2 * length xs <= mx ->
  let ts := map m_time (r_metrics (finalize (snd run))) in
  r_steps (finalize (snd run)) = 2 * length xs /\
  meanR ts = (meanR (call_times xs) / 2)%R /\ medianR ts = (minR (call_times xs) / 2)%R /\
  minR ts = 0%R /\ maxR ts = maxR (call_times xs).
Proof. exact @profile_stats. Qed.
Print Assumptions C85_two_records_per_call_refuted.

(** C85: the same in the summary of the module (invocations, mean, minimum, jit compilations). *)
Theorem C85_module_summary_refuted :
  forall {P K A O S : Type} (apply : P -> S -> K -> A -> option (result O S)) (arg_data : A -> pdata) (result_data : result O S -> pdata)
  (name : string) (detailed : bool) (p : P) (s : S) (xs : list (K * A * (R * R * R))) (track_mem : bool) (bott leak : R) (mx : nat),
  let run := profiled apply arg_data result_data name detailed p s xs track_mem bott leak mx in
  length (fst (fst run)) = length xs ->
  xs <> [] ->
  (forall t, In t (call_times xs) -> (0 <= t)%R) ->
  2 * length xs <= mx ->
  module_summary name (snd run) = Some (2 * length xs, (meanR (call_times xs) / 2)%R, 0%R, 0).
Proof. exact @profile_module. Qed.
Print Assumptions C85_module_summary_refuted.

(** C85: whatever the times of the calls, even all equal, the module is reported as having a high time variance. *)
Theorem C85_always_irregular_refuted :
  forall {P K A O S : Type} (apply : P -> S -> K -> A -> option (result O S)) (arg_data : A -> pdata) (result_data : result O S -> pdata)
  (name : string) (detailed : bool) (p : P) (s : S) (xs : list (K * A * (R * R * R))) (track_mem : bool) (bott leak : R) (mx : nat),
  let run := profiled apply arg_data result_data name detailed p s xs track_mem bott leak mx in
  length (fst (fst run)) = length xs ->
  xs <> [] ->
  0 < mx -> (0 < sumR (call_times xs))%R -> In (AdvModule name) (recommendations (snd run)).
Proof. exact @profile_always_irregular. Qed.
Print Assumptions C85_always_irregular_refuted.

(** C85: the general variance advice comes at 1.5 times the mean time, not 3. *)
Theorem C85_time_variance_refuted :
  forall {P K A O S : Type} (apply : P -> S -> K -> A -> option (result O S)) (arg_data : A -> pdata) (result_data : result O S -> pdata)
  (name : string) (detailed : bool) (p : P) (s : S) (xs : list (K * A * (R * R * R))) (track_mem : bool) (bott leak : R) (mx : nat),
  let run := profiled apply arg_data result_data name detailed p s xs track_mem bott leak mx in
  length (fst (fst run)) = length xs ->
  xs <> [] ->
  (forall t, In t (call_times xs) -> (0 <= t)%R) ->
  2 * length xs <= mx ->
  In AdvTimeVariance (recommendations (snd run)) <-> (3 / 2 * meanR (call_times xs) < maxR (call_times xs))%R.
Proof. exact @profile_time_variance. Qed.
Print Assumptions C85_time_variance_refuted.

(** C85: a process above 100 MB is told it allocates too much, even when its memory never changes. *)
Theorem C85_first_memory_refuted :
  forall {P K A O S : Type} (apply : P -> S -> K -> A -> option (result O S)) (arg_data : A -> pdata) (result_data : result O S -> pdata)
  (name : string) (detailed : bool) (p : P) (s : S) (xs : list (K * A * (R * R * R))) (track_mem : bool) (bott leak : R) (mx : nat),
  let run := profiled apply arg_data result_data name detailed p s xs track_mem bott leak mx in
  length (fst (fst run)) = length xs ->
  forall k a t m1 m2 r, xs = (k, a, (t, m1, m2)) :: r -> 2 * length xs <= mx -> track_mem = true -> (100 < m1)%R ->
  In AdvMemory (recommendations (snd run)).
Proof. exact @profile_first_memory. Qed.
Print Assumptions C85_first_memory_refuted.

(** C85: no jit compilation is ever recorded. *)
Theorem C85_no_jit_refuted :
  forall {P K A O S : Type} (apply : P -> S -> K -> A -> option (result O S)) (arg_data : A -> pdata) (result_data : result O S -> pdata)
  (name : string) (detailed : bool) (p : P) (s : S) (xs : list (K * A * (R * R * R))) (track_mem : bool) (bott leak : R) (mx : nat),
  let run := profiled apply arg_data result_data name detailed p s xs track_mem bott leak mx in
  length (fst (fst run)) = length xs ->
  ~ In AdvJit (recommendations (snd run)) /\ Forall (fun m => m_jit m = false) (p_metrics (snd run)).
Proof. exact @profile_no_jit. Qed.
Print Assumptions C85_no_jit_refuted.

(** C85: the advice about large inputs never comes, whatever the inputs: every second record has size 0. *)
Theorem C85_large_input_refuted :
  forall {P K A O S : Type} (apply : P -> S -> K -> A -> option (result O S)) (arg_data : A -> pdata) (result_data : result O S -> pdata)
  (name : string) (detailed : bool) (p : P) (s : S) (xs : list (K * A * (R * R * R))) (track_mem : bool) (bott leak : R) (mx : nat),
  let run := profiled apply arg_data result_data name detailed p s xs track_mem bott leak mx in
  length (fst (fst run)) = length xs ->
  ~ In AdvLargeInput (recommendations (snd run)).
Proof. exact @profile_never_large. Qed.
Print Assumptions C85_large_input_refuted.

(** C85: when each advice is given: a time above 3 times the mean; more than 100 MB of positive differences; more than
    a tenth of jit compilations; more than half of inputs above 1 MiB; a module with a deviation above half its mean. *)
Theorem C85_recommendations :
  forall pr, p_metrics pr <> [] ->
  let ms := p_metrics pr in
  (In AdvTimeVariance (recommendations pr) <-> exists m, In m ms /\ (3 * meanR (map m_time ms) < m_time m)%R) /\
  (In AdvMemory (recommendations pr) <-> (100 < sumR (map (fun m => Rmax 0 (m_delta m)) ms))%R) /\
  (In AdvJit (recommendations pr) <-> length ms < 10 * length (filter m_jit ms)) /\
  (In AdvLargeInput (recommendations pr) <-> length ms < 2 * length (filter (fun m => (1048576 <? Z.of_nat (m_in m))%Z) ms)) /\
  (forall k, In (AdvModule k) (recommendations pr) <->
     exists ts, In (k, ts) (p_modules pr) /\ 2 <= length ts /\ (meanR ts / 2 < stdevR ts)%R).
Proof. exact @recommendations_exact. Qed.
Print Assumptions C85_recommendations.

(** C85: one bottleneck per call above the threshold, numbered 2i, without the sizes of its data. *)
Theorem C85_bottlenecks :
  forall {P K A O S : Type} (apply : P -> S -> K -> A -> option (result O S)) (arg_data : A -> pdata) (result_data : result O S -> pdata)
  (name : string) (detailed : bool) (p : P) (s : S) (xs : list (K * A * (R * R * R))) (track_mem : bool) (bott leak : R) (mx : nat),
  let run := profiled apply arg_data result_data name detailed p s xs track_mem bott leak mx in
  length (fst (fst run)) = length xs ->
  (0 <= bott)%R ->
  let b := opt_list (p_bottlenecks (snd run)) in
  map (fun m => (m_step m, m_time m)) b =
    filter (fun p => Rlt_b bott (snd p * 1000)) (combine (map (fun i => 2 * i) (seq 1 (length xs))) (call_times xs)) /\
  Forall (fun m => m_in m = 0 /\ m_out m = 0) b.
Proof. exact @profile_bottlenecks. Qed.
Print Assumptions C85_bottlenecks.

(** C85: a memory leak is reported iff the last of the last ten metrics exceeds the first by more than the threshold. *)
Theorem C85_leak :
  forall p g,
  profiler_leak p = Some g <->
  exists l a b w, p_metrics p = l ++ a :: w ++ [b] /\ length w = 8 /\ g = (m_mem b - m_mem a)%R /\ (p_leak_mb p < g)%R.
Proof. exact @profiler_leak_exact. Qed.
Print Assumptions C85_leak.

(** C85: a finalized result keeps its metrics but loses its bottlenecks when the profiler is reset ... *)
Theorem C85_result_loses_bottlenecks_refuted :
  forall p,
  result_bottlenecks (finalize p) p = opt_list (p_bottlenecks p) /\
  r_metrics (finalize p) = p_metrics p /\
  result_bottlenecks (finalize p) (reset_profiler p) = [].
Proof. exact @shared_lost. Qed.
Print Assumptions C85_result_loses_bottlenecks_refuted.

(** ... and gains those recorded later. *)
Theorem C85_result_grows_refuted :
  forall p q l,
  p_bottlenecks p = Some l -> p_enabled p = true -> (p_bott_ms p < q_time q * 1000)%R ->
  exists m, result_bottlenecks (finalize p) (record_q p q) = l ++ [m] /\ r_metrics (finalize p) = p_metrics p.
Proof. exact @shared_grows. Qed.
Print Assumptions C85_result_grows_refuted.

Example C85_example :
  let apply := fun (_ : unit) (s : nat) (_ : unit) (a : nat) => Some (RPair (s * a) (s + a)) in
  let xs := [(tt, 2, (1%R, 200%R, 200%R)); (tt, 5, (1%R, 200%R, 200%R))] in
  let run := profiled apply (fun _ => DNum) (fun _ => DSeq [DNum; DNum]) "f" true tt 1 xs true 100%R 50%R 1000 in
  length (fst (fst run)) = length xs /\ p_steps (snd run) = 4 /\
  map m_in (p_metrics (snd run)) = [8; 0; 8; 0] /\ map m_out (p_metrics (snd run)) = [16; 0; 16; 0] /\
  In (AdvModule "f") (recommendations (snd run)) /\ In AdvMemory (recommendations (snd run)).
Proof.
  cbn zeta. split; [reflexivity|]. split; [reflexivity|]. split; [reflexivity|]. split; [reflexivity|]. split.
  - apply profile_always_irregular; [reflexivity|discriminate|lia|]. cbn. lra.
  - eapply profile_first_memory; [reflexivity|reflexivity| |reflexivity|lra].
    cbn [length]. apply Nat.leb_le. reflexivity.
Qed.

(** C86: a snapshot at each forced call and at each multiple of the interval, the last ones kept, and the leaks of a check after each. *)
Theorem C86_snapshots :
  forall (interval : nat) (thr : R) (mx : nat) (calls : list call_mem),
  interval <> 0 ->
  let l := snaps_of None (due interval 0 calls) in
  exists t, snapshots_run (new_tracker interval thr mx) calls = Some t /\
    t_steps t = length calls /\ t_snaps t = lastn mx l /\
    t_leaks t = flat_map (fun j => check_for_leaks interval thr (lastn mx (firstn j l))) (seq 1 (length l)).
Proof. exact @tracker_exact. Qed.
Print Assumptions C86_snapshots.

(** C86: without force, one snapshot every [interval] calls. *)
Theorem C86_schedule :
  forall (interval : nat) (thr : R) (mx : nat) (calls : list call_mem),
  interval <> 0 -> Forall (fun c : call_mem => let '(_, _, force, _) := c in force = false) calls ->
  exists t, snapshots_run (new_tracker interval thr mx) calls = Some t /\
    map s_step (t_snaps t) = lastn mx (map (fun j => j * interval) (seq 1 (length calls / interval))).
Proof. exact @tracker_schedule. Qed.
Print Assumptions C86_schedule.

(** C86: the histories by module (module_memory_usage, state_memory_history) hold every snapshot of the module since the start: max_snapshots does not bound them. *)
Theorem C86_module_histories :
  forall (interval : nat) (thr : R) (mx : nat) (calls : list call_mem) (t : tracker) (name : string),
  snapshots_run (new_tracker interval thr mx) calls = Some t ->
  let l := filter (fun s => String.eqb (s_module s) name) (snaps_of None (due interval 0 calls)) in
  opt_list (sget name (t_module_mem t)) = map s_mem l /\ opt_list (sget name (t_state_mem t)) = map s_state l.
Proof. exact @tracker_modules. Qed.
Print Assumptions C86_module_histories.

(** C86: after reset the tracker is as new: what follows does not depend on what came before. *)
Theorem C86_reset :
  forall (interval : nat) (thr : R) (mx : nat) (calls calls' : list call_mem) (t : tracker),
  snapshots_run (new_tracker interval thr mx) calls = Some t ->
  snapshots_run (reset_tracker t) calls' = snapshots_run (new_tracker interval thr mx) calls'.
Proof. exact @reset_fresh. Qed.
Print Assumptions C86_reset.

(** C86: what a check reports. *)
Theorem C86_check :
  forall interval thr snaps lk,
  Forall (fun s => s_arrays s = 0) snaps ->
  In lk (check_for_leaks interval thr snaps) <->
  5 <= length snaps /\
  let w := lastn 10 snaps in
  let total := (s_mem (last w snap0) - s_mem (hd snap0 w))%R in
  exists slope, slope_of (map s_mem w) = Some slope /\ (thr / 100 < slope * INR interval)%R /\ (thr < total)%R /\
    lk = Leak GrowingMemory (severity_of total) (slope * INR interval) total (s_step (hd snap0 w)) (s_step (last w snap0)).
Proof. exact @check_exact. Qed.
Print Assumptions C86_check.

(** C86: the severity of a growth: critical above 100 MB, high above 50, medium above 20, low otherwise. *)
Theorem C86_severity :
  forall t,
  (severity_of t = Critical <-> (100 < t)%R) /\ (severity_of t = High <-> (50 < t <= 100)%R) /\
  (severity_of t = Medium <-> (20 < t <= 50)%R) /\ (severity_of t = Low <-> (t <= 20)%R).
Proof. exact @severity_exact. Qed.
Print Assumptions C86_severity.

(** C86: a reported leak is a growth above the threshold between two snapshots at most ten apart; none is about arrays. *)
Theorem C86_leak_sound :
  forall (interval : nat) (thr : R) (mx : nat) (calls : list call_mem) (t : tracker) lk,
  interval <> 0 ->
  snapshots_run (new_tracker interval thr mx) calls = Some t -> In lk (t_leaks t) ->
  exists l a w b l', snaps_of None (due interval 0 calls) = l ++ (a :: w ++ [b]) ++ l' /\
    3 <= length w <= 8 /\
    l_type lk = GrowingMemory /\ l_total lk = (s_mem b - s_mem a)%R /\ (thr < l_total lk)%R /\
    l_first lk = s_step a /\ l_last lk = s_step b.
Proof. exact @leak_sound. Qed.
Print Assumptions C86_leak_sound.

(** C86: no leak is reported while the memory never grows. *)
Theorem C86_no_growth_no_leak :
  forall (interval : nat) (thr : R) (mx : nat) (calls : list call_mem) (t : tracker),
  interval <> 0 -> (0 <= thr)%R ->
  (forall i j : nat, i < j -> j < length calls ->
     (snd (nth j calls (""%string, None, false, 0%R)) <= snd (nth i calls (""%string, None, false, 0%R)))%R) ->
  snapshots_run (new_tracker interval thr mx) calls = Some t -> t_leaks t = [].
Proof. exact @no_leak_nonincreasing. Qed.
Print Assumptions C86_no_growth_no_leak.

(** C86: with fewer than five snapshots kept, nothing is ever reported. *)
Theorem C86_small_history_refuted :
  forall (interval : nat) (thr : R) (mx : nat) (calls : list call_mem) (t : tracker),
  interval <> 0 -> mx < 5 ->
  snapshots_run (new_tracker interval thr mx) calls = Some t -> t_leaks t = [].
Proof. exact @no_leak_small. Qed.
Print Assumptions C86_small_history_refuted.

(** C86: the growth per snapshot is exact on linear growth. *)
Theorem C86_slope :
  forall a b n,
  2 <= n -> slope_of (map (fun i => (a + b * INR i)%R) (seq 0 n)) = Some b.
Proof. exact @slope_linear. Qed.
Print Assumptions C86_slope.

(** C86: in general it is the slope of the least-squares line of the memory of the snapshots. *)
Theorem C86_least_squares :
  forall ys b, 2 <= length ys ->
  slope_of ys = Some b <-> exists a, forall a' b', (squared_errors a b 0 ys <= squared_errors a' b' 0 ys)%R.
Proof. exact @slope_least_squares. Qed.
Print Assumptions C86_least_squares.

(** C86: a leak of at most a ninth of the threshold per snapshot is never reported, however long it lasts. *)
Theorem C86_slow_leak_refuted :
  forall (interval : nat) (thr : R) (mx n : nat) (name : string) (a b : R),
  interval <> 0 -> 10 <= mx -> (0 <= b)%R -> (9 * (b * INR interval) <= thr)%R ->
  exists t, snapshots_run (new_tracker interval thr mx) (steady name (fun i => (a + b * INR i)%R) n) = Some t /\ t_leaks t = [].
Proof. exact @slow_leak_missed. Qed.
Print Assumptions C86_slow_leak_refuted.

(** C86: a process gaining b MB per call is reported again at each snapshot from the fifth, each time with the rate b times the square of the interval. *)
Theorem C86_rate_refuted :
  forall (interval : nat) (thr : R) (mx n : nat) (name : string) (a b : R),
  interval <> 0 -> 10 <= mx -> (0 <= thr)%R -> (thr < 4 * (b * INR interval))%R ->
  exists t, snapshots_run (new_tracker interval thr mx) (steady name (fun i => (a + b * INR i)%R) n) = Some t /\
    length (t_leaks t) = n / interval - 4 /\ Forall (fun lk => l_rate lk = (b * INR interval * INR interval)%R) (t_leaks t).
Proof. exact @fast_leak_repeated. Qed.
Print Assumptions C86_rate_refuted.

(** C86: parameters and state variables add up to the bytes of the state; buffers are part of the state variables. *)
Theorem C86_state_memory :
  forall (kvs : list (string * ptree nat)),
  NoDup (map fst kvs) -> (forall n, sget "state"%string kvs <> Some (PLeaf n)) ->
  let '(sv, pv, bv) := analyze_state_memory (Some (PDict kvs)) in
  (sv + pv)%R = megabytes (nbytes (PDict kvs)) /\
  pv = megabytes (match sget "params"%string kvs with Some t => nbytes t | None => 0 end) /\
  bv = megabytes (match sget "state"%string kvs with
                  | Some (PDict vars) =>
                      list_sum (map (fun kv => if contains "buffer" (lower (fst kv)) then nbytes (snd kv) else 0) vars)
                  | _ => 0 end) /\
  (0 <= bv <= sv)%R.
Proof. exact @state_memory'. Qed.
Print Assumptions C86_state_memory.

(** C86: a decorated function makes two snapshot calls per call, the first without its state. *)
Theorem C86_decorated :
  forall {P K A O S : Type} (apply : P -> S -> K -> A -> option (result O S)) (state_data : S -> ptree nat) (name : string) (detailed : bool) (p : P),
  forall (xs : list (K * A * (R * R))) (s : S) (tr : tracker),
    t_interval tr <> 0 ->
    let run := drive (fun s x tr => memory_apply apply state_data name detailed (fst (snd x)) (snd (snd x))
                              p s (fst (fst x)) (snd (fst x)) tr) s tr xs in
    length (fst (fst run)) = length xs ->
    snapshots_run tr (two_calls state_data name detailed xs (fst (fst run))) = Some (snd run).
Proof. exact @memory_records. Qed.
Print Assumptions C86_decorated.

Example C86_example :
  (* 2 MB per call, a snapshot every 2 calls, 30 calls, threshold 10: 11 reports at 8 MB per step *)
  exists t, snapshots_run (new_tracker 2 10 100) (steady "f" (fun i => (50 + 2 * INR i)%R) 30) = Some t /\
    length (t_leaks t) = 11 /\ Forall (fun lk => l_rate lk = 8%R) (t_leaks t).
Proof.
  destruct (fast_leak_repeated 2 10 100 30 "f" 50 2) as (t & E & L & F); [lia|lia|lra|cbn; lra|].
  exists t. split; [exact E|]. split; [rewrite L; reflexivity|]. eapply Forall_impl; [|exact F]. intros lk H. cbv beta in H. rewrite H. cbn [INR]. lra.
Qed.
