(** Models of /repo/src/wax/flax/debug/debugger.py, profiler.py and memory_tracker.py.

    The readings of the environment (execution times in seconds, process memory in MB) are inputs
    of the model, as real numbers.  Not modelled: wall-clock timestamps, cpu and gc counters, the
    printing of events, and the interactive prompt of a "break" hook (answered by "continue"). *)
From Coq Require Import String Ascii List Bool Arith ZArith Reals.
From Verif Require Import Model.Float Model.FlaxOptim.
Import ListNotations.
Local Open Scope list_scope.

(** collections.deque(maxlen=n): append *)
Definition dq_append {A : Type} (n : nat) (l : list A) (x : A) : list A :=
  let l' := l ++ [x] in skipn (length l' - n) l'.

(** * debugger.py *)
Section Debugger.
  (** states, inputs, outputs; memory of the closures used as conditions; what a history entry holds *)
  Context {S I O M H : Type}.

  (** DebugEvent, debugger.py 55-67 (timestamp, stack trace and session time are not modelled) *)
  Record event := Event { e_step : nat; e_break : bool; e_module : string; e_state : S; e_in : I; e_out : O;
                          e_ms : option R }.

  (** A condition reads the performance data of the debugger (add_performance_monitor), the step, the
      state, the input and the output; None: it raised.  debugger.py 46-51 *)
  Definition condition := M -> list R -> nat -> S -> I -> O -> option bool * M.

  (** debugger.py 71-85; the action is 'log', 'break', 'capture' or 'alert' *)
  Inductive action := ALog | ABreak | ACapture | AAlert.
  Record hook := Hook { h_cond : option condition; h_mem : M; h_action : action; h_max : nat;
                        h_enabled : bool; h_hits : nat; h_events : list event }.
  Definition new_hook (c : option condition) (m : M) (a : action) (max_events : nat) : hook :=
    Hook c m a max_events true 0 [].

  (** check_condition, debugger.py 87-96 *)
  Definition check_condition (h : hook) (perf : list R) (n : nat) (s : S) (i : I) (o : O) : bool * hook :=
    match h_enabled h, h_cond h with
    | true, Some c =>
        let '(b, m) := c (h_mem h) perf n s i o in
        (match b with Some v => v | None => false end,
         Hook (h_cond h) m (h_action h) (h_max h) (h_enabled h) (h_hits h) (h_events h))
    | _, _ => (false, h)
    end.

  (** trigger, debugger.py 98-130 *)
  Definition trigger (h : hook) (n : nat) (name : string) (s : S) (i : I) (o : O) (ms : option R) : hook :=
    Hook (h_cond h) (h_mem h) (h_action h) (h_max h) (h_enabled h) (h_hits h + 1)
         (dq_append (h_max h) (h_events h)
            (Event n (match h_action h with ABreak => true | _ => false end) name s i o ms)).

  (** StreamingDebugger, debugger.py 202-224 *)
  Record debugger := Dbg { d_track_state : bool; d_track_perf : bool; d_max : nat;
                           d_hooks : list (string * hook); d_globals : list event; d_history : list H;
                           d_times : list R; d_steps : list nat; d_current : nat; d_enabled : bool }.
  Definition new_debugger (track_state track_perf : bool) (max_history : nat) : debugger :=
    Dbg track_state track_perf max_history [] [] [] [] [] 0 true.

  (** add_hook, remove_hook, debugger.py 226-236 *)
  Definition add_hook (k : string) (h : hook) (d : debugger) : debugger :=
    Dbg (d_track_state d) (d_track_perf d) (d_max d) (sset k h (d_hooks d)) (d_globals d) (d_history d)
        (d_times d) (d_steps d) (d_current d) (d_enabled d).
  Definition remove_hook (k : string) (d : debugger) : debugger :=
    Dbg (d_track_state d) (d_track_perf d) (d_max d)
        (filter (fun kh => negb (String.eqb (fst kh) k)) (d_hooks d)) (d_globals d) (d_history d)
        (d_times d) (d_steps d) (d_current d) (d_enabled d).

  (** add_state_change_hook (condition optional, default None), add_breakpoint, debugger.py 238-248 *)
  Definition add_state_change_hook (name : string) (c : option condition) (m : M) : debugger -> debugger :=
    add_hook (String.append "state_change_" name) (new_hook c m ALog (Z.to_nat 1000)).
  Definition add_breakpoint (name : string) (c : condition) (m : M) : debugger -> debugger :=
    add_hook (String.append "breakpoint_" name) (new_hook (Some c) m ABreak (Z.to_nat 1000)).

  (** slow_condition, debugger.py 255-257 *)
  Definition slow_condition (threshold_ms : R) : condition :=
    fun m perf n s i o =>
      (Some (match rev perf with [] => false | t :: _ => Rlt_b threshold_ms (t * 1000)%R end), m).
  (** add_performance_monitor, debugger.py 250-260 *)
  Definition add_performance_monitor (name : string) (threshold_ms : R) (m : M) : debugger -> debugger :=
    add_hook (String.append "perf_" name) (new_hook (Some (slow_condition threshold_ms)) m AAlert (Z.to_nat 1000)).

  Variable copy : S -> H.   (* _safe_copy_state, debugger.py 297-312; see [safe_copy_state] below *)

  (** execution_time * 1000 if execution_time else None: a time of zero is dropped, debugger.py 290 *)
  Definition meta_ms (t : option R) : option R :=
    match t with Some x => if Req_b x 0 then None else Some (x * 1000)%R | None => None end.

  (** step, debugger.py 262-295 *)
  Definition debug_step (name : string) (s : S) (i : I) (o : O) (t : option R) (d : debugger) : debugger :=
    if d_enabled d then
      let n := d_current d + 1 in
      let hist := if d_track_state d then dq_append (d_max d) (d_history d) (copy s) else d_history d in
      let '(times, steps) :=
        match d_track_perf d, t with
        | true, Some x => (d_times d ++ [x], d_steps d ++ [n])
        | _, _ => (d_times d, d_steps d)
        end in
      let hooks :=
        map (fun kh => let '(b, h) := check_condition (snd kh) times n s i o in
                       (fst kh, if b then trigger h n name s i o (meta_ms t) else h)) (d_hooks d) in
      Dbg (d_track_state d) (d_track_perf d) (d_max d) hooks (d_globals d) hist times steps n (d_enabled d)
    else d.

  (** clear_history, debugger.py 370-378 *)
  Definition clear_history (d : debugger) : debugger :=
    Dbg (d_track_state d) (d_track_perf d) (d_max d)
        (map (fun kh => (fst kh, Hook (h_cond (snd kh)) (h_mem (snd kh)) (h_action (snd kh)) (h_max (snd kh))
                                      (h_enabled (snd kh)) 0 [])) (d_hooks d))
        [] [] [] [] (d_current d) (d_enabled d).

  (** enable / disable, debugger.py 380-386 *)
  Definition set_enabled (b : bool) (d : debugger) : debugger :=
    Dbg (d_track_state d) (d_track_perf d) (d_max d) (d_hooks d) (d_globals d) (d_history d) (d_times d)
        (d_steps d) (d_current d) b.

  (** The public operations, in the order of a session. *)
  Inductive op :=
  | OStep (name : string) (s : S) (i : I) (o : O) (t : option R)
  | OClear | OEnable | ODisable
  | OAdd (k : string) (h : hook) | ORemove (k : string).
  Definition do_op (d : debugger) (a : op) : debugger :=
    match a with
    | OStep name s i o t => debug_step name s i o t d
    | OClear => clear_history d
    | OEnable => set_enabled true d
    | ODisable => set_enabled false d
    | OAdd k h => add_hook k h d
    | ORemove k => remove_hook k d
    end.
  Definition session (ops : list op) (d : debugger) : debugger := fold_left do_op ops d.
End Debugger.
Arguments event : clear implicits. Arguments hook : clear implicits. Arguments debugger : clear implicits.
Arguments op : clear implicits. Arguments condition : clear implicits.

(** _safe_copy_state on a flax variable dictionary, debugger.py 297-325: the state is a dictionary of
    collections; an array leaf is a [V] with its shape.  With both "params" and "state", only these two
    are kept, the first as shapes. *)
Inductive copied (V Sh : Type) := CShapes (t : ptree Sh) | CValues (t : ptree V).
Arguments CShapes {V Sh}. Arguments CValues {V Sh}.
Fixpoint ptree_map {A B : Type} (f : A -> B) (t : ptree A) : ptree B :=
  match t with
  | PLeaf v => PLeaf (f v)
  | PDict kvs => PDict (map (fun kv => (fst kv, ptree_map f (snd kv))) kvs)
  end.
Definition safe_copy_state {V Sh : Type} (shape : V -> Sh) (st : list (string * ptree V))
  : list (string * copied V Sh) :=
  match sget "params"%string st, sget "state"%string st with
  | Some p, Some s => [("params_shapes"%string, CShapes (ptree_map shape p)); ("state_values"%string, CValues s)]
  | _, _ => map (fun kv => (fst kv, CValues (snd kv))) st
  end.

(** value_threshold, debugger.py 489-498: the inputs are numbers, dictionaries of them, or anything on
    which float() raises *)
Inductive inp := INum (x : fl) | IDict (kvs : list (string * inp)) | IOther.
Definition value_threshold {S O M : Type} (threshold : fl) (field : string) : condition S inp O M :=
  fun m perf n s i o =>
    let v := match field, i with
             | EmptyString, _ => i
             | _, IDict kvs => match sget field kvs with Some v => v | None => INum (Fin 0) end
             | _, _ => i
             end in
    (match v with INum x => Some (flt threshold x) | _ => None end, m).

(** step_interval, debugger.py 501-507: step % 0 raises *)
Definition step_interval {S I O M : Type} (interval : nat) : condition S I O M :=
  fun m perf n s i o => (if interval =? 0 then None else Some (n mod interval =? 0), m).

(** state_change_detector, debugger.py 510-541.  The field holds a number or a one-dimensional array
    (numpy broadcasting of lengths 1 and n; other lengths raise, which the condition turns into False).
    The norm of a difference of numbers is its absolute value. *)
Definition bsub (x y : list fl) : option (list fl) :=
  if length x =? length y then Some (map (fun p => fsub (fst p) (snd p)) (combine x y))
  else match x, y with
       | [a], _ => Some (map (fun b => fsub a b) y)
       | _, [b] => Some (map (fun a => fsub a b) x)
       | _, _ => None
       end.
Definition norm (d : list fl) : fl := fsqrt (fsum (map (fun x => fmul x x) d)).
Definition state_change_detector {I O : Type} (field : string) (tolerance : R)
  : condition (list (string * list fl)) I O (option (list fl)) :=
  fun last perf n s i o =>
    match sget field s with
    | None => (Some false, last)
    | Some cur =>
        match last with
        | None => (Some false, Some cur)
        | Some l =>
            match bsub cur l with
            | None => (Some false, last)
            | Some d => let b := flt (Fin tolerance) (norm d) in (Some b, if b then Some cur else last)
            end
        end
    end.

(** * The three decorators *)
(** What an apply function returns: a pair (output, new state), or something else. *)
Inductive result (O S : Type) := RPair (o : O) (s : S) | ROther (o : O).
Arguments RPair {O S}. Arguments ROther {O S}.

Section Wrappers.
  Context {P K A O S : Type}.
  (** apply(params, state, rng, arg); None: it raises *)
  Variable apply : P -> S -> K -> A -> option (result O S).

  (** debug_streaming, debugger.py 412-482 with the time measured for the call ([None]: enable_timing
      is off).  The first positional argument is the debugged input. *)
  Definition debug_apply {M H : Type} (copy : S -> H) (name : string) (t : option R)
      (p : P) (s : S) (k : K) (a : A) (d : debugger S A O M H)
    : option (result O S) * debugger S A O M H :=
    match apply p s k a with
    | None => (None, d)
    | Some r =>
        let '(o, s') := match r with RPair o s' => (o, s') | ROther o => (o, s) end in
        (Some r, debug_step copy name s' a o t d)
    end.
End Wrappers.

(** * profiler.py *)
(** PerformanceMetrics, profiler.py 49-67 (cpu, threads and timestamps are not modelled) *)
Record metric := Metric { m_step : nat; m_module : string; m_time : R; m_mem : R; m_delta : R; m_jit : bool;
                          m_in : nat; m_out : nat }.

(** StreamingProfiler, profiler.py 127-155.  [p_bottlenecks] is the attribute _bottlenecks, created by
    the first bottleneck. *)
Record profiler := Prof { p_track_mem : bool; p_bott_ms : R; p_leak_mb : R; p_max : nat; p_metrics : list metric;
                          p_modules : list (string * list R); p_steps : nat; p_enabled : bool; p_last_mem : R;
                          p_bottlenecks : option (list metric) }.
Definition new_profiler (track_mem : bool) (bott_ms leak_mb : R) (max_history : nat) : profiler :=
  Prof track_mem bott_ms leak_mb max_history [] [] 0 true 0 None.

(** _calculate_data_size, profiler.py 264-282 *)
Inductive pdata := DNone | DArr (nbytes : nat) | DSeq (l : list pdata) | DDict (l : list (string * pdata))
                 | DNum | DStr (bytes : nat) | DOther.
Fixpoint data_size (d : pdata) : nat :=
  match d with
  | DNone | DOther => 0
  | DArr n => n
  | DSeq l => list_sum (map data_size l)
  | DDict l => list_sum (map (fun kv => data_size (snd kv)) l)
  | DNum => 8
  | DStr n => n
  end.

(** record_metrics, profiler.py 208-262 and _record_bottleneck 284-299 (a bottleneck is kept as its
    metric); [mem]: the process memory at that moment, in MB *)
Definition record_metrics (name : string) (t : R) (input output : pdata) (jit : bool) (mem : R) (p : profiler) : profiler :=
  if p_enabled p then
    let n := p_steps p + 1 in
    let '(usage, delta, last) :=
      if p_track_mem p then (mem, (mem - p_last_mem p)%R, mem) else (0%R, 0%R, p_last_mem p) in
    let m := Metric n name t usage delta jit (data_size input) (data_size output) in
    Prof (p_track_mem p) (p_bott_ms p) (p_leak_mb p) (p_max p) (dq_append (p_max p) (p_metrics p) m)
         (sset name (match sget name (p_modules p) with Some l => l | None => [] end ++ [t]) (p_modules p))
         n (p_enabled p) last
         (if Rlt_b (p_bott_ms p) (t * 1000)%R
          then Some (match p_bottlenecks p with Some l => l | None => [] end ++ [m])
          else p_bottlenecks p)
  else p.

(** reset, profiler.py 453-464 *)
Definition reset_profiler (p : profiler) : profiler :=
  Prof (p_track_mem p) (p_bott_ms p) (p_leak_mb p) (p_max p) [] [] 0 (p_enabled p) 0
       (match p_bottlenecks p with Some _ => Some [] | None => None end).

(** statistics.mean, max, min, statistics.median and the square of statistics.stdev (n - 1 in the
    denominator) of a non-empty list *)
Definition sumR (l : list R) : R := fold_right Rplus 0%R l.
Definition meanR (l : list R) : R := (sumR l / INR (length l))%R.
Definition maxR (l : list R) : R := match l with [] => 0%R | x :: r => fold_left Rmax r x end.
Definition minR (l : list R) : R := match l with [] => 0%R | x :: r => fold_left Rmin r x end.
Definition stdevR (l : list R) : R :=
  sqrt (sumR (map (fun x => Rsqr (x - meanR l)) l) / (INR (length l) - 1))%R.
Fixpoint insertR (x : R) (l : list R) : list R :=
  match l with [] => [x] | y :: r => if Rle_b x y then x :: l else y :: insertR x r end.
Definition sortR (l : list R) : list R := fold_right insertR [] l.
Definition medianR (l : list R) : R :=
  let s := sortR l in let n := length l in
  if Nat.even n then ((nth (n / 2 - 1) s 0 + nth (n / 2) s 0) / 2)%R else nth (n / 2) s 0%R.

(** detect_memory_leaks, profiler.py 324-352: the growth over the last ten metrics *)
Definition profiler_leak (p : profiler) : option R :=
  if length (p_metrics p) <? 10 then None
  else
    let trend := map m_mem (skipn (length (p_metrics p) - 10) (p_metrics p)) in
    let growth := (nth 9 trend 0 - nth 0 trend 0)%R in
    if Rlt_b (p_leak_mb p) growth then Some growth else None.

(** generate_optimization_recommendations, profiler.py 354-406 *)
Inductive advice := AdvTimeVariance | AdvMemory | AdvJit | AdvLargeInput | AdvModule (name : string).
Definition recommendations (p : profiler) : list advice :=
  match p_metrics p with
  | [] => []
  | _ =>
      let ms := p_metrics p in
      let ts := map m_time ms in
      let deltas := filter (fun x => Rlt_b 0 x) (map m_delta ms) in
      let nj := length (filter m_jit ms) in
      let large := length (filter (fun m => (1024 * 1024 <? Z.of_nat (m_in m))%Z) ms) in
      (if Rlt_b (meanR ts * 3) (maxR ts) then [AdvTimeVariance] else []) ++
      (if Rlt_b 100 (sumR deltas) then [AdvMemory] else []) ++
      (if Rlt_b (INR (length ms) / 10) (INR nj) then [AdvJit] else []) ++
      (if Rlt_b (INR (length ms) / 2) (INR large) then [AdvLargeInput] else []) ++
      flat_map (fun kv => if (1 <? length (snd kv)) && Rlt_b (meanR (snd kv) * (1 / 2)) (stdevR (snd kv))
                          then [AdvModule (fst kv)] else []) (p_modules p)
  end.

(** finalize, profiler.py 408-451.  The result holds a copy of the metrics but the profiler's own list of
    bottlenecks, when it exists: [shared_bottlenecks] tells whether reading result.bottlenecks reads the
    profiler's list. *)
Record profile_result := PResult { r_steps : nat; r_metrics : list metric; r_shared : bool; r_advice : list advice }.
Definition finalize (p : profiler) : profile_result :=
  PResult (p_steps p) (p_metrics p) (match p_bottlenecks p with Some _ => true | None => false end)
          (recommendations p).
(** result.bottlenecks, read when the profiler is in the state [now] *)
Definition result_bottlenecks (r : profile_result) (now : profiler) : list metric :=
  if r_shared r then match p_bottlenecks now with Some l => l | None => [] end else [].

(** get_module_summary, profiler.py 301-322: total_invocations, avg time, min time (seconds), jit count *)
Definition module_summary (name : string) (p : profiler) : option (nat * R * R * nat) :=
  match filter (fun m => String.eqb (m_module m) name) (p_metrics p) with
  | [] => None
  | ms => Some (length ms, meanR (map m_time ms), minR (map m_time ms), length (filter m_jit ms))
  end.

(** profile_streaming, profiler.py 502-571 with ProfilerContext 475-499: the body records a metric with
    the time 0, the exit of the context another one with the measured time; an exception leaves only the
    second.  [mem1], [mem2]: the memory readings at these two moments. *)
Section ProfileWrapper.
  Context {P K A O S : Type}.
  Variable apply : P -> S -> K -> A -> option (result O S).
  Variables (arg_data : A -> pdata) (result_data : result O S -> pdata).
  Definition profile_apply (name : string) (detailed : bool) (t mem1 mem2 : R)
      (p : P) (s : S) (k : K) (a : A) (pr : profiler) : option (result O S) * profiler :=
    match apply p s k a with
    | None => (None, record_metrics name t DNone DNone false mem2 pr)
    | Some r =>
        let pr1 := record_metrics name 0 (if detailed then arg_data a else DNone)
                     (if detailed then result_data r else DNone) false mem1 pr in
        (Some r, record_metrics name t DNone DNone false mem2 pr1)
    end.
End ProfileWrapper.

(** * memory_tracker.py *)
(** _calculate_tree_memory, memory_tracker.py 354-379: the bytes of the leaves, in MB *)
Definition mb (bytes : nat) : R := (INR bytes / 1024 / 1024)%R.
Fixpoint tree_bytes (t : ptree nat) : nat :=
  match t with
  | PLeaf n => n
  | PDict kvs => list_sum (map (fun kv => tree_bytes (snd kv)) kvs)
  end.

(** str.lower on ascii letters and the operator [in] on strings *)
Definition lower_ascii (c : ascii) : ascii :=
  let n := nat_of_ascii c in if (65 <=? n) && (n <=? 90) then ascii_of_nat (n + 32) else c.
Fixpoint lower (s : string) : string :=
  match s with EmptyString => EmptyString | String c r => String (lower_ascii c) (lower r) end.
Definition contains (sub s : string) : bool := match index 0 sub s with Some _ => true | None => false end.

(** _analyze_state_memory, memory_tracker.py 316-352: (state_variables, parameters, buffers) in MB *)
Definition analyze_state_memory (state : option (ptree nat)) : R * R * R :=
  match state with
  | None => (0, 0, 0)%R
  | Some (PDict kvs) =>
      let params := match sget "params"%string kvs with Some t => mb (tree_bytes t) | None => 0%R end in
      let others := sumR (map (fun kv => mb (tree_bytes (snd kv)))
                     (filter (fun kv => negb (String.eqb (fst kv) "params" || String.eqb (fst kv) "state")) kvs)) in
      match sget "state"%string kvs with
      | None => (others, params, 0%R)
      | Some (PLeaf n) => (mb n, params, 0%R)   (* .items() raises: what was computed so far is returned *)
      | Some (PDict vars) =>
          ((mb (tree_bytes (PDict vars)) + others)%R, params,
           sumR (map (fun kv => mb (tree_bytes (snd kv)))
                   (filter (fun kv => contains "buffer" (lower (fst kv))) vars)))
      end
  | Some t => (mb (tree_bytes t), 0, 0)%R
  end.

(** MemorySnapshot, memory_tracker.py 51-83 (system, device and python memory, gc: not modelled) *)
Record snapshot := Snap { s_step : nat; s_module : string; s_mem : R; s_arrays : nat; s_state : R; s_params : R;
                          s_buffers : R; s_delta : R; s_arrays_delta : Z }.
(** MemoryLeak, memory_tracker.py 86-99 *)
Inductive leak_type := GrowingMemory | GrowingArrays.
Inductive severity := Low | Medium | High | Critical.
Record leak := Leak { l_type : leak_type; l_severity : severity; l_rate : R; l_total : R; l_first : nat; l_last : nat }.

(** MemoryTracker, memory_tracker.py 105-160.  [t_arrays]: the sizes in tracked_arrays; the function that
    would fill it (tracked_array, lines 166-205) is defined in _setup_jax_tracking and never installed. *)
Record tracker := Track { t_interval : nat; t_thr : R; t_max : nat; t_snaps : list snapshot; t_leaks : list leak;
                          t_arrays : list nat; t_steps : nat; t_enabled : bool; t_last : option snapshot;
                          t_module_mem : list (string * list R); t_state_mem : list (string * list R) }.
Definition new_tracker (interval : nat) (thr : R) (max_snapshots : nat) : tracker :=
  Track interval thr max_snapshots [] [] [] 0 true None [] [].

(** severity, memory_tracker.py 445-452 *)
Definition severity_of (total : R) : severity :=
  if Rlt_b 100 total then Critical else if Rlt_b 50 total then High else if Rlt_b 20 total then Medium else Low.

(** the least-squares slope, memory_tracker.py 393-403; None when the denominator is not positive *)
Definition slope_of (ys : list R) : option R :=
  let n := length ys in
  let xs := map INR (seq 0 n) in
  let xm := (sumR xs / INR n)%R in
  let ym := (sumR ys / INR n)%R in
  let num := sumR (map (fun p => ((fst p - xm) * (snd p - ym))%R) (combine xs ys)) in
  let den := sumR (map (fun x => Rsqr (x - xm)) xs) in
  if Rlt_b 0 den then Some (num / den)%R else None.

(** _check_for_leaks, memory_tracker.py 381-432 with _record_memory_leak 434-485: the leaks found *)
Definition check_for_leaks (interval : nat) (thr : R) (snaps : list snapshot) : list leak :=
  if length snaps <? 5 then []
  else
    let recent := skipn (length snaps - 10) snaps in
    let n := length recent in
    let mems := map s_mem recent in
    let first := nth 0 recent (Snap 0 "" 0 0 0 0 0 0 0) in
    let last_ := nth (n - 1) recent (Snap 0 "" 0 0 0 0 0 0 0) in
    (if 3 <=? n then
       match slope_of mems with
       | Some slope =>
           let rate := (slope * INR interval)%R in
           if Rlt_b (thr / 100) rate then
             let total := (s_mem last_ - s_mem first)%R in
             if Rlt_b thr total
             then [Leak GrowingMemory (severity_of total) rate total (s_step first) (s_step last_)]
             else []
           else []
       | None => []
       end
     else []) ++
    (if 3 <=? n then
       let growth := (Z.of_nat (s_arrays last_) - Z.of_nat (s_arrays first))%Z in
       if (100 <? growth)%Z
       then [Leak GrowingArrays (severity_of 0) (IZR growth / INR n)%R 0%R (s_step first) (s_step last_)]
       else []
     else []).
(* the total of a GrowingArrays leak (a mean of jax_arrays_size_mb) is not modelled and written 0 *)

(** the delayed lists of defaultdict(list) *)
Definition dd_append (k : string) (x : R) (d : list (string * list R)) : list (string * list R) :=
  sset k (match sget k d with Some l => l | None => [] end ++ [x]) d.

(** take_snapshot, memory_tracker.py 210-314; step % 0 raises: None.  [mem]: the process memory. *)
Definition take_snapshot (name : string) (state : option (ptree nat)) (force : bool) (mem : R) (t : tracker)
  : option (option snapshot * tracker) :=
  if t_enabled t then
    let n := t_steps t + 1 in
    let skip := Some (None, Track (t_interval t) (t_thr t) (t_max t) (t_snaps t) (t_leaks t) (t_arrays t) n
                             (t_enabled t) (t_last t) (t_module_mem t) (t_state_mem t)) in
    let take :=
      let '(sv, pv, bv) := analyze_state_memory state in
      let arrays := length (t_arrays t) in
      let '(delta, adelta) :=
        match t_last t with
        | Some l => ((mem - s_mem l)%R, (Z.of_nat arrays - Z.of_nat (s_arrays l))%Z)
        | None => (0%R, 0%Z)
        end in
      let s := Snap n name mem arrays sv pv bv delta adelta in
      let snaps := dq_append (t_max t) (t_snaps t) s in
      Some (Some s,
            Track (t_interval t) (t_thr t) (t_max t) snaps
                  (t_leaks t ++ check_for_leaks (t_interval t) (t_thr t) snaps)
                  (t_arrays t) n (t_enabled t) (Some s) (dd_append name mem (t_module_mem t))
                  (dd_append name sv (t_state_mem t))) in
    if force then take
    else if t_interval t =? 0 then None
    else if n mod t_interval t =? 0 then take else skip
  else Some (None, t).

(** reset, memory_tracker.py 616-628 *)
Definition reset_tracker (t : tracker) : tracker :=
  Track (t_interval t) (t_thr t) (t_max t) [] [] [] 0 (t_enabled t) None [] [].

(** track_memory_usage, memory_tracker.py 640-704 *)
Section MemoryWrapper.
  Context {P K A O S : Type}.
  Variable apply : P -> S -> K -> A -> option (result O S).
  Variable state_data : S -> ptree nat.
  Definition memory_apply (name : string) (detailed : bool) (mem1 mem2 : R) (p : P) (s : S) (k : K) (a : A)
      (t : tracker) : option (result O S) * tracker :=
    match take_snapshot name None false mem1 t with
    | None => (None, t)
    | Some (_, t1) =>
        match apply p s k a with
        | None => (None, t1)
        | Some r =>
            let st := match detailed, r with true, RPair _ s' => Some (state_data s') | _, _ => None end in
            match take_snapshot name st false mem2 t1 with
            | None => (None, t1)
            | Some (_, t2) => (Some r, t2)
            end
        end
    end.
End MemoryWrapper.
