(** Model of the summaries and reports of /repo/src/wax/flax/debug: ProfileResult.get_summary, create_performance_report
    (profiler.py), get_memory_summary, get_module_memory_analysis, generate_memory_report (memory_tracker.py).
    A report is the list of its lines; a line keeps the numbers it shows (their number of decimals, units and pictograms
    are not modelled).  Numbers are exact; the duration of the session is given. *)
From Coq Require Import String List Bool Arith ZArith Reals.
From Verif Require Import Model.Float Model.FlaxOptim Model.Debug.
Import ListNotations.
Local Open Scope string_scope.
Local Open Scope list_scope.

(** * profiler.py *)
(** statistics.stdev(l) if len(l) > 1 else 0 *)
Definition dev0 (l : list R) : R := if Nat.ltb 1 (length l) then stdevR l else 0%R.
(** the entries of ProfileResult.get_summary, profiler.py 93-122 *)
Record profile_summary := PSummary {
  ps_duration : R; ps_steps : nat; ps_throughput : R;
  ps_total_time : R; ps_mean_ms : R; ps_median_ms : R; ps_max_ms : R; ps_min_ms : R; ps_dev_ms : R;
  ps_peak : R; ps_avg_mem : R; ps_allocated : R; ps_efficiency : R;
  ps_bottlenecks : nat; ps_jit : nat; ps_advice : nat }.
(** get_summary, profiler.py 85-122; [None]: {"error": ...}.  [bott] is the list of bottlenecks of the result *)
Definition get_summary (duration : R) (bott : list metric) (r : profile_result) : option profile_summary :=
  match r_metrics r with
  | [] => None
  | ms =>
      let ts := map m_time ms in
      let us := map m_mem ms in
      Some (PSummary duration (r_steps r) (if Rlt_b 0 duration then INR (r_steps r) / duration else 0)%R
              (sumR ts) (meanR ts * 1000) (medianR ts * 1000) (maxR ts * 1000) (minR ts * 1000) (dev0 ts * 1000)
              (maxR us) (meanR us) (sumR (filter (fun x => Rlt_b 0 x) (map m_delta ms)))
              (if Rlt_b 0 (maxR us) then minR us / maxR us else 1)
              (length bott) (length (filter m_jit ms)) (length (r_advice r)))%R
  end.

(** The lines of create_performance_report *)
Inductive section := SOverview | SExecution | SMemory | SIssues | SAdvice.
Inductive report_line := LTitle | LRule | LSection (s : section) | LReal (label : string) (x : R) | LCount (label : string) (n : nat)
                       | LAdvice (i : nat) (a : advice).
(** create_performance_report, profiler.py 574-622; [None]: summary["session"] raises KeyError *)
Definition performance_report (duration : R) (bott : list metric) (r : profile_result) : option (list report_line) :=
  match get_summary duration bott r with
  | None => None
  | Some s =>
      Some ([LTitle; LRule; LSection SOverview; LReal "Duration" (ps_duration s); LCount "Total Steps" (ps_steps s);
             LReal "Throughput" (ps_throughput s);
             LSection SExecution; LReal "Average Time" (ps_mean_ms s); LReal "Median Time" (ps_median_ms s);
             LReal "Max Time" (ps_max_ms s); LReal "Std Deviation" (ps_dev_ms s);
             LSection SMemory; LReal "Peak Usage" (ps_peak s); LReal "Average Usage" (ps_avg_mem s);
             LReal "Total Allocated" (ps_allocated s); LReal "Memory Efficiency" (ps_efficiency s)] ++
            (if Nat.ltb 0 (ps_bottlenecks s) then [LSection SIssues; LCount "Bottlenecks" (ps_bottlenecks s)] else []) ++
            (if Nat.ltb 0 (ps_jit s) then [LCount "JIT Compilations" (ps_jit s)] else []) ++
            (match r_advice r with
             | [] => []
             | l => LSection SAdvice :: map (fun '(i, a) => LAdvice i a) (combine (seq 1 (length l)) l)
             end) ++ [LRule])
  end.

(** * memory_tracker.py *)
Definition is_severity (s : severity) (l : leak) : bool :=
  match s, l_severity l with Critical, Critical | High, High | Medium, Medium | Low, Low => true | _, _ => false end.
(** the entries of get_memory_summary, 500-529 *)
Record memory_summary := MSummary {
  ms_duration : R; ms_snapshots : nat; ms_steps : nat;
  ms_process : R; ms_arrays : nat; ms_state : R; ms_params : R; ms_buffers : R;
  ms_peak : R; ms_min : R; ms_avg : R; ms_growth : R; ms_peak_arrays : nat; ms_avg_arrays : R;
  ms_leaks : nat; ms_critical : nat; ms_high : nat }.
(** get_memory_summary, 487-529 (jax_arrays_size_mb is not modelled); [None]: {"error": ...} *)
Definition get_memory_summary (duration : R) (t : tracker) : option memory_summary :=
  match t_snaps t with
  | [] => None
  | s0 :: rest =>
      let ss := s0 :: rest in
      let latest := last ss s0 in
      let mems := map s_mem ss in
      let counts := map s_arrays ss in
      Some (MSummary duration (length ss) (t_steps t)
              (s_mem latest) (s_arrays latest) (s_state latest) (s_params latest) (s_buffers latest)
              (maxR mems) (minR mems) (sumR mems / INR (length mems)) (s_mem latest - s_mem s0)
              (fold_left Nat.max (map s_arrays rest) (s_arrays s0)) (INR (list_sum counts) / INR (length counts))
              (length (t_leaks t)) (length (filter (is_severity Critical) (t_leaks t))) (length (filter (is_severity High) (t_leaks t))))%R
  end.
(** get_module_memory_analysis, 531-557: snapshots, then current, peak, average and growth of the process memory, then
    current, peak and average of the state memory *)
Definition module_memory (name : string) (t : tracker) : option (nat * (R * R * R * R) * (R * R * R)) :=
  match filter (fun s => String.eqb (s_module s) name) (t_snaps t) with
  | [] => None
  | s0 :: rest =>
      let ss := s0 :: rest in
      let mems := map s_mem ss in
      let states := map s_state ss in
      Some (length ss, (last mems 0, maxR mems, sumR mems / INR (length mems), last mems 0 - nth 0 mems 0),
            (last states 0, maxR states, sumR states / INR (length states)))%R
  end.
(** The lines of generate_memory_report *)
Inductive memory_line := MError | MTitle | MRule | MSection (name : string) | MReal (label : string) (x : R) | MCount (label : string) (n : nat)
                       | MLeak (type : leak_type) (total rate : R) (first last : nat) | MNoLeak.
(** generate_memory_report, 558-615 *)
Definition memory_report (duration : R) (t : tracker) : list memory_line :=
  match get_memory_summary duration t with
  | None => [MError]
  | Some s =>
      ([MTitle; MRule; MSection "Session Overview"; MReal "Duration" (ms_duration s); MCount "Snapshots" (ms_snapshots s); MCount "Steps" (ms_steps s);
        MSection "Current Memory Usage"; MReal "Process Memory" (ms_process s); MCount "JAX Arrays" (ms_arrays s);
        MReal "State Variables" (ms_state s); MReal "Parameters" (ms_params s); MReal "Buffers" (ms_buffers s);
        MSection "Memory Statistics"; MReal "Peak Memory" (ms_peak s); MReal "Average Memory" (ms_avg s);
        MReal "Total Growth" (ms_growth s); MCount "Peak Arrays" (ms_peak_arrays s)] ++
       (if Nat.ltb 0 (ms_leaks s) then
          [MSection "Memory Leaks Detected"; MCount "Total Leaks" (ms_leaks s); MCount "Critical" (ms_critical s); MCount "High Priority" (ms_high s)] ++
          map (fun l => MLeak (l_type l) (l_total l) (l_rate l) (l_first l) (l_last l)) (firstn 3 (filter (is_severity Critical) (t_leaks t)))
        else [MNoLeak]) ++ [MRule])
  end.
