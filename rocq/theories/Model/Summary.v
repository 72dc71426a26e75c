(** Models of the summaries of /repo/src/wax/flax/debug: StreamingDebugger.get_summary and export_events
    (debugger.py), ProfileResult.get_summary, StreamingProfiler.finalize and get_module_summary
    (profiler.py), MemoryTracker.get_memory_summary and get_module_memory_analysis (memory_tracker.py).
    A dictionary with fixed keys is a record.  The locks are re-entrant and held by one caller: they are not
    modelled. *)
From Coq Require Import String List Bool Arith ZArith Reals.
From Verif Require Import Model.Float Model.FlaxOptim.
From Verif Require Import Model.Debug.
Import ListNotations.
Local Open Scope list_scope.

(** * debugger.py *)
(** "performance": [None] is the empty dictionary, when no execution time is on record, debugger.py 350-358.
    performance_data is a defaultdict whose key "execution_time" is created by its first append, so the
    branches "if times else 0" are never taken. *)
Record perf_summary := PerfSum { ps_steps : nat; ps_avg_ms : R; ps_max_ms : R; ps_min_ms : R }.
(** the value of get_summary, without session_duration *)
Record debug_summary := DSum { ds_steps : nat; ds_hooks : list (string * (nat * bool * nat));
                               ds_perf : option perf_summary; ds_history : nat; ds_globals : nat }.

Section DebuggerSummary.
  Context {S I O M H : Type}.

  (** get_summary, debugger.py 338-368 *)
  Definition get_debug_summary (d : debugger S I O M H) : debug_summary :=
    DSum (d_current d)
      (map (fun kh => (fst kh, (h_hits (snd kh), h_enabled (snd kh), length (h_events (snd kh))))) (d_hooks d))
      (match d_times d with
       | [] => None
       | times => Some (PerfSum (length times) (sumR times / INR (length times) * 1000)%R
                          (maxR times * 1000)%R (minR times * 1000)%R)
       end)
      (length (d_history d)) (length (d_globals d)).

  (** export_events, debugger.py 388-410: the summary; for each hook its events as (step, is a breakpoint,
      execution time in ms); the execution times and step numbers.  [None]: ValueError. *)
  Definition export_events (format : string) (d : debugger S I O M H)
    : option (debug_summary * list (string * list (nat * bool * option R)) * (list R * list nat)) :=
    if String.eqb format "dict"
    then Some (get_debug_summary d,
               map (fun kh => (fst kh, map (fun e => (e_step e, e_break e, e_ms e)) (h_events (snd kh)))) (d_hooks d),
               (d_times d, d_steps d))
    else None.
End DebuggerSummary.

(** * profiler.py *)
(** execution_stats and memory_stats of a result, profiler.py 413-434: mean, median, std_dev, min, max;
    [None]: the empty dictionary *)
Record stats := Stats { st_mean : R; st_median : R; st_dev : R; st_min : R; st_max : R }.
Definition stats_of (l : list R) : stats :=
  Stats (meanR l) (medianR l) (if 1 <? length l then stdevR l else 0%R) (minR l) (maxR l).
Definition execution_stats (p : profiler) : option stats :=
  match p_metrics p with [] => None | ms => Some (stats_of (map m_time ms)) end.
Definition memory_stats (p : profiler) : option stats :=
  match p_metrics p with [] => None | ms => Some (stats_of (map m_mem ms)) end.

(** ProfileResult.get_summary, profiler.py 83-122; [None]: the error dictionary; [now]: the profiler when the
    summary is asked for (the list of bottlenecks is shared with it) *)
Record profile_summary := PSum { su_duration : R; su_steps : nat; su_throughput : R;
                                 su_total : R; su_avg_ms : R; su_median_ms : R; su_max_ms : R; su_min_ms : R; su_dev_ms : R;
                                 su_peak : R; su_avg_mem : R; su_allocated : R; su_efficiency : R;
                                 su_bottlenecks : nat; su_jit : nat; su_advice : nat }.
Definition profile_get_summary (r : profile_result) (duration : R) (now : profiler) : option profile_summary :=
  match r_metrics r with
  | [] => None
  | ms =>
      let ts := map m_time ms in
      let mem := map m_mem ms in
      Some (PSum duration (r_steps r) (if Rlt_b 0 duration then (INR (r_steps r) / duration)%R else 0%R)
              (sumR ts) (meanR ts * 1000)%R (medianR ts * 1000)%R (maxR ts * 1000)%R (minR ts * 1000)%R
              (if 1 <? length ts then (stdevR ts * 1000)%R else 0%R)
              (maxR mem) (meanR mem) (sumR (filter (fun x => Rlt_b 0 x) (map m_delta ms)))
              (if Rlt_b 0 (maxR mem) then (minR mem / maxR mem)%R else 1%R)
              (length (result_bottlenecks r now)) (length (filter m_jit ms)) (length (r_advice r)))
  end.

(** get_module_summary with all its fields, profiler.py 301-322; [None]: the error dictionary *)
Record module_sum := MSum { mo_count : nat; mo_total_ms : R; mo_avg_ms : R; mo_max_ms : R; mo_min_ms : R;
                            mo_avg_mem : R; mo_peak : R; mo_jit : nat }.
Definition get_module_summary (name : string) (p : profiler) : option module_sum :=
  match filter (fun m => String.eqb (m_module m) name) (p_metrics p) with
  | [] => None
  | ms =>
      let ts := map m_time ms in
      let mem := map m_mem ms in
      Some (MSum (length ms) (sumR ts * 1000)%R (meanR ts * 1000)%R (maxR ts * 1000)%R (minR ts * 1000)%R
              (meanR mem) (maxR mem) (length (filter m_jit ms)))
  end.

(** * memory_tracker.py *)
(** get_memory_summary, memory_tracker.py 487-527 (duration and the size of the jax arrays are not modelled);
    [None]: the error dictionary.  The counts of arrays are as in [snapshot]. *)
Record memory_sum := MemSum { ms_snaps : nat; ms_steps : nat;
                              ms_current : R; ms_arrays : nat; ms_state : R; ms_params : R; ms_buffers : R;
                              ms_peak : R; ms_min : R; ms_avg : R; ms_growth : R; ms_peak_arrays : R; ms_avg_arrays : R;
                              ms_leaks : nat; ms_critical : nat; ms_high : nat }.
Definition is_severity (s : severity) (l : leak) : bool :=
  match s, l_severity l with
  | Low, Low | Medium, Medium | High, High | Critical, Critical => true
  | _, _ => false
  end.
Definition get_memory_summary (t : tracker) : option memory_sum :=
  match t_snaps t with
  | [] => None
  | first :: _ =>
      let latest := last (t_snaps t) first in
      let mems := map s_mem (t_snaps t) in
      let arrays := map (fun s => INR (s_arrays s)) (t_snaps t) in
      Some (MemSum (length (t_snaps t)) (t_steps t)
              (s_mem latest) (s_arrays latest) (s_state latest) (s_params latest) (s_buffers latest)
              (maxR mems) (minR mems) (sumR mems / INR (length mems))%R (s_mem latest - s_mem first)%R
              (maxR arrays) (sumR arrays / INR (length arrays))%R
              (length (t_leaks t)) (length (filter (is_severity Critical) (t_leaks t)))
              (length (filter (is_severity High) (t_leaks t))))
  end.

(** get_module_memory_analysis, memory_tracker.py 529-560; [None]: the error dictionary *)
Record module_mem := MMem { mm_count : nat; mm_current : R; mm_peak : R; mm_avg : R; mm_growth : R;
                            mm_state : R; mm_state_peak : R; mm_state_avg : R }.
Definition get_module_memory_analysis (name : string) (t : tracker) : option module_mem :=
  match filter (fun s => String.eqb (s_module s) name) (t_snaps t) with
  | [] => None
  | first :: r =>
      let snaps := first :: r in
      let mems := map s_mem snaps in
      let states := map s_state snaps in
      Some (MMem (length snaps) (last mems 0%R) (maxR mems) (sumR mems / INR (length mems))%R
              (last mems 0 - nth 0 mems 0)%R
              (last states 0%R) (maxR states) (sumR states / INR (length states))%R)
  end.
