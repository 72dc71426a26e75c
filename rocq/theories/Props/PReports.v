(** Property theorems C152-C153: the summaries and reports of the profiler and of the memory tracker. *)
From Coq Require Import String List Bool Arith Lia ZArith Reals Lra.
From Verif Require Import Model.Float Model.FlaxOptim Spec.StreamSpec Spec.DebugSpec
  Proofs.FloatFacts Proofs.DebugProofs4 Proofs.DebugProofs5.
From Verif Require Import Model.Debug Model.Reports Spec.ReportSpec Proofs.ReportProofs Proofs.ReportProofs2 Proofs.ReportProofs3.
Import ListNotations.
Local Open Scope string_scope.
Local Open Scope nat_scope.
Local Open Scope list_scope.

(** C152: there is a summary as soon as one call was recorded, unless the history keeps nothing. *)
Theorem C152_summary_exists :
  forall (track_mem : bool) (bott leak : R) (mx : nat) (l : list rec_call) (duration : R),
  let p := fold_left record_q l (new_profiler track_mem bott leak mx) in
  get_summary duration (result_bottlenecks (finalize p) p) (finalize p) = None <-> mx = 0 \/ l = [].
Proof. exact @summary_defined. Qed.
Print Assumptions C152_summary_exists.

(** C152: the numbers of the summary: the steps of the whole session; total, mean, median, maximum, minimum and sample
    deviation of the times of the last mx calls; of their memory readings the maximum, the mean, the rises from each reading
    to the next, and the minimum over the maximum; nothing of memory when it is not tracked; the bottlenecks of the whole
    session but the compilations of the last mx calls. *)
Theorem C152_summary :
  forall (track_mem : bool) (bott leak : R) (mx : nat) (l : list rec_call) (duration : R) (s : profile_summary),
  let p := fold_left record_q l (new_profiler track_mem bott leak mx) in
  get_summary duration (result_bottlenecks (finalize p) p) (finalize p) = Some s ->
  let kept := lastn mx l in
  let times := map q_time kept in
  let mems := map q_mem kept in
  (ps_duration s = duration /\ ps_steps s = length l /\ (0 < duration -> ps_throughput s * duration = INR (length l))%R) /\
  (ps_total_time s = total times /\ is_average (ps_mean_ms s / 1000) times /\ is_median (ps_median_ms s / 1000) times /\
   is_max (ps_max_ms s / 1000) times /\ is_min (ps_min_ms s / 1000) times /\ is_deviation (ps_dev_ms s / 1000) times) /\
  (track_mem = true -> is_max (ps_peak s) mems /\ is_average (ps_avg_mem s) mems /\
     ps_allocated s = rises (last (map q_mem (firstn (length l - mx) l)) 0%R) mems /\
     ((0 < ps_peak s)%R -> exists m, is_min m mems /\ (ps_efficiency s * ps_peak s = m)%R)) /\
  (track_mem = false -> ps_peak s = 0%R /\ ps_avg_mem s = 0%R /\ ps_allocated s = 0%R /\ ps_efficiency s = 1%R) /\
  (ps_bottlenecks s = length (filter (fun q => Rlt_b bott (q_time q * 1000)) l) /\ ps_jit s = length (filter q_jit kept) /\
   ps_advice s = length (recommendations p)).
Proof. exact @summary_spec. Qed.
Print Assumptions C152_summary.

(** C152: steps times average time is the total time only as long as no metric was dropped (or all took no time). *)
Theorem C152_steps_times_average_refuted :
  forall (track_mem : bool) (bott leak : R) (mx : nat) (l : list rec_call) (duration : R) (s : profile_summary),
  let p := fold_left record_q l (new_profiler track_mem bott leak mx) in
  get_summary duration (result_bottlenecks (finalize p) p) (finalize p) = Some s ->
  (INR (ps_steps s) * (ps_mean_ms s / 1000) = ps_total_time s)%R <-> (length l <= mx \/ ps_total_time s = 0%R).
Proof. exact @steps_mean. Qed.
Print Assumptions C152_steps_times_average_refuted.

(** C152: the memory used before the session counts as allocated in it: a process whose memory never changes is said to
    have allocated all of it, until the first metric is dropped, and then nothing. *)
Theorem C152_constant_memory_refuted :
  forall (bott leak : R) (mx : nat) (l : list rec_call) (duration m : R) (s : profile_summary),
  let p := fold_left record_q l (new_profiler true bott leak mx) in
  (0 < m)%R -> (forall q, In q l -> q_mem q = m) ->
  get_summary duration (result_bottlenecks (finalize p) p) (finalize p) = Some s ->
  ps_allocated s = if (length l <=? mx)%nat then m else 0%R.
Proof. exact @allocated_constant. Qed.
Print Assumptions C152_constant_memory_refuted.
Theorem C152_allocated_at_least_peak_refuted :
  forall (bott leak : R) (mx : nat) (l : list rec_call) (duration : R) (s : profile_summary),
  let p := fold_left record_q l (new_profiler true bott leak mx) in
  get_summary duration (result_bottlenecks (finalize p) p) (finalize p) = Some s -> length l <= mx -> (ps_peak s <= ps_allocated s)%R.
Proof. exact @allocated_peak. Qed.
Print Assumptions C152_allocated_at_least_peak_refuted.

(** C152: the report of a session without metrics fails, although its summary does not. *)
Theorem C152_report_of_nothing_refuted :
  forall (duration : R) (bott : list metric) (r : profile_result),
  performance_report duration bott r = None <-> get_summary duration bott r = None.
Proof. exact @report_defined. Qed.
Print Assumptions C152_report_of_nothing_refuted.

(** C152: the report shows the numbers of the summary, each once; the bottlenecks and the compilations only when there are
    some; the advice numbered from 1; and its sections in this order. *)
Theorem C152_report :
  forall (duration : R) (bott : list metric) (r : profile_result) (rep : list report_line),
  performance_report duration bott r = Some rep ->
  exists s, get_summary duration bott r = Some s /\
    shown "Duration" rep = [ps_duration s] /\ counted "Total Steps" rep = [ps_steps s] /\ shown "Throughput" rep = [ps_throughput s] /\
    shown "Average Time" rep = [ps_mean_ms s] /\ shown "Median Time" rep = [ps_median_ms s] /\ shown "Max Time" rep = [ps_max_ms s] /\
    shown "Std Deviation" rep = [ps_dev_ms s] /\
    shown "Peak Usage" rep = [ps_peak s] /\ shown "Average Usage" rep = [ps_avg_mem s] /\ shown "Total Allocated" rep = [ps_allocated s] /\
    shown "Memory Efficiency" rep = [ps_efficiency s] /\
    counted "Bottlenecks" rep = (if ps_bottlenecks s =? 0 then [] else [ps_bottlenecks s]) /\
    counted "JIT Compilations" rep = (if ps_jit s =? 0 then [] else [ps_jit s]) /\
    numbered rep = combine (seq 1 (length (r_advice r))) (r_advice r) /\
    sections rep = [SOverview; SExecution; SMemory] ++ (if ps_bottlenecks s =? 0 then [] else [SIssues]) ++ (match r_advice r with [] => [] | _ => [SAdvice] end).
Proof. exact @report_spec. Qed.
Print Assumptions C152_report.

(** C152: without bottlenecks, the compilations are listed as one more line of the memory statistics. *)
Theorem C152_compilations_misplaced_refuted :
  forall (duration : R) (bott : list metric) (r : profile_result) (s : profile_summary) (rep : list report_line),
  get_summary duration bott r = Some s -> performance_report duration bott r = Some rep -> ps_bottlenecks s = 0 -> 0 < ps_jit s ->
  exists a b, rep = a ++ [LSection SMemory; LReal "Peak Usage" (ps_peak s); LReal "Average Usage" (ps_avg_mem s); LReal "Total Allocated" (ps_allocated s);
                          LReal "Memory Efficiency" (ps_efficiency s); LCount "JIT Compilations" (ps_jit s)] ++ b.
Proof. exact @jit_line. Qed.
Print Assumptions C152_compilations_misplaced_refuted.

(** a session of two calls at 512 MB, the first compiled *)
Example C152_witness :
  let q j := Rec "m" (1 / 1000) 8 8 j 512 in
  let p := fold_left record_q [q true; q false] (new_profiler true 100 50 1000) in
  exists s rep, get_summary 2 (result_bottlenecks (finalize p) p) (finalize p) = Some s /\
    performance_report 2 (result_bottlenecks (finalize p) p) (finalize p) = Some rep /\
    ps_steps s = 2 /\ ps_allocated s = 512%R /\ ps_peak s = 512%R /\ ps_bottlenecks s = 0 /\ ps_jit s = 1 /\ (ps_mean_ms s = 1)%R /\ (ps_throughput s = 1)%R.
Proof.
  cbv zeta. set (q := fun j => Rec "m" (1 / 1000) 8 8 j 512). set (l := [q true; q false]).
  set (p := fold_left record_q l (new_profiler true 100 50 1000)).
  destruct (get_summary 2 (result_bottlenecks (finalize p) p) (finalize p)) as [s|] eqn:G;
    [|apply C152_summary_exists in G as [G|G]; discriminate G].
  destruct (performance_report 2 (result_bottlenecks (finalize p) p) (finalize p)) as [rep|] eqn:PR;
    [|apply report_defined in PR; congruence].
  exists s, rep. split; [reflexivity|]. split; [reflexivity|].
  assert (A : ps_allocated s = 512%R).
  { refine (C152_constant_memory_refuted 100 50 1000 l 2 512 s _ _ G); [lra|]. intros x [<-|[<-|[]]]; reflexivity. }
  apply C152_summary in G as ((_ & ST & TH) & (_ & AV & _) & MT & _ & B & J & _). destruct (MT eq_refl) as ((PI & _) & _).
  split; [exact ST|]. split; [exact A|]. split; [destruct PI as [E|[E|[]]]; symmetry; exact E|].
  split. { rewrite B. cbn. rewrite Rlt_b_false by lra. reflexivity. }
  split; [exact J|]. split.
  - unfold is_average in AV. cbn in AV. lra.
  - assert (D : (0 < 2)%R) by lra. specialize (TH D). cbn in TH. lra.
Qed.

(** C153: there is a summary as soon as one snapshot was due, unless none is kept. *)
Theorem C153_summary_exists :
  forall (interval : nat) (thr : R) (mx : nat) (calls : list call_mem) (t : tracker) (duration : R),
  interval <> 0 -> snapshots_run (new_tracker interval thr mx) calls = Some t ->
  (get_memory_summary duration t = None <-> mx = 0 \/ due interval 0 calls = []) /\
  (memory_report duration t = [MError] <-> mx = 0 \/ due interval 0 calls = []).
Proof.
  intros interval thr mx calls t duration HI HR. split.
  - rewrite (memory_defined interval thr mx calls t duration HI HR). exact (kept_empty interval mx calls).
  - rewrite (memory_report_error interval thr mx calls t duration HI HR). exact (kept_empty interval mx calls).
Qed.
Print Assumptions C153_summary_exists.

(** C153: the numbers of the summary: calls of the whole session; of the snapshots kept, the last one, and the maximum, the
    minimum, the average and the change from the first to the last of the process memory; the leaks recorded and how many are
    critical and high. Refuted: the arrays counted are always 0, whatever the states observed. *)
Theorem C153_summary :
  forall (interval : nat) (thr : R) (mx : nat) (calls : list call_mem) (t : tracker) (duration : R),
  interval <> 0 -> snapshots_run (new_tracker interval thr mx) calls = Some t ->
  let kept := lastn mx (snaps_of None (due interval 0 calls)) in
  forall s : memory_summary, get_memory_summary duration t = Some s ->
  exists first middle latest, kept = first :: middle /\ latest = last kept first /\
  (ms_duration s = duration /\ ms_snapshots s = length kept /\ ms_steps s = length calls) /\
  (ms_process s = s_mem latest /\ ms_state s = s_state latest /\ ms_params s = s_params latest /\ ms_buffers s = s_buffers latest) /\
  (is_max (ms_peak s) (map s_mem kept) /\ is_min (ms_min s) (map s_mem kept) /\ is_average (ms_avg s) (map s_mem kept) /\
   ms_growth s = (s_mem latest - s_mem first)%R) /\
  (ms_arrays s = 0 /\ ms_peak_arrays s = 0 /\ ms_avg_arrays s = 0%R) /\
  (ms_leaks s = length (t_leaks t) /\ ms_critical s = length (filter (is_severity Critical) (t_leaks t)) /\
   ms_high s = length (filter (is_severity High) (t_leaks t))).
Proof. exact @memory_spec. Qed.
Print Assumptions C153_summary.

(** C153: the total growth is that of the snapshots kept only: a process gaining b MB per call. *)
Theorem C153_total_growth_refuted :
  forall (interval : nat) (thr : R) (mx n : nat) (name : string) (a b duration : R) (t : tracker) (s : memory_summary),
  interval <> 0 -> snapshots_run (new_tracker interval thr mx) (steady name (fun i => (a + b * INR i)%R) n) = Some t ->
  get_memory_summary duration t = Some s ->
  ms_growth s = (b * INR interval * (INR (Nat.min mx (n / interval)) - 1))%R.
Proof. exact @growth_window. Qed.
Print Assumptions C153_total_growth_refuted.

(** C153: one steady leak is counted again at each snapshot from the fifth. *)
Theorem C153_leak_count_refuted :
  forall (interval : nat) (thr : R) (mx n : nat) (name : string) (a b duration : R),
  interval <> 0 -> 10 <= mx -> (0 <= thr)%R -> (thr < 4 * (b * INR interval))%R -> 0 < n / interval ->
  exists t s, snapshots_run (new_tracker interval thr mx) (steady name (fun i => (a + b * INR i)%R) n) = Some t /\
    get_memory_summary duration t = Some s /\ ms_leaks s = n / interval - 4.
Proof. exact @repeated_leaks. Qed.
Print Assumptions C153_leak_count_refuted.

(** C153: the analysis of a module is that of its own snapshots among those kept; there is none when it has none. *)
Theorem C153_module_exists :
  forall (interval : nat) (thr : R) (mx : nat) (calls : list call_mem) (t : tracker),
  interval <> 0 -> snapshots_run (new_tracker interval thr mx) calls = Some t ->
  let kept := lastn mx (snaps_of None (due interval 0 calls)) in
  forall name, module_memory name t = None <-> (forall s, In s kept -> s_module s <> name).
Proof. exact @module_spec. Qed.
Print Assumptions C153_module_exists.
Theorem C153_module :
  forall (interval : nat) (thr : R) (mx : nat) (calls : list call_mem) (t : tracker),
  interval <> 0 -> snapshots_run (new_tracker interval thr mx) calls = Some t ->
  let kept := lastn mx (snaps_of None (due interval 0 calls)) in
  forall name n cur peak avg growth scur speak savg,
  module_memory name t = Some (n, (cur, peak, avg, growth), (scur, speak, savg)) ->
  let own := filter (fun s => String.eqb (s_module s) name) kept in
  exists first latest, hd_error own = Some first /\ latest = last own first /\
    n = length own /\ cur = s_mem latest /\ is_max peak (map s_mem own) /\ is_average avg (map s_mem own) /\
    growth = (s_mem latest - s_mem first)%R /\
    scur = s_state latest /\ is_max speak (map s_state own) /\ is_average savg (map s_state own).
Proof. exact @module_values. Qed.
Print Assumptions C153_module.

(** C153: the report shows the numbers of the summary, each once; says that there is no leak exactly when none was recorded;
    otherwise counts them and describes the first three critical ones, in the order of their detection. *)
Theorem C153_report :
  forall (interval : nat) (thr : R) (mx : nat) (calls : list call_mem) (t : tracker) (duration : R),
  interval <> 0 -> snapshots_run (new_tracker interval thr mx) calls = Some t ->
  forall s : memory_summary, get_memory_summary duration t = Some s ->
  let rep := memory_report duration t in
  m_shown "Duration" rep = [ms_duration s] /\ m_counted "Snapshots" rep = [ms_snapshots s] /\ m_counted "Steps" rep = [ms_steps s] /\
  m_shown "Process Memory" rep = [ms_process s] /\ m_counted "JAX Arrays" rep = [ms_arrays s] /\ m_shown "State Variables" rep = [ms_state s] /\
  m_shown "Parameters" rep = [ms_params s] /\ m_shown "Buffers" rep = [ms_buffers s] /\ m_shown "Peak Memory" rep = [ms_peak s] /\
  m_shown "Average Memory" rep = [ms_avg s] /\ m_shown "Total Growth" rep = [ms_growth s] /\ m_counted "Peak Arrays" rep = [ms_peak_arrays s] /\
  (In MNoLeak rep <-> t_leaks t = []) /\
  m_counted "Total Leaks" rep = (if ms_leaks s =? 0 then [] else [ms_leaks s]) /\
  m_counted "Critical" rep = (if ms_leaks s =? 0 then [] else [ms_critical s]) /\
  m_counted "High Priority" rep = (if ms_leaks s =? 0 then [] else [ms_high s]) /\
  described rep = map describe (firstn 3 (filter (is_severity Critical) (t_leaks t))).
Proof. exact @memory_report_spec. Qed.
Print Assumptions C153_report.

(** a process gaining 30 MB per call, twelve calls observed, ten snapshots kept: the growth is 270 of 330 MB and the one leak is counted eight times *)
Example C153_witness :
  exists t s, snapshots_run (new_tracker 1 50 10) (steady "m" (fun i => (100 + 30 * INR i)%R) 12) = Some t /\
    get_memory_summary 60 t = Some s /\ ms_leaks s = 8 /\ (ms_growth s = 270)%R.
Proof.
  destruct (C153_leak_count_refuted 1 50 10 12 "m" 100 30 60) as (t & s & R & G & L); [discriminate|lia|lra|cbn; lra|cbn; lia|].
  exists t, s. split; [exact R|]. split; [exact G|]. split; [exact L|].
  assert (H1 : 1 <> 0) by discriminate. rewrite (C153_total_growth_refuted 1 50 10 12 "m" 100 30 60 t s H1 R G).
  change (Nat.min 10 (12 / 1)) with 10. cbn. lra.
Qed.

(** C153: the leaks counted and reported above as critical (or high) are those whose severity is critical (high). *)
Theorem C153_severity :
  forall (s : severity) (l : leak), is_severity s l = true <-> l_severity l = s.
Proof. exact @is_severity_spec. Qed.
Print Assumptions C153_severity.
