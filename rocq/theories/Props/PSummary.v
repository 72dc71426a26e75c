(** Property theorems C103: the summaries of the debugger, the profiler and the memory tracker.
    [lastn n l]: the last [n] elements of [l]; [is_mean], [is_median], ...: Spec/SummarySpec.v;
    [in_ms]: seconds as milliseconds; sessions, records and due snapshots: Spec/DebugSpec.v. *)
From Coq Require Import String List Bool Arith Lia ZArith Reals Lra Permutation Sorted.
From Verif Require Import Model.Float Model.FlaxOptim Spec.StreamSpec Spec.DebugSpec Spec.SummarySpec
  Proofs.FloatFacts Proofs.DebugProofs Proofs.DebugProofs4 Proofs.SummaryProofs Proofs.SummaryProofs2 Proofs.SummaryProofs3.
From Verif Require Import Model.Debug Model.Summary.
Import ListNotations.
Local Open Scope list_scope.

(** C103: the statistics are what their names say, on every non-empty list of readings ... *)
Theorem C103_statistics :
  forall l, l <> [] ->
  is_max (maxR l) l /\ is_min (minR l) l /\ is_mean (meanR l) l /\ is_median (medianR l) l /\
  (2 <= length l -> is_stdev (stdevR l) l).
Proof. exact @statistics_exact. Qed.
Print Assumptions C103_statistics.

(** ... and those names determine one number ... *)
Theorem C103_determined :
  forall l a b,
  (is_max a l -> is_max b l -> a = b) /\ (is_min a l -> is_min b l -> a = b) /\
  (l <> [] -> is_mean a l -> is_mean b l -> a = b) /\ (is_median a l -> is_median b l -> a = b) /\
  (2 <= length l -> is_stdev a l -> is_stdev b l -> a = b).
Proof. exact @statistics_determined. Qed.
Print Assumptions C103_determined.

(** ... so that in each summary the mean and the median are between the minimum and the maximum. *)
Theorem C103_between :
  forall l lo hi m d, l <> [] -> is_min lo l -> is_max hi l -> is_mean m l -> is_median d l ->
  (lo <= m <= hi)%R /\ (lo <= d <= hi)%R.
Proof. exact @between. Qed.
Print Assumptions C103_between.

(** C103: get_summary of a debugger after any session: all steps ever seen, but the history and the execution
    times since the last clear. *)
Theorem C103_debugger :
  forall {S I O M H : Type} (copy : S -> H) (track_state track_perf : bool) (mx : nat) (ops : list (op S I O M)),
  let items := seen track_perf true 0 [] ops in
  let l := since_clear items in
  let times := if track_perf then flat_map (fun x => match ob_time x with Some t => [t] | None => [] end) l else [] in
  let s := get_debug_summary (session copy ops (new_debugger track_state track_perf mx : debugger S I O M H)) in
  ds_steps s = count_seen items /\ ds_history s = (if track_state then Nat.min mx (length l) else 0) /\ ds_globals s = 0 /\
  (ds_perf s = None <-> times = []) /\
  forall p, ds_perf s = Some p ->
    ps_steps p = length times /\ is_mean (ps_avg_ms p) (in_ms times) /\
    is_max (ps_max_ms p) (in_ms times) /\ is_min (ps_min_ms p) (in_ms times).
Proof. exact @debugger_summary. Qed.
Print Assumptions C103_debugger.

(** C103: each hook is summarised by its hits and the events it kept, and exported with the steps, kinds and
    times of exactly these events. *)
Theorem C103_hook :
  forall {S I O M H : Type} (copy : S -> H) (k : string) (c : condition S I O M) (m : M) (a : action) (mx : nat) (ops : list (op S I O M)) (d : debugger S I O M H),
  Forall (keeps k) ops ->
  let d' := session copy ops (add_hook k (new_hook (Some c) m a mx) d) in
  let l := since_clear (accepted c m (seen (d_track_perf d) (d_enabled d) (d_current d) (d_times d) ops)) in
  sget k (ds_hooks (get_debug_summary d')) = Some (length l, true, Nat.min mx (length l)) /\
  exists s hooks perf, export_events "dict" d' = Some (s, hooks, perf) /\ s = get_debug_summary d' /\
    sget k hooks = Some (lastn mx (map (fun x => (ob_step x, match a with ABreak => true | _ => false end,
                                                  match ob_time x with Some t => if Req_EM_T t 0 then None else Some (t * 1000)%R | None => None end)) l)).
Proof. exact @summary_hook. Qed.
Print Assumptions C103_hook.

(** C103: any format but "dict" is refused; an export agrees with the summary it contains. *)
Theorem C103_export :
  forall {S I O M H : Type} (format : string) (d : debugger S I O M H),
  (export_events format d = None <-> format <> "dict"%string) /\
  forall s hooks times steps, export_events format d = Some (s, hooks, (times, steps)) ->
    s = get_debug_summary d /\ times = d_times d /\ steps = d_steps d /\
    map fst hooks = map fst (d_hooks d) /\
    map (fun kv => length (snd kv)) hooks = map (fun kv => snd (snd kv)) (ds_hooks s).
Proof. exact @export_total. Qed.
Print Assumptions C103_export.

(** C103: clear_history empties the summary except total_steps, which goes on counting the cleared steps. *)
Theorem C103_clear_refuted :
  forall {S I O M H : Type} (d : debugger S I O M H),
  let s := get_debug_summary d in
  let s' := get_debug_summary (clear_history d) in
  ds_steps s' = ds_steps s /\
  ds_perf s' = None /\ ds_history s' = 0 /\ ds_globals s' = 0 /\
  ds_hooks s' = map (fun kv => (fst kv, (0, snd (fst (snd kv)), 0))) (ds_hooks s).
Proof. exact @summary_clear. Qed.
Print Assumptions C103_clear_refuted.

(** C103: the summary of a profile after any sequence of records: total_steps, throughput and bottlenecks cover
    the whole session, the other fields the last [mx] records. *)
Theorem C103_profile :
  forall (track_mem : bool) (bott leak : R) (mx : nat) (l : list rec_call) (duration : R),
  let p := fold_left record_q l (new_profiler track_mem bott leak mx) in
  let ts := lastn mx (map q_time l) in
  let mem := lastn mx (map (fun q => if track_mem then q_mem q else 0%R) l) in
  let r := profile_get_summary (finalize p) duration p in
  (r = None <-> l = [] \/ mx = 0) /\
  forall s, r = Some s ->
    su_duration s = duration /\ su_steps s = length l /\
    (0 < duration -> su_throughput s * duration = INR (length l))%R /\ (duration <= 0 -> su_throughput s = 0)%R /\
    su_total s = total ts /\
    is_mean (su_avg_ms s) (in_ms ts) /\ is_median (su_median_ms s) (in_ms ts) /\
    is_max (su_max_ms s) (in_ms ts) /\ is_min (su_min_ms s) (in_ms ts) /\
    (2 <= length ts -> is_stdev (su_dev_ms s) (in_ms ts)) /\ (length ts <= 1 -> su_dev_ms s = 0%R) /\
    is_max (su_peak s) mem /\ is_mean (su_avg_mem s) mem /\
    su_allocated s = (if track_mem then total (lastn mx (increases 0 (map q_mem l))) else 0%R) /\
    su_bottlenecks s = length (filter (fun q => Rlt_b bott (q_time q * 1000)) l) /\
    su_jit s = length (filter q_jit (lastn mx l)) /\
    su_advice s = length (recommendations p).
Proof. exact @profile_summary_exact. Qed.
Print Assumptions C103_profile.

(** C103: the memory efficiency is a fraction, the minimum over the peak; 1 when memory is not tracked. *)
Theorem C103_efficiency :
  forall (track_mem : bool) (bott leak : R) (mx : nat) (l : list rec_call) (duration : R) (s : profile_summary),
  let p := fold_left record_q l (new_profiler track_mem bott leak mx) in
  let mem := lastn mx (map q_mem l) in
  profile_get_summary (finalize p) duration p = Some s ->
  (track_mem = false -> su_efficiency s = 1 /\ su_peak s = 0 /\ su_avg_mem s = 0)%R /\
  (track_mem = true -> (forall q, In q l -> 0 <= q_mem q)%R ->
    (0 <= su_efficiency s <= 1)%R /\
    (forall lo, is_min lo mem -> 0 < su_peak s -> su_efficiency s * su_peak s = lo)%R /\
    (su_peak s = 0 -> su_efficiency s = 1)%R).
Proof. exact @efficiency. Qed.
Print Assumptions C103_efficiency.

(** C103: when memory only grows, total_allocated is the whole memory of the process at the end, including what it
    held before the session, not the growth. *)
Theorem C103_allocated_refuted :
  forall (bott leak : R) (mx : nat) (l : list rec_call) (duration : R) (s : profile_summary),
  let p := fold_left record_q l (new_profiler true bott leak mx) in
  length l <= mx -> (forall q, In q l -> 0 <= q_mem q)%R -> StronglySorted Rle (map q_mem l) ->
  profile_get_summary (finalize p) duration p = Some s ->
  su_allocated s = last (map q_mem l) 0%R.
Proof. exact @allocated_whole. Qed.
Print Assumptions C103_allocated_refuted.

(** C103: execution_stats and memory_stats of a finalized result. *)
Theorem C103_result_stats :
  forall (track_mem : bool) (bott leak : R) (mx : nat) (l : list rec_call),
  let p := fold_left record_q l (new_profiler track_mem bott leak mx) in
  let of := fun (o : option stats) (k : list R) =>
    (o = None <-> k = []) /\ forall s, o = Some s ->
      is_mean (st_mean s) k /\ is_median (st_median s) k /\ is_min (st_min s) k /\ is_max (st_max s) k /\
      (2 <= length k -> is_stdev (st_dev s) k) /\ (length k <= 1 -> st_dev s = 0%R) in
  of (execution_stats p) (lastn mx (map q_time l)) /\
  of (memory_stats p) (lastn mx (map (fun q => if track_mem then q_mem q else 0%R) l)).
Proof. exact @result_stats. Qed.
Print Assumptions C103_result_stats.

(** C103: get_module_summary covers the records of the module among the last [mx] records of all modules; the
    error is exactly the case of none left. *)
Theorem C103_module :
  forall (track_mem : bool) (bott leak : R) (mx : nat) (l : list rec_call) (name : string),
  let p := fold_left record_q l (new_profiler track_mem bott leak mx) in
  let k := filter (fun q => String.eqb (q_module q) name) (lastn mx l) in
  let ts := map q_time k in
  let mem := map (fun q => if track_mem then q_mem q else 0%R) k in
  (get_module_summary name p = None <-> k = []) /\
  forall s, get_module_summary name p = Some s ->
    mo_count s = length k /\ mo_total_ms s = total (in_ms ts) /\ is_mean (mo_avg_ms s) (in_ms ts) /\
    is_max (mo_max_ms s) (in_ms ts) /\ is_min (mo_min_ms s) (in_ms ts) /\
    is_mean (mo_avg_mem s) mem /\ is_max (mo_peak s) mem /\ mo_jit s = length (filter q_jit k).
Proof. exact @module_exact. Qed.
Print Assumptions C103_module.

(** C103: get_memory_summary covers the last [mx] snapshots: peak, minimum, mean and growth of these; the number of
    jax arrays is 0 whatever happens; leaks are counted by their totals. *)
Theorem C103_memory :
  forall (interval : nat) (thr : R) (mx : nat) (calls : list call_mem) (t : tracker),
  interval <> 0 ->
  snapshots_run (new_tracker interval thr mx) calls = Some t ->
  let l := lastn mx (due interval 0 calls) in
  let mems := map (fun d => snd (snd d)) l in
  (get_memory_summary t = None <-> l = []) /\
  forall s, get_memory_summary t = Some s ->
    ms_snaps s = length l /\ ms_steps s = length calls /\
    ms_current s = last mems 0%R /\ is_max (ms_peak s) mems /\ is_min (ms_min s) mems /\ is_mean (ms_avg s) mems /\
    ms_growth s = (last mems 0 - hd 0 mems)%R /\
    (ms_state s, ms_params s, ms_buffers s) =
      analyze_state_memory (let '(_, (_, st, _, _)) := last l (0, (""%string, None, false, 0%R)) in st) /\
    ms_arrays s = 0 /\ ms_peak_arrays s = 0%R /\ ms_avg_arrays s = 0%R /\
    ms_leaks s = length (t_leaks t) /\
    ms_critical s = length (filter (fun lk => Rlt_b 100 (l_total lk)) (t_leaks t)) /\
    ms_high s = length (filter (fun lk => Rlt_b 50 (l_total lk) && Rle_b (l_total lk) 100) (t_leaks t)).
Proof. exact @memory_summary_exact. Qed.
Print Assumptions C103_memory.

(** C103: one steady growth is counted as a new leak at each snapshot from the fifth. *)
Theorem C103_repeated_refuted :
  forall (interval : nat) (thr : R) (mx n : nat) (name : string) (a b : R),
  interval <> 0 -> 10 <= mx -> (0 <= thr)%R -> (thr < 4 * (b * INR interval))%R -> interval <= n ->
  exists t s, snapshots_run (new_tracker interval thr mx) (steady name (fun i => (a + b * INR i)%R) n) = Some t /\
    get_memory_summary t = Some s /\ ms_leaks s = n / interval - 4 /\ ms_snaps s = Nat.min mx (n / interval).
Proof. exact @repeated_leaks. Qed.
Print Assumptions C103_repeated_refuted.

(** C103: get_module_memory_analysis covers the snapshots of the module among the last [mx]. *)
Theorem C103_module_memory :
  forall (interval : nat) (thr : R) (mx : nat) (calls : list call_mem) (t : tracker) (name : string),
  interval <> 0 ->
  snapshots_run (new_tracker interval thr mx) calls = Some t ->
  let l := filter (fun d : nat * call_mem => String.eqb (let '(_, (m, _, _, _)) := d in m) name) (lastn mx (due interval 0 calls)) in
  let mems := map (fun d => snd (snd d)) l in
  let states := map (fun d : nat * call_mem => fst (fst (analyze_state_memory (let '(_, (_, st, _, _)) := d in st)))) l in
  (get_module_memory_analysis name t = None <-> l = []) /\
  forall s, get_module_memory_analysis name t = Some s ->
    mm_count s = length l /\ mm_current s = last mems 0%R /\ is_max (mm_peak s) mems /\ is_mean (mm_avg s) mems /\
    mm_growth s = (last mems 0 - hd 0 mems)%R /\
    mm_state s = last states 0%R /\ is_max (mm_state_peak s) states /\ is_mean (mm_state_avg s) states.
Proof. exact @module_memory_exact. Qed.
Print Assumptions C103_module_memory.

(** Three records with a history of two: the steps of all three, the statistics of the last two. *)
Example C103_example :
  let l := [Rec "f" 5 0 0 false 90; Rec "f" 1 0 0 true 40; Rec "g" 3 0 0 false 80] in
  let p := fold_left record_q l (new_profiler true 2000 50 2) in
  exists s, profile_get_summary (finalize p) 6 p = Some s /\
    su_steps s = 3 /\ (su_throughput s = 1 / 2)%R /\ su_total s = 4%R /\ su_median_ms s = 2000%R /\ su_peak s = 80%R /\
    su_efficiency s = (1 / 2)%R /\ su_allocated s = 40%R /\ su_bottlenecks s = 2 /\ su_jit s = 1.
Proof.
  cbv zeta. set (l := [_; _; _]). set (p := fold_left record_q l _).
  destruct (profile_summary_exact true 2000 50 2 l 6) as [N X]. cbv zeta in N, X. fold p in N, X.
  destruct (profile_get_summary (finalize p) 6 p) as [s|] eqn:E.
  2: { exfalso. destruct (proj1 N eq_refl) as [A|A]; discriminate. }
  exists s. split; [reflexivity|].
  destruct (X s eq_refl) as (_ & A1 & A2 & _ & A3 & _ & A4 & _ & _ & _ & _ & A5 & _ & A6 & A7 & A8 & _).
  destruct (efficiency true 2000 50 2 l 6 s E) as [_ F]. cbv zeta in F.
  assert (HP : forall q, In q l -> (0 <= q_mem q)%R) by (intros q HI; unfold l in HI; cbn in HI; destruct HI as [<-|[<-|[<-|[]]]]; cbn; lra).
  destruct (F eq_refl HP) as (_ & F2 & _).
  assert (EM : lastn 2 (map q_mem l) = [40%R; 80%R]) by reflexivity.
  assert (ET : in_ms (lastn 2 (map q_time l)) = [(1 * 1000)%R; (3 * 1000)%R]) by reflexivity.
  assert (P80 : su_peak s = 80%R).
  { destruct A5 as [I U]. change (lastn 2 (map (fun q => q_mem q) l)) with [40%R; 80%R] in I, U.
    pose proof (U 80%R (or_intror (or_introl eq_refl))). destruct I as [I|[I|[]]]; lra. }
  split; [exact A1|]. split; [assert (Y := A2 ltac:(lra)); cbn in Y; lra|]. split; [rewrite A3; cbn; lra|]. split.
  { rewrite ET in A4. apply (median_unique _ _ _ A4).
    exists [(1 * 1000)%R; (3 * 1000)%R]. split; [reflexivity|]. split; [repeat constructor; lra|].
    right. exists [], (1 * 1000)%R, (3 * 1000)%R, []. split; [reflexivity|]. split; [reflexivity|lra]. }
  split; [exact P80|]. split.
  { assert (Y := F2 40%R). rewrite EM, P80 in Y. assert (Z := Y ltac:(split; [now left|intros x [<-|[<-|[]]]; lra]) ltac:(lra)). lra. }
  split; [|split; [|exact A8]].
  - rewrite A6. unfold l, lastn. cbn -[Rmax Rminus Rplus]. rewrite (Rmax_left 0 (40 - 90)) by lra. rewrite (Rmax_right 0 (80 - 40)) by lra. lra.
  - rewrite A7. unfold l. cbn [filter q_time]. rewrite (Rlt_b_true 2000 (5 * 1000)) by lra. rewrite (Rlt_b_false 2000 (1 * 1000)) by lra.
    rewrite (Rlt_b_true 2000 (3 * 1000)) by lra. reflexivity.
Qed.

(** A tracker keeping one snapshot forgets the peak. *)
Example C103_memory_example :
  exists t s, snapshots_run (new_tracker 1 10 1) [("f"%string, None, false, 900%R); ("f"%string, None, false, 50%R)] = Some t /\
    get_memory_summary t = Some s /\ ms_steps s = 2 /\ ms_snaps s = 1 /\ ms_peak s = 50%R /\ ms_growth s = 0%R.
Proof.
  eexists. eexists. split; [reflexivity|]. split; [reflexivity|]. cbn. repeat split. lra.
Qed.
