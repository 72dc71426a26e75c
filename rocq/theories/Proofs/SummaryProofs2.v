(** Proofs about the summaries of debugger, profiler and memory tracker (C103). *)
From Coq Require Import String List Bool Arith Lia ZArith Reals Lra Permutation Sorted.
From Verif Require Import Model.Float Model.FlaxOptim Spec.StreamSpec Spec.DebugSpec Spec.SummarySpec Proofs.FloatFacts
  Proofs.FlaxOptimProofs Proofs.DebugProofs Proofs.DebugProofs2 Proofs.DebugProofs3 Proofs.DebugProofs4 Proofs.DebugProofs5 Proofs.SummaryProofs.
From Verif Require Import Model.Debug Model.Summary.
Import ListNotations.
Local Open Scope list_scope.

(** * Scaling *)
Lemma ms_max m l : is_max m l -> is_max (m * 1000) (in_ms l).
Proof.
  intros [I U]. split; [unfold in_ms; apply in_map_iff; now exists m|].
  intros x HI. apply in_map_iff in HI. destruct HI as (y & <- & HI). pose proof (U y HI). lra.
Qed.
Lemma ms_min m l : is_min m l -> is_min (m * 1000) (in_ms l).
Proof.
  intros [I U]. split; [unfold in_ms; apply in_map_iff; now exists m|].
  intros x HI. apply in_map_iff in HI. destruct HI as (y & <- & HI). pose proof (U y HI). lra.
Qed.
Lemma total_scale c l : total (map (fun t => (t * c)%R) l) = (total l * c)%R.
Proof. induction l as [|x l IH]; cbn; [lra|rewrite IH; lra]. Qed.
Lemma ms_mean m l : is_mean m l -> is_mean (m * 1000) (in_ms l).
Proof. unfold is_mean, in_ms. intros E. rewrite map_length, total_scale, <- E. lra. Qed.
Lemma sorted_scale l : StronglySorted Rle l -> StronglySorted Rle (in_ms l).
Proof.
  induction l as [|x l IH]; intros H; cbn; [constructor|]. apply StronglySorted_inv in H. destruct H as [H F].
  constructor; [apply IH, H|]. rewrite Forall_forall in *. intros y HI. apply in_map_iff in HI. destruct HI as (z & <- & HI).
  pose proof (F z HI). lra.
Qed.
Lemma ms_median m l : is_median m l -> is_median (m * 1000) (in_ms l).
Proof.
  intros (s & P & HS & C). exists (in_ms s). split; [unfold in_ms; apply Permutation_map, P|]. split; [apply sorted_scale, HS|].
  destruct C as [(a & b & E & L)|(a & x & y & b & E & L & ->)]; [left|right].
  - exists (in_ms a), (in_ms b). unfold in_ms. rewrite E, map_app, !map_length. split; [reflexivity|exact L].
  - exists (in_ms a), (x * 1000)%R, (y * 1000)%R, (in_ms b). unfold in_ms. rewrite E, map_app, !map_length.
    split; [reflexivity|]. split; [exact L|lra].
Qed.
Lemma total_ext_map (f g : R -> R) l : (forall x, f x = g x) -> total (map f l) = total (map g l).
Proof. intros H. induction l as [|x l IH]; cbn; [reflexivity|rewrite H, IH; reflexivity]. Qed.
Lemma ms_stdev d l : is_stdev d l -> is_stdev (d * 1000) (in_ms l).
Proof.
  intros (P & m & M & E). split; [lra|]. exists (m * 1000)%R. split; [apply ms_mean, M|].
  unfold in_ms at 2. rewrite map_map.
  rewrite (total_ext_map _ (fun x => ((x - m) * (x - m)) * (1000 * 1000))%R) by (intros; ring).
  replace (map (fun x => ((x - m) * (x - m)) * (1000 * 1000))%R l)
    with (map (fun t => (t * (1000 * 1000))%R) (map (fun x => ((x - m) * (x - m))%R) l)) by (rewrite map_map; reflexivity).
  rewrite total_scale, <- E. unfold in_ms. rewrite map_length. ring.
Qed.

(** * The debugger *)
Section DebuggerSummary.
  Context {S I O M H : Type}.
  Variable copy : S -> H.

  Lemma debugger_summary (track_state track_perf : bool) (mx : nat) (ops : list (op S I O M)) :
    let items := seen track_perf true 0 [] ops in
    let l := since_clear items in
    let times := if track_perf then flat_map (fun x => match ob_time x with Some t => [t] | None => [] end) l else [] in
    let s := get_debug_summary (session copy ops (new_debugger track_state track_perf mx : debugger S I O M H)) in
    ds_steps s = count_seen items /\ ds_history s = (if track_state then Nat.min mx (length l) else 0) /\ ds_globals s = 0 /\
    (ds_perf s = None <-> times = []) /\
    forall p, ds_perf s = Some p ->
      ps_steps p = length times /\ is_mean (ps_avg_ms p) (in_ms times) /\
      is_max (ps_max_ms p) (in_ms times) /\ is_min (ps_min_ms p) (in_ms times).
  Proof.
    cbv zeta. destruct (records_exact copy track_state track_perf mx ops) as (E1 & E2 & _ & E4 & E5).
    cbv zeta in E1, E2, E4, E5. unfold get_debug_summary. cbn [ds_steps ds_history ds_globals ds_perf].
    rewrite E1, E2, E4, E5. clear E1 E2 E4 E5.
    set (ts := if track_perf then _ else _).
    split; [reflexivity|]. split; [|split; [reflexivity|split]].
    - destruct track_state; [|reflexivity]. rewrite lastn_length, map_length. reflexivity.
    - destruct ts; split; congruence.
    - intros p E. destruct ts as [|t ts'] eqn:ET; [discriminate|]. assert (E' : p = PerfSum (length (t :: ts')) (sumR (t :: ts') / INR (length (t :: ts')) * 1000)%R (maxR (t :: ts') * 1000)%R (minR (t :: ts') * 1000)%R) by congruence.
      subst p. cbn [ps_steps ps_avg_ms ps_max_ms ps_min_ms]. split; [reflexivity|].
      assert (N : t :: ts' <> []) by congruence.
      split; [apply ms_mean, (mean_is _ N)|]. split; [apply ms_max, max_is, N|apply ms_min, min_is, N].
  Qed.

  Lemma hook_state (k : string) (c : condition S I O M) (m : M) (a : action) (mx : nat) (ops : list (op S I O M)) (d : debugger S I O M H) :
    Forall (keeps k) ops ->
    let d' := session copy ops (add_hook k (new_hook (Some c) m a mx) d) in
    let l := since_clear (accepted c m (seen (d_track_perf d) (d_enabled d) (d_current d) (d_times d) ops)) in
    exists h, sget k (d_hooks d') = Some h /\ h_enabled h = true /\ h_hits h = length l /\
              h_events h = lastn mx (map (event_of (match a with ABreak => true | _ => false end)) l).
  Proof.
    intros HK. cbn zeta.
    destruct (hook_run copy k c a mx [] ops (add_hook k (new_hook (Some c) m a mx) d) m HK) as [m' R].
    - unfold add_hook, new_hook. cbn [d_hooks map length]. rewrite lastn_nil, sget_sset, String.eqb_refl. reflexivity.
    - cbn zeta in R. eexists. split; [exact R|]. split; [|split]; reflexivity.
  Qed.

  Lemma summary_hook (k : string) (c : condition S I O M) (m : M) (a : action) (mx : nat) (ops : list (op S I O M)) (d : debugger S I O M H) :
    Forall (keeps k) ops ->
    let d' := session copy ops (add_hook k (new_hook (Some c) m a mx) d) in
    let l := since_clear (accepted c m (seen (d_track_perf d) (d_enabled d) (d_current d) (d_times d) ops)) in
    sget k (ds_hooks (get_debug_summary d')) = Some (length l, true, Nat.min mx (length l)) /\
    exists s hooks perf, export_events "dict" d' = Some (s, hooks, perf) /\ s = get_debug_summary d' /\
      sget k hooks = Some (lastn mx (map (fun x => (ob_step x, match a with ABreak => true | _ => false end,
                                                    match ob_time x with Some t => if Req_EM_T t 0 then None else Some (t * 1000)%R | None => None end)) l)).
  Proof.
    intros HK. cbv zeta. destruct (hook_state k c m a mx ops d HK) as (h & G & E & Hh & Ev). cbv zeta in G, Hh, Ev.
    split.
    - unfold get_debug_summary. cbn [ds_hooks].
      rewrite (sget_map_snd (fun kh => (h_hits (snd kh), h_enabled (snd kh), length (h_events (snd kh)))) k), G. cbn [snd].
      rewrite E, Hh, Ev, lastn_length, map_length. reflexivity.
    - unfold export_events. rewrite String.eqb_refl. do 3 eexists. split; [reflexivity|]. split; [reflexivity|].
      rewrite (sget_map_snd (fun kh => map (fun e => (e_step e, e_break e, e_ms e)) (h_events (snd kh))) k), G. cbn [snd].
      rewrite Ev, <- lastn_map, map_map. reflexivity.
  Qed.

  Lemma export_total (format : string) (d : debugger S I O M H) :
    (export_events format d = None <-> format <> "dict"%string) /\
    forall s hooks times steps, export_events format d = Some (s, hooks, (times, steps)) ->
      s = get_debug_summary d /\ times = d_times d /\ steps = d_steps d /\
      map fst hooks = map fst (d_hooks d) /\
      map (fun kv => length (snd kv)) hooks = map (fun kv => snd (snd kv)) (ds_hooks s).
  Proof.
    unfold export_events. split.
    - destruct (String.eqb_spec format "dict"); split; congruence.
    - intros s hooks times steps E. destruct (String.eqb format "dict"); [|discriminate].
      injection E as <- <- <- <-. split; [reflexivity|]. split; [reflexivity|]. split; [reflexivity|]. split.
      + rewrite map_map. reflexivity.
      + unfold get_debug_summary. cbn [ds_hooks]. rewrite !map_map. cbn [snd]. apply map_ext. intros kh. rewrite map_length. reflexivity.
  Qed.

  Lemma summary_clear (d : debugger S I O M H) :
    let s := get_debug_summary d in
    let s' := get_debug_summary (clear_history d) in
    ds_steps s' = ds_steps s /\
    ds_perf s' = None /\ ds_history s' = 0 /\ ds_globals s' = 0 /\
    ds_hooks s' = map (fun kv => (fst kv, (0, snd (fst (snd kv)), 0))) (ds_hooks s).
  Proof.
    cbv zeta. unfold get_debug_summary, clear_history. cbn [ds_steps ds_perf ds_history ds_globals ds_hooks d_current d_times d_history d_globals d_hooks].
    split; [reflexivity|]. split; [reflexivity|]. split; [reflexivity|]. split; [reflexivity|].
    rewrite !map_map. reflexivity.
  Qed.
End DebuggerSummary.

(** * The profiler *)
Lemma lastn_ne {A} n (l : list A) : lastn n l = [] <-> l = [] \/ n = 0.
Proof.
  split.
  - intros E. apply (f_equal (@length A)) in E. rewrite lastn_length in E. cbn in E. destruct l; [now left|]. right. cbn in E. lia.
  - intros [-> | ->]; [apply lastn_nil|]. unfold lastn. rewrite Nat.sub_0_r. apply skipn_all.
Qed.
Lemma metrics_mem tm : forall l n last, map m_mem (metrics_of tm n last l) = map (fun q => if tm then q_mem q else 0%R) l.
Proof. induction l as [|q l IH]; intros n last; cbn; [reflexivity|]. rewrite IH. reflexivity. Qed.
Lemma metrics_jit tm : forall l n last, map m_jit (metrics_of tm n last l) = map q_jit l.
Proof. induction l as [|q l IH]; intros n last; cbn; [reflexivity|]. rewrite IH. reflexivity. Qed.
Lemma metrics_module tm : forall l n last, map m_module (metrics_of tm n last l) = map q_module l.
Proof. induction l as [|q l IH]; intros n last; cbn; [reflexivity|]. rewrite IH. reflexivity. Qed.
Lemma metrics_deltas tm : forall l n last, map (fun m => Rmax 0 (m_delta m)) (metrics_of tm n last l) =
  if tm then increases last (map q_mem l) else map (fun _ => 0%R) l.
Proof.
  induction l as [|q l IH]; intros n last; cbn; [now destruct tm|]. rewrite IH. destruct tm; cbn; [reflexivity|].
  f_equal. apply Rmax_left. lra.
Qed.
Lemma filter_map_len {A B} (f : A -> B) p l : length (filter (fun x => p (f x)) l) = length (filter p (map f l)).
Proof. rewrite <- filter_map_comm, map_length. reflexivity. Qed.
Lemma total_positive l : total (filter (fun x => Rlt_b 0 x) l) = total (map (Rmax 0) l).
Proof.
  induction l as [|x l IH]; cbn; [reflexivity|]. destruct (Rlt_b 0 x) eqn:B; cbn; rewrite IH.
  - apply Rlt_b_iff in B. rewrite Rmax_right by lra. reflexivity.
  - assert (~ (0 < x)%R) by (rewrite <- Rlt_b_iff; congruence). rewrite Rmax_left by lra. lra.
Qed.
Lemma map_ne {A B} (f : A -> B) l : l <> [] -> map f l <> [].
Proof. destruct l; cbn; congruence. Qed.

Lemma profile_summary_exact (track_mem : bool) (bott leak : R) (mx : nat) (l : list rec_call) (duration : R) :
  let p := fold_left record_q l (new_profiler track_mem bott leak mx) in
  let ts := lastn mx (map q_time l) in
  let mem := lastn mx (map (fun q => if track_mem then q_mem q else 0%R) l) in
  let r := profile_get_summary (finalize p) duration p in
  (r = None <-> l = [] \/ mx = 0) /\
  forall s, r = Some s ->
    su_duration s = duration /\ su_steps s = length l /\
    (0 < duration -> su_throughput s * duration = INR (length l))%R /\ (duration <= 0 -> su_throughput s = 0)%R /\
    su_total s = total ts /\
    is_mean (su_avg_ms s) (in_ms ts) /\ is_median (su_median_ms s) (in_ms ts) /\
    is_max (su_max_ms s) (in_ms ts) /\ is_min (su_min_ms s) (in_ms ts) /\
    (2 <= length ts -> is_stdev (su_dev_ms s) (in_ms ts)) /\ (length ts <= 1 -> su_dev_ms s = 0%R) /\
    is_max (su_peak s) mem /\ is_mean (su_avg_mem s) mem /\
    su_allocated s = (if track_mem then total (lastn mx (increases 0 (map q_mem l))) else 0%R) /\
    su_bottlenecks s = length (filter (fun q => Rlt_b bott (q_time q * 1000)) l) /\
    su_jit s = length (filter q_jit (lastn mx l)) /\
    su_advice s = length (recommendations p).
Proof.
  intros p ts mem r. unfold r, profile_get_summary. clear r.
  destruct (record_exact track_mem bott leak mx l) as (EM & ES & EB & _). cbv zeta in EM, ES, EB. fold p in EM, ES, EB.
  assert (ET : map m_time (p_metrics p) = ts) by (rewrite EM, <- lastn_map, metrics_times; reflexivity).
  assert (EMem : map m_mem (p_metrics p) = mem) by (rewrite EM, <- lastn_map, metrics_mem; reflexivity).
  assert (NN : p_metrics p = [] <-> l = [] \/ mx = 0).
  { rewrite EM, lastn_ne. split; intros [E|E]; [left|now right|left|now right].
    - apply (f_equal (@length metric)) in E. rewrite metrics_length in E. destruct l; [reflexivity|discriminate].
    - now subst. }
  cbn [finalize r_metrics r_steps r_advice r_shared].
  destruct (p_metrics p) as [|m0 ms] eqn:EP.
  - split; [split; [intros _; now apply NN|reflexivity]|]. discriminate.
  - rewrite <- EP in *. assert (NE : p_metrics p <> []) by (rewrite EP; discriminate).
    split; [split; [discriminate|intros X; apply NN in X; congruence]|].
    intros s E. assert (E' := f_equal (fun o => match o with Some x => x | None => s end) E). cbv beta iota in E'. subst s. clear E.
    cbv zeta. cbn [su_duration su_steps su_throughput su_total su_avg_ms su_median_ms su_max_ms su_min_ms su_dev_ms su_peak su_avg_mem su_allocated su_bottlenecks su_jit su_advice].
    rewrite ET, EMem. assert (NT : ts <> []) by (rewrite <- ET; apply map_ne, NE). assert (NM : mem <> []) by (rewrite <- EMem; apply map_ne, NE).
    split; [reflexivity|]. split; [exact ES|].
    split; [intros HD; rewrite (Rlt_b_true _ _ HD), ES; field; lra|].
    split; [intros HD; rewrite (Rlt_b_false _ _ HD); reflexivity|].
    split; [apply sumR_total|]. split; [apply ms_mean, mean_is, NT|]. split; [apply ms_median, median_is, NT|].
    split; [apply ms_max, max_is, NT|]. split; [apply ms_min, min_is, NT|].
    split; [intros H2; destruct (Nat.ltb_spec 1 (length ts)); [apply ms_stdev, stdev_is, H2|lia]|].
    split; [intros H2; destruct (Nat.ltb_spec 1 (length ts)); [lia|reflexivity]|].
    split; [apply max_is, NM|]. split; [apply mean_is, NM|].
    split; [|split; [|split; [|reflexivity]]].
    + rewrite sumR_total, total_positive, map_map, EM, <- lastn_map, metrics_deltas. destruct track_mem; [reflexivity|].
      rewrite lastn_map. generalize (lastn mx l) as k. induction k as [|q k IH]; cbn; [reflexivity|]. rewrite IH. lra.
    + unfold result_bottlenecks. cbn [finalize r_shared]. 
      assert (EB' : (if match p_bottlenecks p with Some _ => true | None => false end then match p_bottlenecks p with Some b => b | None => [] end else []) = opt_list (p_bottlenecks p)) by (destruct (p_bottlenecks p); reflexivity).
      rewrite EB', EB. rewrite (filter_map_len m_time (fun t => Rlt_b bott (t * 1000))), metrics_times.
      rewrite <- (filter_map_len q_time (fun t => Rlt_b bott (t * 1000))). reflexivity.
    + rewrite (filter_map_len m_jit (fun b => b)), EM, <- lastn_map, metrics_jit, lastn_map. symmetry. apply (filter_map_len q_jit (fun b => b)).
Qed.
