(** Proofs about the summaries of profiler and memory tracker, continued (C103). *)
From Coq Require Import String List Bool Arith Lia ZArith Reals Lra Permutation Sorted.
From Verif Require Import Model.Float Model.FlaxOptim Spec.StreamSpec Spec.DebugSpec Spec.SummarySpec Proofs.FloatFacts
  Proofs.FlaxOptimProofs Proofs.DebugProofs Proofs.DebugProofs2 Proofs.DebugProofs3 Proofs.DebugProofs4 Proofs.DebugProofs5 Proofs.SummaryProofs Proofs.SummaryProofs2.
From Verif Require Import Model.Debug Model.Summary.
Import ListNotations.
Local Open Scope list_scope.

Lemma some_inj {A} (x y : A) : Some x = Some y -> x = y.
Proof. congruence. Qed.

(** C103_efficiency *)
Lemma efficiency (track_mem : bool) (bott leak : R) (mx : nat) (l : list rec_call) (duration : R) (s : profile_summary) :
  let p := fold_left record_q l (new_profiler track_mem bott leak mx) in
  let mem := lastn mx (map q_mem l) in
  profile_get_summary (finalize p) duration p = Some s ->
  (track_mem = false -> su_efficiency s = 1 /\ su_peak s = 0 /\ su_avg_mem s = 0)%R /\
  (track_mem = true -> (forall q, In q l -> 0 <= q_mem q)%R ->
    (0 <= su_efficiency s <= 1)%R /\
    (forall lo, is_min lo mem -> 0 < su_peak s -> su_efficiency s * su_peak s = lo)%R /\
    (su_peak s = 0 -> su_efficiency s = 1)%R).
Proof.
  intros p mem. unfold profile_get_summary.
  destruct (record_exact track_mem bott leak mx l) as (EM & _). cbv zeta in EM. fold p in EM.
  cbn [finalize r_metrics r_steps r_advice r_shared].
  assert (EMem : map m_mem (p_metrics p) = lastn mx (map (fun q => if track_mem then q_mem q else 0%R) l))
    by (rewrite EM, <- lastn_map, metrics_mem; reflexivity).
  destruct (p_metrics p) as [|m0 ms] eqn:EP; [discriminate|]. rewrite <- EP in *.
  assert (NE : map m_mem (p_metrics p) <> []) by (rewrite EP; discriminate). clear EP.
  intros E. apply some_inj in E. subst s. cbn [su_efficiency su_peak su_avg_mem]. rewrite EMem in *.
  destruct track_mem.
  - split; [discriminate|]. intros _ HP. change (lastn mx (map (fun q : rec_call => q_mem q) l)) with mem in NE |- *.
    pose proof (max_is mem NE) as HX. pose proof (min_is mem NE) as HN.
    assert (P : forall x, In x mem -> (0 <= x)%R).
    { intros x HI. unfold mem in HI. rewrite lastn_map in HI. apply in_map_iff in HI. destruct HI as (q & <- & HI). apply HP.
      unfold lastn in HI. rewrite <- (firstn_skipn (length l - mx) l). apply in_or_app. now right. }
    pose proof (P _ (proj1 HN)) as PN. pose proof (proj2 HX _ (proj1 HN)) as LE.
    split; [|split].
    + destruct (Rlt_b 0 (maxR mem)) eqn:B; [|split; lra]. apply Rlt_b_iff in B. unfold Rdiv. split.
      * apply Rmult_le_pos; [exact PN|]. left. apply Rinv_0_lt_compat, B.
      * apply Rmult_le_reg_r with (maxR mem); [exact B|]. rewrite Rmult_assoc, Rinv_l by lra. lra.
    + intros lo HL PX. rewrite (Rlt_b_true _ _ PX). rewrite (min_unique mem lo (minR mem) HL HN). field. lra.
    + intros Z. rewrite Z, Rlt_b_false by lra. reflexivity.
  - split; [|discriminate]. intros _. cbv iota in NE |- *.
    set (z := lastn mx (map (fun _ => 0%R) l)) in *.
    assert (Z : forall x, In x z -> x = 0%R).
    { intros x HI. unfold z in HI. rewrite lastn_map in HI. apply in_map_iff in HI. now destruct HI as (q & <- & _). }
    assert (EX : maxR z = 0%R) by (apply Z, (proj1 (max_is z NE))).
    assert (EN : minR z = 0%R) by (apply Z, (proj1 (min_is z NE))).
    split; [|split; [exact EX|]].
    + rewrite EX, Rlt_b_false by lra. reflexivity.
    + pose proof (mean_is z NE) as HM. unfold is_mean in HM. pose proof (INR_len_pos z NE) as HL.
      destruct (total_between 0 0 z) as [T1 T2]; [intros x HI; rewrite (Z x HI); lra|].
      apply Rmult_eq_reg_r with (INR (length z)); lra.
Qed.

(** C103_allocated_refuted *)
Lemma increases_monotone : forall l prev, (prev <= hd prev l)%R -> StronglySorted Rle l -> total (increases prev l) = (last l prev - prev)%R.
Proof.
  induction l as [|x l IH]; intros prev H HS; cbn [increases total last]; [lra|]. cbn [hd] in H.
  apply StronglySorted_inv in HS. destruct HS as [HS F].
  rewrite IH; [|destruct l as [|y l]; cbn; [lra|]; inversion F; assumption|exact HS].
  rewrite Rmax_right by lra. destruct l as [|y l]; cbn; [lra|]. 
  assert (E : forall (k : list R) a b, last (a :: k) b = last (a :: k) prev).
  { clear. induction k as [|c k IH]; intros a b; [reflexivity|]. cbn [last]. apply IH. }
  change (Rmax 0 (x - prev)) with (Rmax 0 (x - prev)). pose proof (E l y x) as EE. cbn [last] in EE. rewrite EE. lra.
Qed.
Lemma allocated_whole (bott leak : R) (mx : nat) (l : list rec_call) (duration : R) (s : profile_summary) :
  let p := fold_left record_q l (new_profiler true bott leak mx) in
  length l <= mx -> (forall q, In q l -> 0 <= q_mem q)%R -> StronglySorted Rle (map q_mem l) ->
  profile_get_summary (finalize p) duration p = Some s ->
  su_allocated s = last (map q_mem l) 0%R.
Proof.
  intros p HL HP HS E. destruct (profile_summary_exact true bott leak mx l duration) as [_ X]. cbv zeta in X.
  destruct (X s E) as (_ & _ & _ & _ & _ & _ & _ & _ & _ & _ & _ & _ & _ & A & _). rewrite A. clear X A E.
  assert (LI : forall k prev, length (increases prev k) = length k) by (induction k; intros; cbn; [reflexivity|f_equal; auto]).
  rewrite lastn_all by (rewrite LI, map_length; exact HL). rewrite increases_monotone; [lra| |exact HS].
  destruct l as [|q l]; cbn; [lra|]. apply HP. now left.
Qed.

(** C103_result_stats *)
Lemma stats_of_spec l : l <> [] ->
  is_mean (st_mean (stats_of l)) l /\ is_median (st_median (stats_of l)) l /\ is_min (st_min (stats_of l)) l /\ is_max (st_max (stats_of l)) l /\
  (2 <= length l -> is_stdev (st_dev (stats_of l)) l) /\ (length l <= 1 -> st_dev (stats_of l) = 0%R).
Proof.
  intros N. unfold stats_of. cbn [st_mean st_median st_min st_max st_dev].
  split; [apply mean_is, N|]. split; [apply median_is, N|]. split; [apply min_is, N|]. split; [apply max_is, N|].
  split; intros H2; (destruct (Nat.ltb_spec 1 (length l)); [|try lia; reflexivity]); [apply stdev_is, H2|lia].
Qed.
Lemma result_stats (track_mem : bool) (bott leak : R) (mx : nat) (l : list rec_call) :
  let p := fold_left record_q l (new_profiler track_mem bott leak mx) in
  let of := fun (o : option stats) (k : list R) =>
    (o = None <-> k = []) /\ forall s, o = Some s ->
      is_mean (st_mean s) k /\ is_median (st_median s) k /\ is_min (st_min s) k /\ is_max (st_max s) k /\
      (2 <= length k -> is_stdev (st_dev s) k) /\ (length k <= 1 -> st_dev s = 0%R) in
  of (execution_stats p) (lastn mx (map q_time l)) /\
  of (memory_stats p) (lastn mx (map (fun q => if track_mem then q_mem q else 0%R) l)).
Proof.
  intros p. cbv zeta. destruct (record_exact track_mem bott leak mx l) as (EM & _). cbv zeta in EM. fold p in EM.
  assert (ET : map m_time (p_metrics p) = lastn mx (map q_time l)) by (rewrite EM, <- lastn_map, metrics_times; reflexivity).
  assert (EMem : map m_mem (p_metrics p) = lastn mx (map (fun q => if track_mem then q_mem q else 0%R) l))
    by (rewrite EM, <- lastn_map, metrics_mem; reflexivity).
  rewrite <- ET, <- EMem. unfold execution_stats, memory_stats. clear ET EMem EM.
  destruct (p_metrics p) as [|m ms].
  - split; (split; [split; reflexivity|discriminate]).
  - split; (split; [split; discriminate|]); intros s E; apply some_inj in E; subst s; apply stats_of_spec; discriminate.
Qed.

(** C103_module *)
Lemma filter_modules (tm : bool) (name : string) (mx : nat) (l : list rec_call) : 
  filter (fun m => String.eqb (m_module m) name) (lastn mx (metrics_of tm 1 0 l)) = [] <->
  filter (fun q => String.eqb (q_module q) name) (lastn mx l) = [].
Proof.
  assert (E : length (filter (fun m => String.eqb (m_module m) name) (lastn mx (metrics_of tm 1 0 l))) =
              length (filter (fun q => String.eqb (q_module q) name) (lastn mx l))).
  { rewrite (filter_map_len m_module (fun k => String.eqb k name)), (filter_map_len q_module (fun k => String.eqb k name)).
    rewrite <- !lastn_map, metrics_module. reflexivity. }
  split; intros X; rewrite X in E; cbn in E; [symmetry in E|]; now apply length_zero_iff_nil.
Qed.
Lemma filter_metrics {B : Type} (tm : bool) (f : metric -> B) (g : rec_call -> B) name :
  (forall n q last, f (Metric n (q_module q) (q_time q) (if tm then q_mem q else 0%R) (if tm then (q_mem q - last)%R else 0%R) (q_jit q) (q_in q) (q_out q)) = g q) ->
  forall mx l, map f (filter (fun m => String.eqb (m_module m) name) (lastn mx (metrics_of tm 1 0 l))) =
               map g (filter (fun q => String.eqb (q_module q) name) (lastn mx l)).
Proof.
  intros HF mx l. unfold lastn. rewrite metrics_length. generalize (length l - mx) as d. generalize 1 as n. generalize 0%R as last.
  assert (HD : forall l n last, map f (filter (fun m => String.eqb (m_module m) name) (metrics_of tm n last l)) =
               map g (filter (fun q => String.eqb (q_module q) name) l)).
  { clear l mx. induction l as [|q l IH]; intros n last; cbn [metrics_of filter]; [reflexivity|]. cbn [m_module].
    destruct (String.eqb (q_module q) name); cbn [map]; [rewrite HF|]; rewrite IH; reflexivity. }
  induction l as [|q l IH]; intros last n [|d]; try reflexivity.
  - rewrite !skipn_O. apply HD.
  - cbn [metrics_of skipn]. apply IH.
Qed.
Lemma module_exact (track_mem : bool) (bott leak : R) (mx : nat) (l : list rec_call) (name : string) :
  let p := fold_left record_q l (new_profiler track_mem bott leak mx) in
  let k := filter (fun q => String.eqb (q_module q) name) (lastn mx l) in
  let ts := map q_time k in
  let mem := map (fun q => if track_mem then q_mem q else 0%R) k in
  (get_module_summary name p = None <-> k = []) /\
  forall s, get_module_summary name p = Some s ->
    mo_count s = length k /\ mo_total_ms s = total (in_ms ts) /\ is_mean (mo_avg_ms s) (in_ms ts) /\
    is_max (mo_max_ms s) (in_ms ts) /\ is_min (mo_min_ms s) (in_ms ts) /\
    is_mean (mo_avg_mem s) mem /\ is_max (mo_peak s) mem /\ mo_jit s = length (filter q_jit k).
Proof.
  intros p k ts mem. destruct (record_exact track_mem bott leak mx l) as (EM & _). cbv zeta in EM. fold p in EM.
  unfold get_module_summary. rewrite EM. set (ms := filter _ (lastn mx (metrics_of track_mem 1 0 l))).
  assert (ET : map m_time ms = ts) by (apply filter_metrics; reflexivity).
  assert (EMem : map m_mem ms = mem) by (apply (filter_metrics track_mem m_mem (fun q => if track_mem then q_mem q else 0%R)); reflexivity).
  assert (EJ : map m_jit ms = map q_jit k) by (apply filter_metrics; reflexivity).
  assert (EN : ms = [] <-> k = []) by apply filter_modules.
  destruct ms as [|m0 ms0] eqn:EMS.
  - split; [split; [intros _; now apply EN|reflexivity]|discriminate].
  - rewrite <- EMS in *. assert (N : ms <> []) by (rewrite EMS; discriminate).
    split; [split; [discriminate|intros X; apply EN in X; congruence]|].
    intros s E. apply some_inj in E. subst s. cbv zeta. cbn [mo_count mo_total_ms mo_avg_ms mo_max_ms mo_min_ms mo_avg_mem mo_peak mo_jit].
    rewrite ET, EMem. assert (NT : ts <> []) by (rewrite <- ET; apply map_ne, N). assert (NM : mem <> []) by (rewrite <- EMem; apply map_ne, N).
    split; [rewrite <- (map_length m_time ms), ET; apply map_length|].
    split; [unfold in_ms; rewrite total_scale, sumR_total; reflexivity|]. split; [apply ms_mean, mean_is, NT|].
    split; [apply ms_max, max_is, NT|]. split; [apply Proofs.SummaryProofs2.ms_min, min_is, NT|]. split; [apply mean_is, NM|]. split; [apply max_is, NM|].
    rewrite (filter_map_len m_jit (fun b => b)), EJ. symmetry. apply (filter_map_len q_jit (fun b => b)).
Qed.

(** * The memory tracker *)
Definition reading_of (d : nat * call_mem) : R := snd (snd d).
Lemma snaps_mem prev l : map s_mem (snaps_of prev l) = map reading_of l.
Proof.
  revert prev. induction l as [|[n [[[name st] force] mem]] l IH]; intros prev; cbn [snaps_of map]; [reflexivity|].
  destruct (analyze_state_memory st) as [[sv pv] bv]. cbn [map s_mem]. rewrite IH. reflexivity.
Qed.
Lemma snaps_state prev l : map (fun s => (s_state s, s_params s, s_buffers s)) (snaps_of prev l) =
  map (fun d : nat * call_mem => let '(_, (_, st, _, _)) := d in analyze_state_memory st) l.
Proof.
  revert prev. induction l as [|[n [[[name st] force] mem]] l IH]; intros prev; cbn [snaps_of map]; [reflexivity|].
  destruct (analyze_state_memory st) as [[sv pv] bv] eqn:E. cbn [map s_state s_params s_buffers]. rewrite IH. reflexivity.
Qed.
Lemma snaps_module prev l : map s_module (snaps_of prev l) =
  map (fun d : nat * call_mem => let '(_, (name, _, _, _)) := d in name) l.
Proof.
  revert prev. induction l as [|[n [[[name st] force] mem]] l IH]; intros prev; cbn [snaps_of map]; [reflexivity|].
  destruct (analyze_state_memory st) as [[sv pv] bv] eqn:E. cbn [map s_module]. rewrite IH. reflexivity.
Qed.
Lemma last_map {A B} (f : A -> B) l d : last (map f l) (f d) = f (last l d).
Proof. induction l as [|x l IH]; [reflexivity|]. destruct l; [reflexivity|]. cbn [map last] in *. exact IH. Qed.
Lemma last_default {A} (l : list A) a b : l <> [] -> last l a = last l b.
Proof. induction l as [|x l IH]; [congruence|]. intros _. destruct l; [reflexivity|]. cbn [last] in *. apply IH. discriminate. Qed.

(** every reported leak has the severity of its total *)
Lemma leak_severity (interval : nat) (thr : R) (mx : nat) (calls : list call_mem) (t : tracker) : interval <> 0 ->
  snapshots_run (new_tracker interval thr mx) calls = Some t ->
  Forall (fun lk => l_severity lk = severity_of (l_total lk)) (t_leaks t).
Proof.
  intros HI HR. destruct (tracker_exact interval thr mx calls HI) as (t' & HR' & _ & _ & EL). cbv zeta in EL.
  rewrite HR in HR'. apply some_inj in HR'. subst t'. rewrite EL. apply Forall_forall. intros lk IN.
  apply in_flat_map in IN. destruct IN as (j & _ & IN).
  apply (check_exact interval thr _ lk (due_snaps_lastn_arrays mx j _)) in IN.
  destruct IN as (_ & slope & _ & _ & _ & ->). reflexivity.
Qed.
Lemma severity_filter (lo : R) (sev : severity) (p : R -> bool) l :
  Forall (fun lk => l_severity lk = severity_of (l_total lk)) l ->
  (forall t, severity_of t = sev <-> p t = true) ->
  filter (is_severity sev) l = filter (fun lk => p (l_total lk)) l.
Proof.
  intros F HP. induction l as [|k l IH]; [reflexivity|]. inversion F as [|? ? E F']; subst. cbn [filter].
  assert (B : is_severity sev k = p (l_total k)).
  { unfold is_severity. rewrite E. destruct (p (l_total k)) eqn:Q.
    - apply HP in Q. rewrite Q. now destruct sev.
    - assert (X : severity_of (l_total k) <> sev) by (rewrite HP; congruence).
      destruct sev, (severity_of (l_total k)); congruence. }
  rewrite B, IH by exact F'. reflexivity.
Qed.

Lemma memory_summary_exact (interval : nat) (thr : R) (mx : nat) (calls : list call_mem) (t : tracker) :
  interval <> 0 ->
  snapshots_run (new_tracker interval thr mx) calls = Some t ->
  let l := lastn mx (due interval 0 calls) in
  let mems := map (fun d => snd (snd d)) l in
  (get_memory_summary t = None <-> l = []) /\
  forall s, get_memory_summary t = Some s ->
    ms_snaps s = length l /\ ms_steps s = length calls /\
    ms_current s = last mems 0%R /\ is_max (ms_peak s) mems /\ is_min (ms_min s) mems /\ is_mean (ms_avg s) mems /\
    ms_growth s = (last mems 0 - hd 0 mems)%R /\
    (ms_state s, ms_params s, ms_buffers s) =
      analyze_state_memory (let '(_, (_, st, _, _)) := last l (0, (""%string, None, false, 0%R)) in st) /\
    ms_arrays s = 0 /\ ms_peak_arrays s = 0%R /\ ms_avg_arrays s = 0%R /\
    ms_leaks s = length (t_leaks t) /\
    ms_critical s = length (filter (fun lk => Rlt_b 100 (l_total lk)) (t_leaks t)) /\
    ms_high s = length (filter (fun lk => Rlt_b 50 (l_total lk) && Rle_b (l_total lk) 100) (t_leaks t)).
Proof.
  intros HI HR l mems. pose proof (leak_severity interval thr mx calls t HI HR) as SEV.
  destruct (tracker_exact interval thr mx calls HI) as (t' & HR' & EST & ES & _). cbv zeta in ES.
  rewrite HR in HR'. apply some_inj in HR'. subst t'.
  assert (EMem : map s_mem (t_snaps t) = mems) by (rewrite ES, <- lastn_map, snaps_mem, lastn_map; reflexivity).
  assert (EState : map (fun s => (s_state s, s_params s, s_buffers s)) (t_snaps t) =
    map (fun d : nat * call_mem => let '(_, (_, st, _, _)) := d in analyze_state_memory st) l)
    by (rewrite ES, <- lastn_map, snaps_state, lastn_map; reflexivity).
  assert (EArr : Forall (fun s => s_arrays s = 0) (t_snaps t)).
  { rewrite ES. unfold lastn. apply Forall_skipn, snaps_arrays. }
  assert (ELen : length (t_snaps t) = length l).
  { rewrite <- (map_length s_mem), EMem. apply map_length. }
  unfold get_memory_summary. destruct (t_snaps t) as [|first rest] eqn:ET.
  - split; [split; [intros _; symmetry in ELen; now apply length_zero_iff_nil|reflexivity]|discriminate].
  - rewrite <- ET in *. assert (N : t_snaps t <> []) by (rewrite ET; discriminate).
    assert (NL : l <> []) by (intros X; rewrite X in ELen; now apply length_zero_iff_nil in ELen).
    split; [split; [discriminate|contradiction]|].
    intros s E. apply some_inj in E. subst s. cbv zeta.
    cbn [ms_snaps ms_steps ms_current ms_arrays ms_state ms_params ms_buffers ms_peak ms_min ms_avg ms_growth ms_peak_arrays ms_avg_arrays ms_leaks ms_critical ms_high].
    assert (NM : mems <> []) by (apply map_ne, NL). rewrite EMem.
    assert (EL : s_mem (last (t_snaps t) first) = last mems 0%R).
    { rewrite <- (last_map s_mem (t_snaps t) first), EMem. apply last_default, NM. }
    assert (EH : s_mem first = hd 0%R mems) by (rewrite <- EMem, ET; reflexivity).
    rewrite EL, EH.
    assert (Z : map (fun s => INR (s_arrays s)) (t_snaps t) = map (fun _ => 0%R) (t_snaps t)).
    { apply map_ext_in. intros x HIx. rewrite Forall_forall in EArr. rewrite (EArr x HIx). reflexivity. }
    assert (ZN : map (fun _ : snapshot => 0%R) (t_snaps t) <> []) by (apply map_ne, N).
    split; [exact ELen|]. split; [exact EST|]. split; [reflexivity|]. split; [apply max_is, NM|]. split; [apply min_is, NM|].
    split; [apply (mean_is mems NM)|]. split; [reflexivity|]. split.
    { pose proof (last_map (fun s => (s_state s, s_params s, s_buffers s)) (t_snaps t) first) as LS. cbv beta in LS. rewrite <- LS, EState.
      rewrite (last_default _ _ (analyze_state_memory (let '(_, (_, st, _, _)) := (0, (""%string, @None (ptree nat), false, 0%R)) in st))) by (apply map_ne, NL).
      rewrite (last_map (fun d : nat * call_mem => let '(_, (_, st, _, _)) := d in analyze_state_memory st) l (0, (""%string, None, false, 0%R))).
      destruct (last l _) as [? [[[? ?] ?] ?]]. reflexivity. }
    split; [rewrite Forall_forall in EArr; apply EArr; destruct (t_snaps t) as [|a b]; [congruence|]; clear; revert a; induction b as [|c b IH]; intros a; [now left|]; right; apply IH|].
    split; [rewrite Z; destruct (max_is _ ZN) as [IN _]; apply in_map_iff in IN; destruct IN as (? & <- & _); reflexivity|].
    split.
    { rewrite Z. pose proof (mean_is _ ZN) as HM. unfold is_mean in HM. fold (meanR (map (fun _ : snapshot => 0%R) (t_snaps t))).
      pose proof (INR_len_pos _ ZN) as HL. destruct (total_between 0 0 (map (fun _ : snapshot => 0%R) (t_snaps t))) as [T1 T2].
      { intros x HIx. apply in_map_iff in HIx. destruct HIx as (? & <- & _). lra. }
      apply Rmult_eq_reg_r with (INR (length (map (fun _ : snapshot => 0%R) (t_snaps t)))); lra. }
    split; [reflexivity|]. split.
    + rewrite (severity_filter 0 Critical (fun x => Rlt_b 100 x)); [reflexivity|exact SEV|].
      intros x. rewrite Rlt_b_iff. apply severity_exact.
    + rewrite (severity_filter 0 High (fun x => Rlt_b 50 x && Rle_b x 100)); [reflexivity|exact SEV|].
      intros x. rewrite andb_true_iff, Rlt_b_iff. destruct (severity_exact x) as (_ & HH & _). rewrite HH.
      destruct (Rle_b_spec x 100); intuition (try lra; try congruence).
Qed.

(** C103_repeated_refuted *)
Lemma repeated_leaks (interval : nat) (thr : R) (mx n : nat) (name : string) (a b : R) :
  interval <> 0 -> 10 <= mx -> (0 <= thr)%R -> (thr < 4 * (b * INR interval))%R -> interval <= n ->
  exists t s, snapshots_run (new_tracker interval thr mx) (steady name (fun i => (a + b * INR i)%R) n) = Some t /\
    get_memory_summary t = Some s /\ ms_leaks s = n / interval - 4 /\ ms_snaps s = Nat.min mx (n / interval).
Proof.
  intros HI H10 H0 HT HN. destruct (fast_leak_repeated interval thr mx n name a b HI H10 H0 HT) as (t & HR & HL & _).
  destruct (memory_summary_exact interval thr mx _ t HI HR) as [HNone HS]. cbv zeta in HNone, HS.
  assert (LD : length (due interval 0 (steady name (fun i => (a + b * INR i)%R) n)) = n / interval).
  { rewrite <- (snaps_of_length None). apply (steady_length interval n name a b HI). }
  destruct (get_memory_summary t) as [s|] eqn:EG.
  - exists t, s. split; [exact HR|]. split; [exact EG|]. destruct (HS s eq_refl) as (E1 & _ & _ & _ & _ & _ & _ & _ & _ & _ & _ & E2 & _).
    split; [congruence|]. rewrite E1, lastn_length, LD. reflexivity.
  - exfalso. pose proof (proj1 HNone eq_refl) as HE. apply lastn_ne in HE. destruct HE as [HE|HE]; [|lia].
    rewrite HE in LD. cbn in LD. pose proof (Nat.div_str_pos n interval). lia.
Qed.

(** C103_module_memory *)
Lemma filter_mod {X Y B : Type} (f : X -> B) (g : Y -> B) (p : X -> string) (q : Y -> string) name : forall (l : list X) (k : list Y),
  map (fun x => (p x, f x)) l = map (fun y => (q y, g y)) k ->
  map f (filter (fun x => String.eqb (p x) name) l) = map g (filter (fun y => String.eqb (q y) name) k).
Proof.
  induction l as [|x l IH]; intros [|y k]; cbn [map filter]; try discriminate; [reflexivity|].
  intros E. assert (E1 : p x = q y /\ f x = g y /\ map (fun x => (p x, f x)) l = map (fun y => (q y, g y)) k) by (split; [|split]; congruence).
  destruct E1 as (E1 & E2 & E3). rewrite E1. destruct (String.eqb (q y) name); cbn [map]; [rewrite E2|]; now rewrite (IH k E3).
Qed.
Lemma module_memory_exact (interval : nat) (thr : R) (mx : nat) (calls : list call_mem) (t : tracker) (name : string) :
  interval <> 0 ->
  snapshots_run (new_tracker interval thr mx) calls = Some t ->
  let l := filter (fun d : nat * call_mem => String.eqb (let '(_, (m, _, _, _)) := d in m) name) (lastn mx (due interval 0 calls)) in
  let mems := map (fun d => snd (snd d)) l in
  let states := map (fun d : nat * call_mem => fst (fst (analyze_state_memory (let '(_, (_, st, _, _)) := d in st)))) l in
  (get_module_memory_analysis name t = None <-> l = []) /\
  forall s, get_module_memory_analysis name t = Some s ->
    mm_count s = length l /\ mm_current s = last mems 0%R /\ is_max (mm_peak s) mems /\ is_mean (mm_avg s) mems /\
    mm_growth s = (last mems 0 - hd 0 mems)%R /\
    mm_state s = last states 0%R /\ is_max (mm_state_peak s) states /\ is_mean (mm_state_avg s) states.
Proof.
  intros HI HR l mems states.
  destruct (tracker_exact interval thr mx calls HI) as (t' & HR' & EST & ES & _). cbv zeta in ES.
  rewrite HR in HR'. apply some_inj in HR'. subst t'.
  unfold get_module_memory_analysis.
  assert (EMem : map s_mem (filter (fun s => String.eqb (s_module s) name) (t_snaps t)) = mems).
  { apply (filter_mod s_mem (fun d => snd (snd d)) s_module (fun d : nat * call_mem => let '(_, (m, _, _, _)) := d in m)).
    rewrite ES, <- !lastn_map. f_equal. generalize (due interval 0 calls) as k. generalize (@None R) as prev. clear.
    intros prev k. revert prev. induction k as [|[n [[[m st] force] mem]] k IH]; intros prev; cbn [snaps_of map]; [reflexivity|].
    destruct (analyze_state_memory st) as [[sv pv] bv] eqn:E. cbn [map s_module s_mem]. rewrite IH. reflexivity. }
  assert (EState : map s_state (filter (fun s => String.eqb (s_module s) name) (t_snaps t)) = states).
  { apply (filter_mod s_state (fun d : nat * call_mem => fst (fst (analyze_state_memory (let '(_, (_, st, _, _)) := d in st)))) s_module (fun d : nat * call_mem => let '(_, (m, _, _, _)) := d in m)).
    rewrite ES, <- !lastn_map. f_equal. generalize (due interval 0 calls) as k. generalize (@None R) as prev. clear.
    intros prev k. revert prev. induction k as [|[n [[[m st] force] mem]] k IH]; intros prev; cbn [snaps_of map]; [reflexivity|].
    destruct (analyze_state_memory st) as [[sv pv] bv] eqn:E. cbn [map s_module s_state fst]. rewrite IH. reflexivity. }
  set (sn := filter (fun s => String.eqb (s_module s) name) (t_snaps t)) in *.
  assert (ELen : length sn = length l).
  { rewrite <- (map_length s_mem), EMem. apply map_length. }
  destruct sn as [|first rest] eqn:ET.
  - split; [split; [intros _; symmetry in ELen; now apply length_zero_iff_nil|reflexivity]|discriminate].
  - rewrite <- ET in *. assert (N : sn <> []) by (rewrite ET; discriminate).
    assert (NL : l <> []) by (intros X; rewrite X in ELen; now apply length_zero_iff_nil in ELen).
    split; [split; [discriminate|contradiction]|].
    intros s E. apply some_inj in E. subst s. cbv zeta. cbn [mm_count mm_current mm_peak mm_avg mm_growth mm_state mm_state_peak mm_state_avg].
    rewrite EMem, EState. assert (NM : mems <> []) by (apply map_ne, NL). assert (NS : states <> []) by (apply map_ne, NL).
    split; [exact ELen|]. split; [reflexivity|]. split; [apply max_is, NM|]. split; [apply (mean_is mems NM)|].
    split; [destruct mems; reflexivity|]. split; [reflexivity|]. split; [apply max_is, NS|apply (mean_is states NS)].
Qed.
