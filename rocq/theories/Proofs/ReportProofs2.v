(** Proofs about the reports themselves and about the memory summary. *)
From Coq Require Import String List Bool Arith Lia ZArith Reals Lra Permutation Sorted.
From Verif Require Import Model.Float Model.FlaxOptim Spec.StreamSpec Spec.DebugSpec
  Proofs.FloatFacts Proofs.StreamProofs Proofs.DebugProofs Proofs.DebugProofs3 Proofs.DebugProofs4 Proofs.DebugProofs5.
From Verif Require Import Model.Debug Model.Reports Spec.ReportSpec Proofs.ReportProofs.
Import ListNotations.
Local Open Scope string_scope.
Local Open Scope nat_scope.
Local Open Scope list_scope.

(** * the profiler *)
Lemma total_steady_ge (l : list R) (m : R) : (forall x, In x l -> x = m) -> l <> [] -> is_max m l.
Proof. intros H N. split; [destruct l as [|x l]; [contradiction|]; left; apply H; left; reflexivity|]. intros x I. rewrite (H x I). apply Rle_refl. Qed.

(** the first reading is counted as allocated: even when the memory never changes *)
Lemma allocated_peak bott leak mx l duration s :
  let p := fold_left record_q l (new_profiler true bott leak mx) in
  get_summary duration (result_bottlenecks (finalize p) p) (finalize p) = Some s -> length l <= mx -> (ps_peak s <= ps_allocated s)%R.
Proof.
  intros p G LE. apply summary_spec in G as (_ & _ & T & _). destruct (T eq_refl) as ((PI & _) & _ & AL & _).
  rewrite AL. replace (length l - mx) with 0 by lia. cbn [firstn map last]. rewrite <- (Rplus_0_l (rises 0 _)). apply rises_ge. exact PI.
Qed.
Lemma allocated_constant bott leak mx l duration m s :
  let p := fold_left record_q l (new_profiler true bott leak mx) in
  (0 < m)%R -> (forall q, In q l -> q_mem q = m) ->
  get_summary duration (result_bottlenecks (finalize p) p) (finalize p) = Some s ->
  ps_allocated s = if (length l <=? mx)%nat then m else 0%R.
Proof.
  intros p M C G. apply summary_spec in G as (_ & (T0 & _) & T & _). destruct (T eq_refl) as ((PI & _) & _ & AL & _).
  rewrite AL. clear AL T T0. destruct (Nat.leb_spec (length l) mx) as [H|H].
  - replace (length l - mx) with 0 by lia. cbn [firstn map last]. rewrite lastn_all in PI |- * by exact H.
    destruct l as [|q l]; [destruct PI|]. cbn [map rises]. rewrite rises_const.
    + rewrite (C q (or_introl eq_refl)). rewrite Rmax_right by lra. lra.
    + intros x I. apply in_map_iff in I as (q' & <- & I). rewrite (C q (or_introl eq_refl)). apply C. right. exact I.
  - assert (E : last (map q_mem (firstn (length l - mx) l)) 0%R = m).
    { assert (N : firstn (length l - mx) l <> []) by (intros E; apply (f_equal (@length _)) in E; rewrite firstn_length in E; cbn in E; lia).
      destruct (exists_last N) as (a & q & E). rewrite E, map_app. cbn [map]. rewrite last_last. apply C.
      rewrite <- (firstn_skipn (length l - mx) l). apply in_or_app. left. rewrite E. apply in_or_app. right. left. reflexivity. }
    rewrite E. apply rises_const. intros x I. apply in_map_iff in I as (q & <- & I). apply C. unfold lastn in I.
    rewrite <- (firstn_skipn (length l - mx) l). apply in_or_app. right. exact I.
Qed.
(** Steps and average time do not fit when metrics were dropped. *)
Lemma steps_mean tm bott leak mx l duration s :
  let p := fold_left record_q l (new_profiler tm bott leak mx) in
  get_summary duration (result_bottlenecks (finalize p) p) (finalize p) = Some s ->
  (INR (ps_steps s) * (ps_mean_ms s / 1000) = ps_total_time s)%R <-> (length l <= mx \/ ps_total_time s = 0%R).
Proof.
  intros p G. assert (NE : ~ (mx = 0 \/ l = [])).
  { intros H. apply (summary_defined tm bott leak mx l duration) in H. fold p in H. congruence. }
  apply summary_spec in G as ((_ & -> & _) & (TT & AV & _) & _). unfold is_average in AV. rewrite <- TT in AV.
  set (mean := (ps_mean_ms s / 1000)%R) in *. clearbody mean. rewrite map_length in AV.
  assert (LL : length (lastn mx l) = Nat.min mx (length l)) by apply lastn_length. rewrite LL in AV.
  assert (P : 0 < Nat.min mx (length l)).
  { destruct mx; [exfalso; apply NE; left; reflexivity|]. destruct l; [exfalso; apply NE; right; reflexivity|]. cbn. lia. }
  rewrite <- AV. apply lt_INR in P. cbn [INR] in P. split.
  - intros E. destruct (Nat.leb_spec (length l) mx) as [H|H]; [left; exact H|right].
    rewrite Nat.min_l in * by lia. apply lt_INR in H.
    assert (Z : (mean * (INR (length l) - INR mx) = 0)%R) by lra. apply Rmult_integral in Z as [Z|Z]; [rewrite Z; ring|lra].
  - intros [H|H].
    + rewrite Nat.min_r by exact H. ring.
    + apply Rmult_integral in H as [H|H]; [rewrite H; ring|lra].
Qed.

(** ** the report *)
Section Report.
  Variables (duration : R) (bott : list metric) (r : profile_result).
  Lemma report_defined : performance_report duration bott r = None <-> get_summary duration bott r = None.
  Proof. unfold performance_report. destruct (get_summary duration bott r); split; congruence. Qed.
  Lemma numbered_advice (l : list advice) : forall k, numbered (map (fun '(i, a) => LAdvice i a) (combine (seq k (length l)) l)) = combine (seq k (length l)) l.
  Proof. induction l as [|a l IH]; intros k; [reflexivity|]. cbn [length seq combine map]. unfold numbered in *. cbn [flat_map app]. now rewrite IH. Qed.
  Lemma quiet_advice {B} (f : report_line -> list B) (F : forall i a, f (LAdvice i a) = []) (l : list (nat * advice)) : flat_map f (map (fun '(i, a) => LAdvice i a) l) = [].
  Proof. induction l as [|[i a] l IH]; [reflexivity|]. cbn. rewrite F. exact IH. Qed.
  Definition advice_lines (l : list advice) : list report_line :=
    match l with [] => [] | l => LSection SAdvice :: map (fun '(i, a) => LAdvice i a) (combine (seq 1 (length l)) l) end.
  Lemma quiet_lines {B} (f : report_line -> list B) : (forall i a, f (LAdvice i a) = []) -> (forall s, f (LSection s) = []) -> forall l, flat_map f (advice_lines l) = [].
  Proof. intros F G [|a l]; [reflexivity|]. unfold advice_lines. cbn [flat_map]. rewrite G. apply quiet_advice. exact F. Qed.

  Lemma report_lines : performance_report duration bott r = match get_summary duration bott r with
    | None => None
    | Some s => Some ([LTitle; LRule; LSection SOverview; LReal "Duration" (ps_duration s); LCount "Total Steps" (ps_steps s);
             LReal "Throughput" (ps_throughput s);
             LSection SExecution; LReal "Average Time" (ps_mean_ms s); LReal "Median Time" (ps_median_ms s);
             LReal "Max Time" (ps_max_ms s); LReal "Std Deviation" (ps_dev_ms s);
             LSection SMemory; LReal "Peak Usage" (ps_peak s); LReal "Average Usage" (ps_avg_mem s);
             LReal "Total Allocated" (ps_allocated s); LReal "Memory Efficiency" (ps_efficiency s)] ++
            (if Nat.ltb 0 (ps_bottlenecks s) then [LSection SIssues; LCount "Bottlenecks" (ps_bottlenecks s)] else []) ++
            (if Nat.ltb 0 (ps_jit s) then [LCount "JIT Compilations" (ps_jit s)] else []) ++ advice_lines (r_advice r) ++ [LRule]) end.
  Proof. unfold performance_report, advice_lines. destruct (get_summary duration bott r); [|reflexivity]. destruct (r_advice r); reflexivity. Qed.

  Lemma report_spec rep : performance_report duration bott r = Some rep ->
    exists s, get_summary duration bott r = Some s /\
      shown "Duration" rep = [ps_duration s] /\ counted "Total Steps" rep = [ps_steps s] /\ shown "Throughput" rep = [ps_throughput s] /\
      shown "Average Time" rep = [ps_mean_ms s] /\ shown "Median Time" rep = [ps_median_ms s] /\ shown "Max Time" rep = [ps_max_ms s] /\
      shown "Std Deviation" rep = [ps_dev_ms s] /\
      shown "Peak Usage" rep = [ps_peak s] /\ shown "Average Usage" rep = [ps_avg_mem s] /\ shown "Total Allocated" rep = [ps_allocated s] /\
      shown "Memory Efficiency" rep = [ps_efficiency s] /\
      counted "Bottlenecks" rep = (if ps_bottlenecks s =? 0 then [] else [ps_bottlenecks s]) /\
      counted "JIT Compilations" rep = (if ps_jit s =? 0 then [] else [ps_jit s]) /\
      numbered rep = combine (seq 1 (length (r_advice r))) (r_advice r) /\
      sections rep = [SOverview; SExecution; SMemory] ++ (if ps_bottlenecks s =? 0 then [] else [SIssues]) ++ (match r_advice r with [] => [] | _ => [SAdvice] end).
  Proof.
    rewrite report_lines. destruct (get_summary duration bott r) as [s|]; [|discriminate]. intros H. apply (f_equal (fun o => match o with Some x => x | None => rep end)) in H.
    cbv beta iota in H.
    exists s. split; [reflexivity|]. subst rep.
    assert (SH : forall k, flat_map (fun l => match l with LReal k' x => if String.eqb k k' then [x] else [] | _ => [] end) (advice_lines (r_advice r)) = []).
    { intros k. apply quiet_lines; reflexivity. }
    assert (CO : forall k, flat_map (fun l => match l with LCount k' x => if String.eqb k k' then [x] else [] | _ => [] end) (advice_lines (r_advice r)) = []).
    { intros k. apply quiet_lines; reflexivity. }
    assert (NU : flat_map (fun l => match l with LAdvice i a => [(i, a)] | _ => [] end) (advice_lines (r_advice r)) = combine (seq 1 (length (r_advice r))) (r_advice r)).
    { unfold advice_lines. destruct (r_advice r) as [|a l]; [reflexivity|]. apply numbered_advice. }
    assert (SE : flat_map (fun l => match l with LSection s => [s] | _ => [] end) (advice_lines (r_advice r)) = match r_advice r with [] => [] | _ => [SAdvice] end).
    { unfold advice_lines. destruct (r_advice r) as [|a l]; [reflexivity|]. cbn [flat_map]. rewrite quiet_advice by reflexivity. reflexivity. }
    unfold shown, counted, numbered, sections. rewrite !flat_map_app, NU, SE, !SH, !CO.
    generalize (advice_lines (r_advice r)). intros al. clear.
    repeat rewrite flat_map_app.
    destruct (ps_bottlenecks s) as [|nb]; destruct (ps_jit s) as [|nj];
      repeat split; cbn; rewrite ?app_nil_r; reflexivity.
  Qed.
  Lemma jit_line s rep : get_summary duration bott r = Some s -> performance_report duration bott r = Some rep -> ps_bottlenecks s = 0 -> 0 < ps_jit s ->
    exists a b, rep = a ++ [LSection SMemory; LReal "Peak Usage" (ps_peak s); LReal "Average Usage" (ps_avg_mem s); LReal "Total Allocated" (ps_allocated s);
                            LReal "Memory Efficiency" (ps_efficiency s); LCount "JIT Compilations" (ps_jit s)] ++ b.
  Proof.
    intros G H B J. rewrite report_lines in H. rewrite G, B in H.
    destruct (ps_jit s) as [|j] eqn:E; [lia|]. apply (f_equal (fun o => match o with Some x => x | None => rep end)) in H. cbv beta iota in H. subst rep.
    change (Nat.ltb 0 0) with false. change (Nat.ltb 0 (Datatypes.S j)) with true. cbv iota.
    exists [LTitle; LRule; LSection SOverview; LReal "Duration" (ps_duration s); LCount "Total Steps" (ps_steps s);
             LReal "Throughput" (ps_throughput s);
             LSection SExecution; LReal "Average Time" (ps_mean_ms s); LReal "Median Time" (ps_median_ms s);
             LReal "Max Time" (ps_max_ms s); LReal "Std Deviation" (ps_dev_ms s)], (advice_lines (r_advice r) ++ [LRule]).
    reflexivity.
  Qed.
End Report.
