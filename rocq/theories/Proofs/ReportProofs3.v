(** Proofs about the memory summary and its report. *)
From Coq Require Import String List Bool Arith Lia ZArith Reals Lra.
From Verif Require Import Model.Float Model.FlaxOptim Spec.StreamSpec Spec.DebugSpec
  Proofs.FloatFacts Proofs.StreamProofs Proofs.DebugProofs Proofs.DebugProofs3 Proofs.DebugProofs4 Proofs.DebugProofs5.
From Verif Require Import Model.Debug Model.Reports Spec.ReportSpec Proofs.ReportProofs.
Import ListNotations.
Local Open Scope string_scope.
Local Open Scope nat_scope.
Local Open Scope list_scope.

Lemma fold_max_zero l : Forall (fun n => n = 0) l -> fold_left Nat.max l 0 = 0.
Proof. intros F. induction F as [|n l -> F IH]; [reflexivity|exact IH]. Qed.
Lemma sum_zero l : Forall (fun n => n = 0) l -> list_sum l = 0.
Proof. intros F. induction F as [|n l -> F IH]; [reflexivity|exact IH]. Qed.
Lemma last_map_snap (f : snapshot -> R) l (x : snapshot) d : l <> [] -> last (map f l) d = f (last l x).
Proof.
  intros N. destruct (exists_last N) as (a & y & ->). rewrite map_app. cbn [map]. rewrite !last_last. reflexivity.
Qed.

Section Tracked.
  Variables (interval : nat) (thr : R) (mx : nat) (calls : list call_mem) (t : tracker) (duration : R).
  Hypothesis HI : interval <> 0.
  Hypothesis HR : snapshots_run (new_tracker interval thr mx) calls = Some t.
  Let all := snaps_of None (due interval 0 calls).
  Let kept := lastn mx all.

  Lemma tracked : t_steps t = length calls /\ t_snaps t = kept /\
    t_leaks t = flat_map (fun j => check_for_leaks interval thr (lastn mx (firstn j all))) (seq 1 (length all)).
  Proof.
    destruct (tracker_exact interval thr mx calls HI) as (t' & A & B). rewrite HR in A.
    assert (E : t' = t) by congruence. subst t'. exact B.
  Qed.
  Lemma memory_defined : get_memory_summary duration t = None <-> kept = [].
  Proof. destruct tracked as (_ & S & _). unfold get_memory_summary. rewrite S. destruct kept; split; congruence. Qed.
  Lemma kept_empty : kept = [] <-> mx = 0 \/ due interval 0 calls = [].
  Proof.
    unfold kept, all. rewrite lastn_nil. split; intros [H|H]; auto.
    - right. apply length_zero_iff_nil. rewrite <- (snaps_of_length None), H. reflexivity.
    - right. rewrite H. reflexivity.
  Qed.
  Lemma kept_arrays : Forall (fun n => n = 0) (map s_arrays kept).
  Proof.
    unfold kept, lastn. pose proof (snaps_arrays None (due interval 0 calls)) as F. fold all in F. apply (Forall_skipn _ (length all - mx)) in F.
    apply Forall_map. exact F.
  Qed.
  Lemma memory_spec s : get_memory_summary duration t = Some s ->
    exists first middle latest, kept = first :: middle /\ latest = last kept first /\
    (ms_duration s = duration /\ ms_snapshots s = length kept /\ ms_steps s = length calls) /\
    (ms_process s = s_mem latest /\ ms_state s = s_state latest /\ ms_params s = s_params latest /\ ms_buffers s = s_buffers latest) /\
    (is_max (ms_peak s) (map s_mem kept) /\ is_min (ms_min s) (map s_mem kept) /\ is_average (ms_avg s) (map s_mem kept) /\
     ms_growth s = (s_mem latest - s_mem first)%R) /\
    (ms_arrays s = 0 /\ ms_peak_arrays s = 0 /\ ms_avg_arrays s = 0%R) /\
    (ms_leaks s = length (t_leaks t) /\ ms_critical s = length (filter (is_severity Critical) (t_leaks t)) /\
     ms_high s = length (filter (is_severity High) (t_leaks t))).
  Proof.
    destruct tracked as (ST & S & _). unfold get_memory_summary. rewrite S, ST. pose proof kept_arrays as KA.
    destruct kept as [|s0 rest] eqn:E; [discriminate|]. intros H.
    apply (f_equal (fun o => match o with Some x => x | None => s end)) in H. cbv beta iota in H. subst s.
    cbn [ms_duration ms_snapshots ms_steps ms_process ms_arrays ms_state ms_params ms_buffers ms_peak ms_min ms_avg ms_growth ms_peak_arrays ms_avg_arrays ms_leaks ms_critical ms_high].
    exists s0, rest, (last (s0 :: rest) s0). 
    assert (MN : map s_mem (s0 :: rest) <> []) by discriminate.
    split; [reflexivity|]. split; [reflexivity|]. split; [auto|]. split; [auto|]. split; [|split].
    - split; [apply max_spec; exact MN|]. split; [apply min_spec; exact MN|]. split; [apply (mean_spec _ MN)|reflexivity].
    - assert (LA : s_arrays (last (s0 :: rest) s0) = 0).
      { rewrite Forall_forall in KA. apply KA. apply in_map. destruct (@exists_last _ (s0 :: rest)) as (a & y & ->); [discriminate|].
        rewrite last_last. apply in_or_app. right. left. reflexivity. }
      split; [exact LA|]. split.
      + cbn [map] in KA. inversion KA as [|? ? E0 F]; subst. rewrite E0. apply fold_max_zero. exact F.
      + rewrite sum_zero by exact KA. cbn [INR]. unfold Rdiv. ring.
    - auto.
  Qed.
  (** what each module used *)
  Lemma module_spec name : module_memory name t = None <-> (forall s, In s kept -> s_module s <> name).
  Proof.
    destruct tracked as (_ & S & _). unfold module_memory. rewrite S. split.
    - intros H s I E. assert (J : In s (filter (fun s => String.eqb (s_module s) name) kept)).
      { apply filter_In. split; [exact I|]. apply String.eqb_eq. exact E. }
      destruct (filter _ kept); [destruct J|discriminate].
    - intros H. destruct (filter (fun s => String.eqb (s_module s) name) kept) as [|s r] eqn:E; [reflexivity|].
      assert (J : In s (filter (fun s => String.eqb (s_module s) name) kept)) by (rewrite E; left; reflexivity).
      apply filter_In in J as (I & J). apply String.eqb_eq in J. destruct (H s I J).
  Qed.
  Lemma module_values name n cur peak avg growth scur speak savg :
    module_memory name t = Some (n, (cur, peak, avg, growth), (scur, speak, savg)) ->
    let own := filter (fun s => String.eqb (s_module s) name) kept in
    exists first latest, hd_error own = Some first /\ latest = last own first /\
      n = length own /\ cur = s_mem latest /\ is_max peak (map s_mem own) /\ is_average avg (map s_mem own) /\
      growth = (s_mem latest - s_mem first)%R /\
      scur = s_state latest /\ is_max speak (map s_state own) /\ is_average savg (map s_state own).
  Proof.
    intros H own. destruct tracked as (_ & S & _). unfold module_memory in H. rewrite S in H. fold own in H.
    destruct own as [|s0 rest] eqn:E; [discriminate|]. 
    assert (MN : forall f : snapshot -> R, map f (s0 :: rest) <> []) by discriminate.
    assert (H' : (length (s0 :: rest), (last (map s_mem (s0 :: rest)) 0, maxR (map s_mem (s0 :: rest)), sumR (map s_mem (s0 :: rest)) / INR (length (map s_mem (s0 :: rest))),
       last (map s_mem (s0 :: rest)) 0 - nth 0 (map s_mem (s0 :: rest)) 0),
       (last (map s_state (s0 :: rest)) 0, maxR (map s_state (s0 :: rest)), sumR (map s_state (s0 :: rest)) / INR (length (map s_state (s0 :: rest)))))%R =
       (n, (cur, peak, avg, growth), (scur, speak, savg))).
    { exact (f_equal (fun o => match o with Some x => x | None => (n, (cur, peak, avg, growth), (scur, speak, savg)) end) H). }
    clear H. rewrite !(last_map_snap _ _ s0) in H' by discriminate.
    pose proof (f_equal (fun x => fst (fst x)) H') as H1. pose proof (f_equal (fun x => fst (fst (fst (snd (fst x))))) H') as H2.
    pose proof (f_equal (fun x => snd (fst (fst (snd (fst x))))) H') as H3. pose proof (f_equal (fun x => snd (fst (snd (fst x)))) H') as H4.
    pose proof (f_equal (fun x => snd (snd (fst x))) H') as H5. pose proof (f_equal (fun x => fst (fst (snd x))) H') as H6.
    pose proof (f_equal (fun x => snd (fst (snd x))) H') as H7. pose proof (f_equal (fun x => snd (snd x)) H') as H8. clear H'.
    cbv beta in *. cbn [fst snd] in *. subst.
    exists s0, (last (s0 :: rest) s0). split; [reflexivity|]. split; [reflexivity|]. split; [reflexivity|]. split; [reflexivity|].
    split; [exact (max_spec _ (MN _))|]. split; [exact (mean_spec _ (MN _))|]. split; [reflexivity|]. split; [reflexivity|].
    split; [exact (max_spec _ (MN _))|exact (mean_spec _ (MN _))].
  Qed.

  (** the report *)
  Lemma no_leak_lines {B} (f : memory_line -> list B) (F : forall t x r a b, f (MLeak t x r a b) = []) l :
    flat_map f (map (fun l => MLeak (l_type l) (l_total l) (l_rate l) (l_first l) (l_last l)) l) = [].
  Proof. induction l as [|y l IH]; [reflexivity|]. cbn. rewrite F. exact IH. Qed.
  Lemma described_lines l : described (map (fun l => MLeak (l_type l) (l_total l) (l_rate l) (l_first l) (l_last l)) l) = map describe l.
  Proof. induction l as [|y l IH]; [reflexivity|]. cbn [map]. unfold described in *. cbn [flat_map app]. rewrite IH. reflexivity. Qed.
  Lemma memory_report_error : memory_report duration t = [MError] <-> kept = [].
  Proof.
    rewrite <- memory_defined. unfold memory_report. destruct (get_memory_summary duration t); split; try congruence. intros H.
    apply (f_equal (hd MNoLeak)) in H. discriminate.
  Qed.
  Lemma memory_report_spec s : get_memory_summary duration t = Some s ->
    let rep := memory_report duration t in
    m_shown "Duration" rep = [ms_duration s] /\ m_counted "Snapshots" rep = [ms_snapshots s] /\ m_counted "Steps" rep = [ms_steps s] /\
    m_shown "Process Memory" rep = [ms_process s] /\ m_counted "JAX Arrays" rep = [ms_arrays s] /\ m_shown "State Variables" rep = [ms_state s] /\
    m_shown "Parameters" rep = [ms_params s] /\ m_shown "Buffers" rep = [ms_buffers s] /\ m_shown "Peak Memory" rep = [ms_peak s] /\
    m_shown "Average Memory" rep = [ms_avg s] /\ m_shown "Total Growth" rep = [ms_growth s] /\ m_counted "Peak Arrays" rep = [ms_peak_arrays s] /\
    (In MNoLeak rep <-> t_leaks t = []) /\
    m_counted "Total Leaks" rep = (if ms_leaks s =? 0 then [] else [ms_leaks s]) /\
    m_counted "Critical" rep = (if ms_leaks s =? 0 then [] else [ms_critical s]) /\
    m_counted "High Priority" rep = (if ms_leaks s =? 0 then [] else [ms_high s]) /\
    described rep = map describe (firstn 3 (filter (is_severity Critical) (t_leaks t))).
  Proof.
    intros G rep. assert (LK : ms_leaks s = length (t_leaks t)) by (destruct (memory_spec s G) as (a & b & c & _ & _ & _ & _ & _ & _ & L & _); exact L).
    unfold rep, memory_report. rewrite G. clear rep G.
    set (crit := firstn 3 (filter (is_severity Critical) (t_leaks t))).
    assert (CZ : t_leaks t = [] -> crit = []) by (unfold crit; intros ->; reflexivity). clearbody crit.
    pose proof (described_lines crit) as DL.
    assert (SH : forall k, m_shown k (map (fun l => MLeak (l_type l) (l_total l) (l_rate l) (l_first l) (l_last l)) crit) = []) by (intros; apply no_leak_lines; reflexivity).
    assert (CO : forall k, m_counted k (map (fun l => MLeak (l_type l) (l_total l) (l_rate l) (l_first l) (l_last l)) crit) = []) by (intros; apply no_leak_lines; reflexivity).
    assert (NL : ~ In MNoLeak (map (fun l => MLeak (l_type l) (l_total l) (l_rate l) (l_first l) (l_last l)) crit)).
    { intros I. apply in_map_iff in I as (x & E & _). discriminate E. }
    set (cl := map (fun l => MLeak (l_type l) (l_total l) (l_rate l) (l_first l) (l_last l)) crit) in *. clearbody cl.
    unfold m_shown, m_counted, described in *. rewrite !flat_map_app.
    destruct (ms_leaks s) as [|n] eqn:EL.
    - assert (Z : t_leaks t = []) by (apply length_zero_iff_nil; congruence). rewrite (CZ Z).
      change (Nat.ltb 0 0) with false. cbv iota. repeat split; try reflexivity; [intros _; exact Z|].
      intros _. apply in_or_app. right. left. reflexivity.
    - assert (Z : t_leaks t <> []) by (intros Z; rewrite Z in LK; discriminate LK). change (Nat.ltb 0 (Datatypes.S n)) with true. cbv iota.
      rewrite !flat_map_app, !SH, !CO, DL. repeat split; cbn; rewrite ?app_nil_r; try reflexivity.
      + intros I. exfalso. repeat (destruct I as [I|I]; [discriminate I|]). rewrite <- app_assoc in I || idtac.
        repeat (apply in_app_or in I; destruct I as [I|I]); try contradiction; cbn in I; repeat (destruct I as [I|I]; [discriminate I|]); try contradiction.
      + intros E. contradiction.
  Qed.
End Tracked.

(** The growth reported is that of the window kept. *)
Lemma growth_window (interval : nat) (thr : R) (mx n : nat) (name : string) (a b duration : R) (t : tracker) (s : memory_summary) :
  interval <> 0 -> snapshots_run (new_tracker interval thr mx) (steady name (fun i => (a + b * INR i)%R) n) = Some t ->
  get_memory_summary duration t = Some s ->
  ms_growth s = (b * INR interval * (INR (Nat.min mx (n / interval)) - 1))%R.
Proof.
  intros HI HR G. destruct (memory_spec _ _ _ _ _ _ HI HR s G) as (first & middle & latest & EK & EL & _ & _ & (_ & _ & _ & GR) & _).
  rewrite GR. clear GR G HR.
  set (all := snaps_of None (due interval 0 (steady name (fun i => (a + b * INR i)%R) n))) in *.
  assert (M : map s_mem (lastn mx all) = map (fun j => (a + b * INR (j * interval))%R) (lastn mx (seq 1 (n / interval)))).
  { pose proof (steady_snaps interval n name a b HI) as SS. fold all in SS. apply (f_equal (map snd)) in SS. rewrite !map_map in SS. cbn [snd] in SS.
    change (map (fun x : snapshot => s_mem x) all) with (map s_mem all) in SS.
    rewrite <- lastn_map, SS, lastn_map. reflexivity. }
  set (k := n / interval) in *. clearbody k all.
  assert (LS : lastn mx (seq 1 k) = seq (1 + (k - mx)) (Nat.min mx k)).
  { unfold lastn. rewrite seq_length, skipn_seq. f_equal. lia. }
  rewrite LS in M. clear LS.
  assert (P : 0 < Nat.min mx k).
  { destruct (Nat.min mx k) eqn:E; [|lia]. cbn in M. rewrite EK in M. discriminate M. }
  assert (NE : lastn mx all <> []) by (rewrite EK; discriminate).
  rewrite EL, <- (last_map_snap s_mem _ first 0%R) by exact NE. rewrite M.
  assert (F : s_mem first = (a + b * INR ((1 + (k - mx)) * interval))%R).
  { rewrite EK in M. destruct (Nat.min mx k); [lia|]. cbn [map seq] in M. exact (f_equal (hd 0%R) M). }
  rewrite F. replace (Nat.min mx k) with (Nat.min mx k - 1 + 1) at 1 by lia. rewrite seq_app, map_app. cbn [seq map]. rewrite last_last.
  replace (Nat.min mx k) with (Nat.min mx k - 1 + 1) at 2 by lia. rewrite !mult_INR, !plus_INR. cbn [INR]. ring.
Qed.
Lemma repeated_leaks (interval : nat) (thr : R) (mx n : nat) (name : string) (a b duration : R) :
  interval <> 0 -> 10 <= mx -> (0 <= thr)%R -> (thr < 4 * (b * INR interval))%R -> 0 < n / interval ->
  exists t s, snapshots_run (new_tracker interval thr mx) (steady name (fun i => (a + b * INR i)%R) n) = Some t /\
    get_memory_summary duration t = Some s /\ ms_leaks s = n / interval - 4.
Proof.
  intros HI HX HT HB HN. destruct (fast_leak_repeated interval thr mx n name a b HI HX HT HB) as (t & R & L & _).
  destruct (get_memory_summary duration t) as [s|] eqn:G.
  - exists t, s. split; [exact R|]. split; [exact G|].
    destruct (memory_spec _ _ _ _ _ _ HI R s G) as (? & ? & ? & _ & _ & _ & _ & _ & _ & EL & _). rewrite EL. exact L.
  - exfalso. apply (memory_defined _ _ _ _ _ _ HI R) in G. apply (f_equal (@length _)) in G. cbn [length] in G. rewrite lastn_length in G.
    rewrite (steady_length interval n name a b HI) in G. lia.
Qed.
Lemma is_severity_spec s l : is_severity s l = true <-> l_severity l = s.
Proof. unfold is_severity. destruct s, (l_severity l); split; intros H; (reflexivity || discriminate H). Qed.
