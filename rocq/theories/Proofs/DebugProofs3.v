(** Proofs for C84 (wrappers) and C85 (profiler). *)
From Coq Require Import String List Bool Arith Lia Reals Lra.
From Verif Require Import Model.Float Model.FlaxOptim Model.Debug Spec.StreamSpec Spec.DebugSpec
  Proofs.FloatFacts Proofs.FlaxOptimProofs Proofs.StreamProofs Proofs.DebugProofs.
From Verif Require Import Model.Debug.
Import ListNotations.
Local Open Scope list_scope.

(** *** C84 *)
Section Wrap.
  Context {P K A O S : Type}.
  Variable apply : P -> S -> K -> A -> option (result O S).

  Lemma debug_transparent {M H : Type} (copy : S -> H) (name : string) (p : P) : forall (xs : list (K * A * option R)) (s : S) (d : debugger S A O M H),
    let plain := drive (fun s x (_ : unit) => (apply p s (fst (fst x)) (snd (fst x)), tt)) s tt xs in
    drive (fun s x d => debug_apply apply copy name (snd x) p s (fst (fst x)) (snd (fst x)) d) s d xs =
    (fst (fst plain), snd (fst plain), session copy (reported name s xs (fst (fst plain))) d).
  Proof.
    induction xs as [|[[k a] t] xs IH]; intros s d; cbn zeta; [reflexivity|].
    cbn [drive fst snd]. unfold debug_apply at 1. destruct (apply p s k a) as [r|] eqn:E; [|reflexivity].
    destruct r as [o s'|o]; cbn [fst snd]; rewrite IH; cbn zeta;
      (destruct (drive (fun s x (_ : unit) => (apply p s (fst (fst x)) (snd (fst x)), tt)) _ tt xs) as [[l s2] []]);
      cbn [fst snd reported session fold_left do_op]; reflexivity.
  Qed.
  Variables (arg_data : A -> pdata) (result_data : result O S -> pdata).
  Lemma profile_transparent (name : string) (detailed : bool) (p : P) : forall (xs : list (K * A * (R * R * R))) (s : S) (pr : profiler),
    let plain := drive (fun s x (_ : unit) => (apply p s (fst (fst x)) (snd (fst x)), tt)) s tt xs in
    fst (drive (fun s x pr => profile_apply apply arg_data result_data name detailed (fst (fst (snd x))) (snd (fst (snd x))) (snd (snd x))
                              p s (fst (fst x)) (snd (fst x)) pr) s pr xs) = fst plain.
  Proof.
    induction xs as [|[[k a] [[t m1] m2]] xs IH]; intros s pr; cbn zeta; [reflexivity|].
    cbn [drive fst snd]. unfold profile_apply at 1. destruct (apply p s k a) as [r|] eqn:E; [|reflexivity].
    match goal with |- fst (let '(_, _) := drive _ ?s' ?w xs in _) = _ => specialize (IH s' w) end. cbn zeta in IH.
    match goal with |- fst (let '(_, _) := ?q in _) = fst (let '(_, _) := ?q' in _) => destruct q as [[l s2] w2]; destruct q' as [[l' s2'] w2'] end.
    cbn [fst] in *. congruence.
  Qed.
  Variable state_data : S -> ptree nat.
  Lemma take_total name st force mem t : t_interval t <> 0 ->
    exists o t', take_snapshot name st force mem t = Some (o, t') /\ t_interval t' = t_interval t.
  Proof.
    intros Hi. unfold take_snapshot. destruct (t_enabled t); [|eauto].
    apply Nat.eqb_neq in Hi. rewrite Hi.
    destruct (analyze_state_memory st) as [[sv pv] bv]. destruct (t_last t); destruct force; try destruct (_ mod _ =? 0);
      (eexists; eexists; split; [reflexivity|reflexivity]).
  Qed.
  Lemma memory_transparent (name : string) (detailed : bool) (p : P) : forall (xs : list (K * A * (R * R))) (s : S) (tr : tracker),
    t_interval tr <> 0 ->
    let plain := drive (fun s x (_ : unit) => (apply p s (fst (fst x)) (snd (fst x)), tt)) s tt xs in
    fst (drive (fun s x tr => memory_apply apply state_data name detailed (fst (snd x)) (snd (snd x))
                              p s (fst (fst x)) (snd (fst x)) tr) s tr xs) = fst plain.
  Proof.
    induction xs as [|[[k a] [m1 m2]] xs IH]; intros s tr Hi; cbn zeta; [reflexivity|].
    cbn [drive fst snd]. unfold memory_apply at 1.
    destruct (take_total name None false m1 tr Hi) as (o1 & t1 & E1 & I1). rewrite E1.
    destruct (apply p s k a) as [r|] eqn:E; [|reflexivity].
    match goal with |- context [take_snapshot name ?st false m2 t1] =>
      destruct (take_total name st false m2 t1 ltac:(congruence)) as (o2 & t2 & E2 & I2); rewrite E2 end.
    match goal with |- fst (let '(_, _) := drive _ ?s' ?w xs in _) = _ => specialize (IH s' w ltac:(congruence)) end. cbn zeta in IH.
    match goal with |- fst (let '(_, _) := ?q in _) = fst (let '(_, _) := ?q' in _) => destruct q as [[l s2] w2]; destruct q' as [[l' s2'] w2'] end.
    cbn [fst] in *. congruence.
  Qed.
End Wrap.

(** *** C85 *)
Lemma record_run (thr : R) : forall (l : list rec_call) p (acc : list metric),
  p_enabled p = true -> p_bott_ms p = thr -> p_metrics p = lastn (p_max p) acc ->
  let ms := metrics_of (p_track_mem p) (p_steps p + 1) (p_last_mem p) l in
  let p' := fold_left record_q l p in
  p_metrics p' = lastn (p_max p) (acc ++ ms) /\
  p_steps p' = p_steps p + length l /\ p_enabled p' = true /\ p_max p' = p_max p /\
  p_leak_mb p' = p_leak_mb p /\
  opt_list (p_bottlenecks p') = opt_list (p_bottlenecks p) ++ filter (fun m => Rlt_b thr (m_time m * 1000)) ms /\
  (forall k, opt_list (sget k (p_modules p')) = opt_list (sget k (p_modules p)) ++ times_of k l).
Proof.
  induction l as [|q l IH]; intros p acc HE HT HM; cbn zeta.
  - cbn [metrics_of fold_left length filter times_of]. rewrite !app_nil_r. repeat split; try assumption; try lia.
    intros k. unfold times_of. cbn. now rewrite app_nil_r.
  - cbn [fold_left]. set (m := Metric (p_steps p + 1) (q_module q) (q_time q) (if p_track_mem p then q_mem q else 0%R)
       (if p_track_mem p then (q_mem q - p_last_mem p)%R else 0%R) (q_jit q) (q_in q) (q_out q)).
    specialize (IH (record_q p q) (acc ++ [m])).
    assert (F : p_enabled (record_q p q) = true /\ p_bott_ms (record_q p q) = thr /\ p_max (record_q p q) = p_max p /\
      p_track_mem (record_q p q) = p_track_mem p /\ p_leak_mb (record_q p q) = p_leak_mb p /\
      p_steps (record_q p q) = p_steps p + 1 /\
      p_last_mem (record_q p q) = (if p_track_mem p then q_mem q else p_last_mem p) /\
      p_metrics (record_q p q) = lastn (p_max p) (acc ++ [m]) /\
      opt_list (p_bottlenecks (record_q p q)) = opt_list (p_bottlenecks p) ++ (if Rlt_b thr (m_time m * 1000) then [m] else []) /\
      p_modules (record_q p q) = sset (q_module q) (opt_list (sget (q_module q) (p_modules p)) ++ [q_time q]) (p_modules p)).
    { unfold record_q, record_metrics. rewrite HE.
      destruct (p_track_mem p) eqn:TM; cbn [p_enabled p_bott_ms p_max p_track_mem p_leak_mb p_steps p_last_mem p_metrics p_bottlenecks p_modules data_size];
        (split; [reflexivity|]); (split; [exact HT|]); (split; [reflexivity|]); (split; [assumption || reflexivity|]);
        (split; [reflexivity|]); (split; [reflexivity|]); (split; [reflexivity|]);
        (split; [rewrite HM, dq_append_lastn; reflexivity|]);
        (split; [|reflexivity]); subst m; cbn [m_time]; rewrite HT;
        (destruct (Rlt_b thr (q_time q * 1000)); [|now rewrite app_nil_r]); destruct (p_bottlenecks p); reflexivity. }
    destruct F as (F1 & F2 & F3 & F4 & F5 & F6 & F7 & F8 & F9 & F10).
    rewrite F3 in IH. destruct (IH F1 F2 F8) as (A & B & C & D & E & G & K).
    rewrite F4, F6, F7 in *.
    assert (EM : metrics_of (p_track_mem p) (p_steps p + 1 + 1) (if p_track_mem p then q_mem q else p_last_mem p) l =
                 metrics_of (p_track_mem p) (p_steps p + 1 + 1) (q_mem q) l).
    { destruct (p_track_mem p); [reflexivity|]. generalize (p_steps p + 1 + 1) as n. clear.
      destruct l; reflexivity. }
    rewrite EM in *. cbn [metrics_of]. fold m.
    split; [rewrite A, <- app_assoc; reflexivity|]. split; [rewrite B; cbn [length]; lia|]. split; [exact C|].
    split; [congruence|]. split; [congruence|]. split.
    + rewrite G, F9, <- app_assoc. f_equal. cbn [filter]. destruct (Rlt_b thr (m_time m * 1000)); reflexivity.
    + intros k. rewrite K, F10, sget_sset. unfold times_of. cbn [filter]. rewrite (String.eqb_sym (q_module q) k).
      destruct (String.eqb k (q_module q)) eqn:EK; [|reflexivity]. apply String.eqb_eq in EK. subst k.
      cbn [opt_list map]. rewrite <- app_assoc. reflexivity.
Qed.

Lemma record_exact (track_mem : bool) (bott leak : R) (mx : nat) (l : list rec_call) :
  let ms := metrics_of track_mem 1 0 l in
  let p := fold_left record_q l (new_profiler track_mem bott leak mx) in
  p_metrics p = lastn mx ms /\ p_steps p = length l /\
  opt_list (p_bottlenecks p) = filter (fun m => Rlt_b bott (m_time m * 1000)) ms /\
  (forall k, opt_list (sget k (p_modules p)) = times_of k l).
Proof.
  cbn zeta. destruct (record_run bott l (new_profiler track_mem bott leak mx) [] eq_refl eq_refl eq_refl) as (A & B & _ & _ & _ & C & D).
  cbn [new_profiler p_track_mem p_steps p_last_mem p_max p_bottlenecks p_modules opt_list sget app plus] in *.
  split; [exact A|]. split; [exact B|]. split; [exact C|]. exact D.
Qed.

(** reset gives a fresh profiler as far as records go; a finalized result shares the bottlenecks *)
Lemma reset_fresh p : p_enabled p = true ->
  p_metrics (reset_profiler p) = [] /\ p_steps (reset_profiler p) = 0 /\ p_modules (reset_profiler p) = [] /\
  opt_list (p_bottlenecks (reset_profiler p)) = [] /\ p_last_mem (reset_profiler p) = 0%R.
Proof. intros _. unfold reset_profiler. cbn. destruct (p_bottlenecks p); repeat split; reflexivity. Qed.
Lemma shared_lost p : 
  result_bottlenecks (finalize p) p = opt_list (p_bottlenecks p) /\
  r_metrics (finalize p) = p_metrics p /\
  result_bottlenecks (finalize p) (reset_profiler p) = [].
Proof.
  unfold result_bottlenecks, finalize, reset_profiler. cbn. destruct (p_bottlenecks p); repeat split; reflexivity.
Qed.
Lemma shared_grows p q l : p_bottlenecks p = Some l -> p_enabled p = true -> (p_bott_ms p < q_time q * 1000)%R ->
  exists m, result_bottlenecks (finalize p) (record_q p q) = l ++ [m] /\ r_metrics (finalize p) = p_metrics p.
Proof.
  intros EB EE HT. unfold result_bottlenecks, finalize, record_q, record_metrics. rewrite EB, EE. cbn [r_shared].
  destruct (p_track_mem p); cbn [p_bottlenecks r_metrics]; (unfold Rlt_b; destruct (Rlt_dec (p_bott_ms p) (q_time q * 1000)); [|contradiction]);
    (eexists; split; reflexivity).
Qed.

Lemma list_sum_app l l' : list_sum (l ++ l') = list_sum l + list_sum l'.
Proof. unfold list_sum. rewrite fold_right_app. induction l; cbn; [reflexivity|]. lia. Qed.
Lemma data_size_leaves : forall d, data_size d = list_sum (data_leaves d).
Proof.
  fix IH 1. intros [|n|l|l| |n|]; cbn [data_size data_leaves]; try reflexivity; try (cbn; lia).
  - induction l as [|x l IHl]; [reflexivity|]. cbn [map flat_map]. rewrite list_sum_app, <- IH, <- IHl. reflexivity.
  - induction l as [|[k x] l IHl]; [reflexivity|]. cbn [map flat_map snd]. rewrite list_sum_app, <- IH, <- IHl. reflexivity.
Qed.

(** *** The decorated function *)
Section ProfRun.
  Context {P K A O S : Type}.
  Variable apply : P -> S -> K -> A -> option (result O S).
  Variables (arg_data : A -> pdata) (result_data : result O S -> pdata).
  Lemma profile_records (name : string) (detailed : bool) (p : P) : forall (xs : list (K * A * (R * R * R))) (s : S) (pr : profiler),
    let run := drive (fun s x pr => profile_apply apply arg_data result_data name detailed (fst (fst (snd x))) (snd (fst (snd x))) (snd (snd x))
                              p s (fst (fst x)) (snd (fst x)) pr) s pr xs in
    length (fst (fst run)) = length xs ->
    snd run = fold_left record_q (two_records arg_data result_data name detailed xs (fst (fst run))) pr.
  Proof.
    induction xs as [|[[k a] [[t m1] m2]] xs IH]; intros s pr; cbn zeta; [reflexivity|].
    cbn [drive fst snd]. unfold profile_apply at 1 3 5. destruct (apply p s k a) as [r|] eqn:E; [|discriminate].
    match goal with |- context [drive _ ?s' ?w xs] => specialize (IH s' w) end. cbn zeta in IH.
    match type of IH with context [drive ?f ?s' ?w xs] => destruct (drive f s' w xs) as [[l s2] w2] end.
    cbn [fst snd length] in *. intros HL. rewrite IH by lia. cbn [two_records fold_left]. f_equal.
    unfold record_q. cbn [q_module q_time q_in q_out q_jit q_mem].
    assert (DS : forall n t d d' d1 d1' j m q, data_size d = data_size d1 -> data_size d' = data_size d1' ->
      record_metrics n t d d' j m q = record_metrics n t d1 d1' j m q).
    { intros n0 t0 d d' d1 d1' j m q H1 H2. unfold record_metrics. rewrite H1, H2. reflexivity. }
    rewrite (DS name t DNone DNone (DArr 0) (DArr 0)) by reflexivity. f_equal. apply DS; destruct detailed; reflexivity.
  Qed.
  Lemma two_records_times name detailed k : forall (xs : list (K * A * (R * R * R))) (l : list (result O S)), length l = length xs ->
    times_of k (two_records arg_data result_data name detailed xs l) =
      if String.eqb name k then with_zeros (map (fun x => fst (fst (snd x))) xs) else [].
  Proof.
    unfold times_of, with_zeros. induction xs as [|[[k0 a] [[t m1] m2]] xs IH]; intros [|r l] HL; try discriminate.
    - destruct (String.eqb name k); reflexivity.
    - cbn [two_records filter q_module map flat_map fst snd]. specialize (IH l ltac:(cbn in HL; lia)).
      destruct (String.eqb name k); cbn [map q_time app]; rewrite IH; reflexivity.
  Qed.
  Lemma two_records_length name detailed : forall (xs : list (K * A * (R * R * R))) (l : list (result O S)), length l = length xs -> length (two_records arg_data result_data name detailed xs l) = 2 * length xs.
  Proof.
    induction xs as [|[[k0 a] [[t m1] m2]] xs IH]; intros [|r l] HL; try discriminate; [reflexivity|].
    cbn [two_records length]. rewrite IH by (cbn in HL; lia). lia.
  Qed.
End ProfRun.

Lemma metrics_times tm : forall l n last, map m_time (metrics_of tm n last l) = map q_time l.
Proof. induction l as [|q l IH]; intros n last; [reflexivity|]. cbn [metrics_of map m_time]. now rewrite IH. Qed.
Lemma metrics_length tm : forall l n last, length (metrics_of tm n last l) = length l.
Proof. intros. rewrite <- (map_length m_time), metrics_times, map_length. reflexivity. Qed.

(** *** Statistics with zeros *)
Lemma with_zeros_length ts : length (with_zeros ts) = 2 * length ts.
Proof. unfold with_zeros. induction ts as [|t ts IH]; [reflexivity|]. cbn [flat_map app length]. rewrite IH. lia. Qed.
Lemma with_zeros_sum ts : sumR (with_zeros ts) = sumR ts.
Proof. unfold with_zeros, sumR. induction ts as [|t ts IH]; [reflexivity|]. cbn [flat_map app fold_right]. rewrite IH. lra. Qed.
Lemma with_zeros_mean ts : ts <> [] -> meanR (with_zeros ts) = (meanR ts / 2)%R.
Proof.
  intros N. unfold meanR. rewrite with_zeros_sum, with_zeros_length, mult_INR.
  assert (INR (length ts) <> 0)%R by (apply not_0_INR; destruct ts; [congruence|discriminate]).
  cbn [INR]. field. exact H.
Qed.
Lemma fold_min_le : forall l x, (fold_left Rmin l x <= x)%R /\ (forall y, In y l -> (fold_left Rmin l x <= y)%R).
Proof.
  induction l as [|a l IH]; intros x; cbn [fold_left]; [split; [lra|intros y []]|].
  destruct (IH (Rmin x a)) as [H1 H2]. pose proof (Rmin_l x a). pose proof (Rmin_r x a). split; [lra|].
  intros y [->|Hy]; [lra|now apply H2].
Qed.
Lemma fold_min_in : forall l x, fold_left Rmin l x = x \/ In (fold_left Rmin l x) l.
Proof.
  induction l as [|a l IH]; intros x; cbn [fold_left]; [now left|].
  destruct (IH (Rmin x a)) as [E|E]; [|right; right; exact E].
  rewrite E. unfold Rmin. destruct (Rle_dec x a); [now left|right; left; reflexivity].
Qed.
Lemma fold_max_ge : forall l x, (x <= fold_left Rmax l x)%R /\ (forall y, In y l -> (y <= fold_left Rmax l x)%R).
Proof.
  induction l as [|a l IH]; intros x; cbn [fold_left]; [split; [lra|intros y []]|].
  destruct (IH (Rmax x a)) as [H1 H2]. pose proof (Rmax_l x a). pose proof (Rmax_r x a). split; [lra|].
  intros y [->|Hy]; [lra|now apply H2].
Qed.
Lemma fold_max_in : forall l x, fold_left Rmax l x = x \/ In (fold_left Rmax l x) l.
Proof.
  induction l as [|a l IH]; intros x; cbn [fold_left]; [now left|].
  destruct (IH (Rmax x a)) as [E|E]; [|right; right; exact E].
  rewrite E. unfold Rmax. destruct (Rle_dec x a); [right; left; reflexivity|now left].
Qed.
Lemma in_with_zeros ts y : In y (with_zeros ts) -> y = 0%R \/ In y ts.
Proof. unfold with_zeros. rewrite in_flat_map. intros (t & Ht & [E|[E|[]]]); [left; congruence|right; subst; exact Ht]. Qed.
Lemma with_zeros_in ts t : In t ts -> In t (with_zeros ts).
Proof. unfold with_zeros. intros H. apply in_flat_map. exists t. cbn. tauto. Qed.
Lemma with_zeros_min ts : ts <> [] -> (forall t, In t ts -> 0 <= t)%R -> minR (with_zeros ts) = 0%R.
Proof.
  intros N HP. destruct ts as [|t ts]; [congruence|]. unfold with_zeros. cbn [flat_map app minR].
  change (flat_map (fun t => [0%R; t]) ts) with (with_zeros ts).
  destruct (fold_min_le (t :: with_zeros ts) 0) as [H1 _].
  destruct (fold_min_in (t :: with_zeros ts) 0) as [E|[E|E]].
  - exact E.
  - assert (0 <= fold_left Rmin (t :: with_zeros ts) 0)%R by (rewrite <- E; apply HP; now left). lra.
  - apply in_with_zeros in E. destruct E as [E|E]; [exact E|].
    assert (0 <= fold_left Rmin (t :: with_zeros ts) 0)%R by (apply HP; now right). lra.
Qed.
Lemma with_zeros_max ts : ts <> [] -> (forall t, In t ts -> 0 <= t)%R -> maxR (with_zeros ts) = maxR ts.
Proof.
  intros N HP. destruct ts as [|t ts]; [congruence|]. unfold with_zeros. cbn [flat_map app maxR].
  change (flat_map (fun t => [0%R; t]) ts) with (with_zeros ts).
  destruct (fold_max_ge (t :: with_zeros ts) 0) as [H1 H1'].
  destruct (fold_max_ge ts t) as [H2 H2'].
  assert (HT : (0 <= t)%R) by (apply HP; now left).
  apply Rle_antisym.
  - destruct (fold_max_in (t :: with_zeros ts) 0) as [E|[E|E]].
    + rewrite E. lra.
    + rewrite <- E. exact H2.
    + apply in_with_zeros in E. destruct E as [E|E]; [rewrite E; lra|]. now apply H2'.
  - destruct (fold_max_in ts t) as [E|E].
    + rewrite E. apply H1'. now left.
    + apply H1'. right. now apply with_zeros_in.
Qed.

(** the sample deviation always exceeds the mean *)
Lemma sum_sq_ge c : forall l, (sumR (map (fun x => Rsqr (x - c)) l) = sumR (map Rsqr l) - 2 * c * sumR l + INR (length l) * Rsqr c)%R.
Proof.
  induction l as [|x l IH]; [cbn; unfold Rsqr; lra|]. cbn [map]. unfold sumR in *. cbn [fold_right]. rewrite IH.
  change (length (x :: l)) with (Datatypes.S (length l)). rewrite S_INR. unfold Rsqr. ring.
Qed.
Lemma sum_nonneg l : (forall x, In x l -> 0 <= x)%R -> (0 <= sumR l)%R.
Proof. unfold sumR. induction l as [|x l IH]; intros H; cbn; [lra|]. pose proof (H x (or_introl eq_refl)). assert (0 <= fold_right Rplus 0 l)%R by (apply IH; intros; apply H; now right). lra. Qed.
Lemma cauchy l : (Rsqr (sumR l) <= INR (length l) * sumR (map Rsqr l))%R.
Proof.
  destruct l as [|x l]; [cbn; unfold Rsqr, sumR; cbn; lra|].
  assert (HN : (0 < INR (length (x :: l)))%R) by (apply lt_0_INR; cbn; lia).
  remember (x :: l) as q.
  pose proof (sum_sq_ge (sumR q / INR (length q)) q) as E.
  assert (HP : (0 <= sumR (map (fun x => Rsqr (x - sumR q / INR (length q))) q))%R).
  { apply sum_nonneg. intros y Hy. apply in_map_iff in Hy. destruct Hy as (z & <- & _). apply Rle_0_sqr. }
  rewrite E in HP. clear E Heqq.
  assert (H1 : (0 <= (sumR (map Rsqr q) - 2 * (sumR q / INR (length q)) * sumR q + INR (length q) * Rsqr (sumR q / INR (length q))) * INR (length q))%R).
  { apply Rmult_le_pos; lra. }
  replace ((sumR (map Rsqr q) - 2 * (sumR q / INR (length q)) * sumR q + INR (length q) * Rsqr (sumR q / INR (length q))) * INR (length q))%R
    with (INR (length q) * sumR (map Rsqr q) - Rsqr (sumR q))%R in H1 by (unfold Rsqr; field; lra). lra.
Qed.
Lemma map_sqr_zeros ts : sumR (map Rsqr (with_zeros ts)) = sumR (map Rsqr ts).
Proof. unfold with_zeros, sumR. induction ts as [|t ts IH]; [reflexivity|]. cbn [flat_map app map fold_right]. rewrite IH. unfold Rsqr. ring. Qed.
Lemma deviation_exceeds ts : (0 < sumR ts)%R -> (meanR (with_zeros ts) < stdevR (with_zeros ts))%R.
Proof.
  intros HS.
  assert (N : ts <> []) by (intros ->; unfold sumR in HS; cbn in HS; lra).
  assert (HN : (1 <= INR (length ts))%R) by (change 1%R with (INR 1); apply le_INR; destruct ts; [congruence|cbn; lia]).
  set (n := INR (length ts)) in *.
  assert (HL : INR (length (with_zeros ts)) = (2 * n)%R) by (rewrite with_zeros_length, mult_INR; reflexivity).
  unfold stdevR. rewrite sum_sq_ge, map_sqr_zeros, HL. unfold meanR. rewrite with_zeros_sum, HL.
  pose proof (cauchy ts) as C. fold n in C.
  set (T := sumR ts) in *. set (Q := sumR (map Rsqr ts)) in *.
  assert (HM : (0 < T / (2 * n))%R) by (apply Rdiv_lt_0_compat; lra).
  rewrite <- (sqrt_Rsqr (T / (2 * n))) at 1 by lra. apply sqrt_lt_1.
  - apply Rle_0_sqr.
  - apply Rmult_le_pos; [|left; apply Rinv_0_lt_compat; lra].
    replace (Q - 2 * (T / (2 * n)) * T + 2 * n * Rsqr (T / (2 * n)))%R with (Q - T * T / (2 * n))%R by (unfold Rsqr; field; lra).
    assert (T * T / (2 * n) <= Q)%R; [|lra]. apply Rmult_le_reg_r with (2 * n)%R; [lra|].
    unfold Rsqr in C. replace (T * T / (2 * n) * (2 * n))%R with (T * T)%R by (field; lra). nra.
  - replace (Q - 2 * (T / (2 * n)) * T + 2 * n * Rsqr (T / (2 * n)))%R with (Q - T * T / (2 * n))%R by (unfold Rsqr; field; lra).
    apply Rmult_lt_reg_r with ((2 * n - 1) * (4 * n * n))%R; [apply Rmult_lt_0_compat; [lra|nra]|].
    replace ((Q - T * T / (2 * n)) / (2 * n - 1) * ((2 * n - 1) * (4 * n * n)))%R with (4 * n * (n * Q) - 2 * n * (T * T))%R by (field; lra).
    replace (Rsqr (T / (2 * n)) * ((2 * n - 1) * (4 * n * n)))%R with (T * T * (2 * n - 1))%R by (unfold Rsqr; field; lra).
    unfold Rsqr in C. assert (0 < T * T)%R by nra. nra.
Qed.

(** the median is half the smallest time *)
Lemma insertR_length x l : length (insertR x l) = Datatypes.S (length l).
Proof. induction l as [|y l IH]; cbn [insertR]; [reflexivity|]. destruct (Rle_b x y); cbn [length]; [reflexivity|]. now rewrite IH. Qed.
Lemma sortR_length l : length (sortR l) = length l.
Proof. unfold sortR. induction l as [|x l IH]; cbn [fold_right]; [reflexivity|]. rewrite insertR_length, IH. reflexivity. Qed.
Lemma insertR_in x l y : In y (insertR x l) <-> y = x \/ In y l.
Proof.
  induction l as [|z l IH]; cbn [insertR]; [cbn; intuition congruence|]. destruct (Rle_b x z); cbn [In]; [intuition congruence|].
  rewrite IH. cbn [In]. intuition congruence.
Qed.
Lemma sortR_in l y : In y (sortR l) <-> In y l.
Proof. unfold sortR. induction l as [|x l IH]; cbn [fold_right]; [reflexivity|]. rewrite insertR_in, IH. cbn. intuition congruence. Qed.
Lemma insert_zero l : (forall y, In y l -> 0 <= y)%R -> insertR 0 l = 0%R :: l.
Proof. destruct l as [|y l]; intros H; cbn [insertR]; [reflexivity|]. unfold Rle_b. destruct (Rle_dec 0 y); [reflexivity|]. exfalso. apply n. apply H. now left. Qed.
Lemma sort_with_zeros ts : (forall t, In t ts -> 0 <= t)%R -> sortR (with_zeros ts) = repeat 0%R (length ts) ++ sortR ts.
Proof.
  intros HP. unfold sortR, with_zeros. induction ts as [|t ts IH]; [reflexivity|].
  cbn [flat_map app fold_right length repeat]. rewrite IH by (intros; apply HP; now right).
  assert (Ht : (0 <= t)%R) by (apply HP; now left).
  assert (HS : forall y, In y (fold_right insertR [] ts) -> (0 <= y)%R).
  { intros y Hy. change (fold_right insertR [] ts) with (sortR ts) in Hy. apply (sortR_in ts y) in Hy. apply HP. now right. }
  assert (E : insertR t (repeat 0%R (length ts) ++ fold_right insertR [] ts) = repeat 0%R (length ts) ++ insertR t (fold_right insertR [] ts)).
  { generalize (fold_right insertR [] ts) as l, HS. intros l Hl. generalize (length ts) as n.
    induction n as [|n IHn]; [reflexivity|]. cbn [repeat app insertR]. unfold Rle_b. destruct (Rle_dec t 0) as [L|L].
    - assert (t = 0%R) by lra. subst t. rewrite insert_zero by exact Hl.
      f_equal. clear. induction n as [|n IHn]; [reflexivity|]. cbn [repeat app]. now rewrite IHn.
    - now rewrite IHn. }
  rewrite E. rewrite insert_zero; [reflexivity|].
  intros y Hy. apply in_app_or in Hy. destruct Hy as [Hy|Hy]; [apply repeat_spec in Hy; lra|].
  apply insertR_in in Hy. destruct Hy as [->|Hy]; [exact Ht|]. now apply HS.
Qed.
Lemma sorted_head l : l <> [] -> nth 0 (sortR l) 0%R = minR l.
Proof.
  intros N.
  assert (HH : forall l, (forall y, In y (sortR l) -> nth 0 (sortR l) 0 <= y)%R).
  { clear. intros l. unfold sortR. induction l as [|x l IH]; intros y Hy; [destruct Hy|]. cbn [fold_right] in *.
    destruct (fold_right insertR [] l) as [|z q] eqn:E; cbn [insertR] in *; [destruct Hy as [<-|[]]; cbn; lra|].
    unfold Rle_b in *. destruct (Rle_dec x z) as [L|L]; cbn [nth] in *.
    - destruct Hy as [<-|Hy]; [lra|]. specialize (IH y Hy). lra.
    - destruct Hy as [<-|Hy]; [lra|]. apply insertR_in in Hy. destruct Hy as [->|Hy]; [lra|]. apply IH. now right. }
  destruct l as [|x l]; [congruence|]. cbn [minR].
  destruct (fold_min_le l x) as [H1 H2]. apply Rle_antisym.
  - apply HH. apply sortR_in. destruct (fold_min_in l x) as [E|E]; [left; now rewrite E|now right].
  - assert (HI : In (nth 0 (sortR (x :: l)) 0%R) (sortR (x :: l))) by (apply nth_In; rewrite sortR_length; cbn; lia).
    apply (proj1 (sortR_in _ _)) in HI. destruct HI as [HI|HI]; [rewrite <- HI; exact H1|now apply H2].
Qed.
Lemma median_with_zeros ts : ts <> [] -> (forall t, In t ts -> 0 <= t)%R -> medianR (with_zeros ts) = (minR ts / 2)%R.
Proof.
  intros N HP. unfold medianR. rewrite with_zeros_length, sort_with_zeros by exact HP.
  replace (Nat.even (2 * length ts)) with true by (symmetry; apply Nat.even_spec; now exists (length ts)).
  rewrite (Nat.mul_comm 2), Nat.div_mul by lia.
  assert (HL : 0 < length ts) by (destruct ts; [congruence|cbn; lia]).
  rewrite app_nth1 by (rewrite repeat_length; lia). rewrite app_nth2 by (rewrite repeat_length; lia).
  rewrite repeat_length, Nat.sub_diag, nth_repeat, sorted_head by exact N. lra.
Qed.
