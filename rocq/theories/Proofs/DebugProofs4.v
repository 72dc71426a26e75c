(** Proofs for C85 (decorated functions) and C86 (memory tracker). *)
From Coq Require Import String List Bool Arith Lia ZArith Reals Lra.
From Verif Require Import Model.Float Model.FlaxOptim Spec.StreamSpec Spec.DebugSpec
  Proofs.FloatFacts Proofs.FlaxOptimProofs Proofs.StreamProofs Proofs.DebugProofs Proofs.DebugProofs2 Proofs.DebugProofs3.
From Verif Require Import Model.Debug.
Import ListNotations.
Local Open Scope list_scope.

Lemma Rlt_b_true a b : (a < b)%R -> Rlt_b a b = true.
Proof. intros. unfold Rlt_b. destruct (Rlt_dec a b); [reflexivity|contradiction]. Qed.
Lemma Rlt_b_false a b : (b <= a)%R -> Rlt_b a b = false.
Proof. intros. unfold Rlt_b. destruct (Rlt_dec a b); [lra|reflexivity]. Qed.
Lemma Rlt_b_iff a b : Rlt_b a b = true <-> (a < b)%R.
Proof. unfold Rlt_b. destruct (Rlt_dec a b); split; intros; try assumption; try reflexivity; try discriminate; contradiction. Qed.
Lemma sget_In {A} k (d : list (string * A)) v : sget k d = Some v -> In (k, v) d.
Proof. induction d as [|[k' w] d IH]; cbn [sget]; [discriminate|]. destruct (String.eqb k k') eqn:E; intros H.
  - apply String.eqb_eq in E. injection H; intros ->; subst. now left. - right. now apply IH. Qed.

Section Prof.
  Context {P K A O S : Type}.
  Variable apply : P -> S -> K -> A -> option (result O S).
  Variables (arg_data : A -> pdata) (result_data : result O S -> pdata).
  Variables (name : string) (detailed : bool) (p : P) (s : S) (xs : list (K * A * (R * R * R))).
  Variables (track_mem : bool) (bott leak : R) (mx : nat).
  Local Notation profiled := (profiled apply arg_data result_data name detailed p s xs track_mem bott leak mx).
  Local Notation call_times := (call_times xs).

  Lemma profiled_records : length (fst (fst profiled)) = length xs ->
    let l := two_records arg_data result_data name detailed xs (fst (fst profiled)) in
    let ms := metrics_of track_mem 1 0 l in
    let pr := snd profiled in
    p_metrics pr = lastn mx ms /\ p_steps pr = 2 * length xs /\
    opt_list (p_bottlenecks pr) = filter (fun m => Rlt_b bott (m_time m * 1000)) ms /\
    opt_list (sget name (p_modules pr)) = with_zeros call_times /\
    map m_time ms = with_zeros call_times.
  Proof.
    intros HL. cbn zeta. unfold DebugSpec.profiled in *.
    rewrite (profile_records apply arg_data result_data name detailed p xs s _ HL).
    match goal with |- context [two_records _ _ _ _ xs ?q] => set (rs := q) in * end.
    destruct (record_exact track_mem bott leak mx (two_records arg_data result_data name detailed xs rs)) as (H1 & H2 & H3 & H4).
    cbn zeta in *. rewrite H1, H2, H3, H4, two_records_length, two_records_times, String.eqb_refl by exact HL.
    repeat split; try reflexivity. rewrite metrics_times.
    pose proof (two_records_times arg_data result_data name detailed name xs rs HL) as E. rewrite String.eqb_refl in E.
    fold call_times in E. rewrite <- E. unfold times_of. f_equal.
    assert (G : forall (ys : list (K * A * (R * R * R))) (rs : list (result O S)), Forall (fun q => q_module q = name) (two_records arg_data result_data name detailed ys rs)).
    { clear. induction ys as [|[[k a] [[t m1] m2]] ys IH]; intros [|r rs]; cbn [two_records]; try constructor; [reflexivity|].
      constructor; [reflexivity|]. apply IH. }
    specialize (G xs rs). revert G. generalize (two_records arg_data result_data name detailed xs rs) as l. clear.
    intros l G. assert (F : filter (fun q => String.eqb (q_module q) name) l = l).
    { induction G as [|x l Hx G IH]; [reflexivity|]. cbn [filter]. rewrite Hx, String.eqb_refl. now rewrite IH. }
    symmetry. exact F.
  Qed.

  Hypothesis HALL : length (fst (fst profiled)) = length xs.
  Hypothesis HNE : xs <> [].
  Hypothesis HPOS : forall t, In t call_times -> (0 <= t)%R.

  Lemma xs_pos : 0 < length xs.
  Proof using HNE. clear HALL HPOS. destruct xs as [|y ys]; [exfalso; now apply HNE|]. cbn. lia. Qed.
  Lemma call_times_ne : call_times <> [].
  Proof using HNE. clear HALL HPOS. unfold DebugSpec.call_times. destruct xs; [congruence|discriminate]. Qed.

  (** C85: what the statistics say of [n] calls *)
  Lemma profile_stats : 2 * length xs <= mx ->
    let pr := snd profiled in
    let ts := map m_time (r_metrics (finalize pr)) in
    r_steps (finalize pr) = 2 * length xs /\
    meanR ts = (meanR call_times / 2)%R /\ medianR ts = (minR call_times / 2)%R /\
    minR ts = 0%R /\ maxR ts = maxR call_times.
  Proof.
    intros HM. cbn zeta. destruct (profiled_records HALL) as (H1 & H2 & H3 & H4 & H5). cbn zeta in *.
    unfold finalize. cbn [r_metrics r_steps]. rewrite H1, lastn_all, H5.
    - pose proof call_times_ne. split; [exact H2|]. split; [now apply with_zeros_mean|].
      split; [now apply median_with_zeros|]. split; [now apply with_zeros_min|now apply with_zeros_max].
    - rewrite metrics_length, two_records_length by exact HALL. exact HM.
  Qed.
  Lemma profile_module : 2 * length xs <= mx ->
    module_summary name (snd profiled) = Some (2 * length xs, (meanR call_times / 2)%R, 0%R, 0).
  Proof.
    intros HM. destruct (profiled_records HALL) as (H1 & H2 & H3 & H4 & H5). cbn zeta in *.
    unfold module_summary. rewrite H1, lastn_all by (rewrite metrics_length, two_records_length by exact HALL; exact HM).
    assert (G : forall (ys : list (K * A * (R * R * R))) (rs : list (result O S)) n last, let l := metrics_of track_mem n last (two_records arg_data result_data name detailed ys rs) in
       filter (fun m => String.eqb (m_module m) name) l = l /\ filter m_jit l = []).
    { clear. induction ys as [|[[k a] [[t m1] m2]] ys IH]; intros [|r rs] n last; cbn [two_records metrics_of]; try (split; reflexivity).
      cbn [filter m_module m_jit q_module q_jit]. rewrite !String.eqb_refl. cbn [q_mem] in *.
      destruct (IH rs (n + 1 + 1) m2) as [E1 E2]. cbn zeta in *. rewrite E1, E2. split; reflexivity. }
    destruct (G xs (fst (fst profiled)) 1 0%R) as [E1 E2]. cbn zeta in *. rewrite E1.
    assert (HL : length (metrics_of track_mem 1 0 (two_records arg_data result_data name detailed xs (fst (fst profiled)))) = 2 * length xs)
      by (rewrite metrics_length, two_records_length by exact HALL; reflexivity).
    destruct (metrics_of track_mem 1 0 (two_records arg_data result_data name detailed xs (fst (fst profiled)))) as [|m0 ms0].
    - exfalso. cbn [length] in HL. pose proof xs_pos. lia.
    - rewrite E2, H5, HL, with_zeros_mean, with_zeros_min by (exact HPOS || exact call_times_ne). reflexivity.
  Qed.
  (** C85: whatever the times, the module is reported as irregular *)
  Lemma profile_always_irregular : 0 < mx -> (0 < sumR call_times)%R -> In (AdvModule name) (recommendations (snd profiled)).
  Proof.
    clear HPOS. intros HM HS. destruct (profiled_records HALL) as (H1 & H2 & H3 & H4 & H5). cbn zeta in *.
    unfold recommendations.
    destruct (p_metrics (snd profiled)) as [|m0 ms0] eqn:EM.
    - exfalso. assert (HL : length (@nil metric) = Nat.min mx (2 * length xs))
        by (rewrite H1, lastn_length, metrics_length, two_records_length by exact HALL; reflexivity).
      cbn [length] in HL. pose proof xs_pos. lia.
    - do 4 (apply in_or_app; right). apply in_flat_map. exists (name, with_zeros call_times). split.
      + apply sget_In. destruct (sget name (p_modules (snd profiled))) as [l|]; cbn [opt_list] in H4; [congruence|].
        exfalso. apply call_times_ne. unfold with_zeros in H4. destruct call_times; [reflexivity|discriminate].
      + cbn [fst snd]. rewrite with_zeros_length.
        assert (E1 : 1 <? 2 * length call_times = true).
        { apply Nat.ltb_lt. pose proof call_times_ne. destruct call_times; [congruence|cbn; lia]. }
        rewrite E1. rewrite Rlt_b_true; [now left|].
        pose proof (deviation_exceeds call_times HS) as D.
        assert (0 <= meanR (with_zeros call_times))%R; [|lra].
        unfold meanR. apply Rmult_le_pos; [rewrite with_zeros_sum; lra|].
        left. apply Rinv_0_lt_compat. apply lt_0_INR. rewrite with_zeros_length.
        apply Nat.ltb_lt in E1. lia.
  Qed.
  (** C85: the time-variance advice fires at 1.5 times the mean instead of 3 *)
  Lemma profile_time_variance : 2 * length xs <= mx ->
    In AdvTimeVariance (recommendations (snd profiled)) <-> (3 / 2 * meanR call_times < maxR call_times)%R.
  Proof.
    intros HM. pose proof (profile_stats HM) as (_ & E1 & _ & _ & E2). unfold finalize in E1, E2. cbn [r_metrics] in E1, E2.
    destruct (profiled_records HALL) as (H1 & _). cbn zeta in H1.
    unfold recommendations.
    destruct (p_metrics (snd profiled)) as [|m0 ms0] eqn:EM.
    - exfalso. assert (HL : length (@nil metric) = Nat.min mx (2 * length xs))
        by (rewrite H1, lastn_length, metrics_length, two_records_length by exact HALL; reflexivity).
      cbn [length] in HL. pose proof xs_pos. lia.
    - rewrite E1, E2.
      replace (meanR call_times / 2 * 3)%R with (3 / 2 * meanR call_times)%R by lra.
      split.
      + intros HI. apply in_app_or in HI. destruct HI as [HI|HI].
        * destruct (Rlt_b (3 / 2 * meanR call_times) (maxR call_times)) eqn:B; [now apply Rlt_b_iff|destruct HI].
        * exfalso. repeat (apply in_app_or in HI; destruct HI as [HI|HI]; [destruct (Rlt_b _ _); [destruct HI as [HI|[]]; discriminate|destruct HI]|]).
          apply in_flat_map in HI. destruct HI as (kv & _ & HI). destruct (_ && _); [destruct HI as [HI|[]]; discriminate|destruct HI].
      + intros HI. apply in_or_app. left. rewrite Rlt_b_true by exact HI. now left.
  Qed.
  (** C85: the first reading of the memory counts as an allocation *)
  Lemma profile_first_memory k a t m1 m2 r : xs = (k, a, (t, m1, m2)) :: r -> 2 * length xs <= mx -> track_mem = true -> (100 < m1)%R ->
    In AdvMemory (recommendations (snd profiled)).
  Proof.
    intros EX HM ET H100. destruct (profiled_records HALL) as (H1 & _). cbn zeta in H1.
    rewrite lastn_all in H1 by (rewrite metrics_length, two_records_length by exact HALL; exact HM).
    unfold recommendations. rewrite H1. clear H1. revert HALL. generalize (fst (fst profiled)) as q. intros q. rewrite EX, ET.
    destruct q as [|r0 rs]; [discriminate|]. intros _.
    cbn [two_records metrics_of]. apply in_or_app; right. apply in_or_app; left.
    rewrite Rlt_b_true; [now left|]. cbn [map filter m_delta q_mem].
    rewrite Rlt_b_true by lra.
    assert (G : forall l, (0 <= sumR (filter (fun x => Rlt_b 0 x) l))%R).
    { clear. intros l. apply sum_nonneg. intros x Hx. apply filter_In in Hx. destruct Hx as [_ Hx]. apply Rlt_b_iff in Hx. lra. }
    unfold sumR. cbn [fold_right].
    match goal with |- context [fold_right Rplus 0%R (if ?b then ?u :: filter ?f ?l else _)] => pose proof (G (u :: l)) as G1 end.
    cbn [filter] in G1. unfold sumR in G1. lra.
  Qed.
  (** C85: jit compilations are never seen *)
  Lemma profile_no_jit : ~ In AdvJit (recommendations (snd profiled)) /\ Forall (fun m => m_jit m = false) (p_metrics (snd profiled)).
  Proof.
    destruct (profiled_records HALL) as (H1 & _). cbn zeta in H1.
    assert (G : forall (ys : list (K * A * (R * R * R))) (rs : list (result O S)) n last, Forall (fun m => m_jit m = false) (metrics_of track_mem n last (two_records arg_data result_data name detailed ys rs))).
    { clear. induction ys as [|[[k a] [[t m1] m2]] ys IH]; intros [|r rs] n last; cbn [two_records metrics_of]; constructor; [reflexivity|].
      constructor; [reflexivity|]. apply IH. }
    assert (F : Forall (fun m => m_jit m = false) (p_metrics (snd profiled))).
    { rewrite H1. unfold lastn. specialize (G xs (fst (fst profiled)) 1 0%R).
      rewrite <- (firstn_skipn (length (metrics_of track_mem 1 0 (two_records arg_data result_data name detailed xs (fst (fst profiled)))) - mx)) in G.
      apply Forall_app in G. tauto. }
    split; [|exact F]. unfold recommendations. destruct (p_metrics (snd profiled)) as [|m0 ms0]; [intros []|].
    assert (EF : filter m_jit (m0 :: ms0) = []).
    { clear -F. induction F as [|x l Hx HF IH]; [reflexivity|]. cbn [filter]. rewrite Hx. exact IH. }
    rewrite EF. cbn [length]. change (INR 0) with 0%R.
    assert (B : Rlt_b (INR (Datatypes.S (length ms0)) / 10) 0 = false).
    { apply Rlt_b_false. pose proof (pos_INR (Datatypes.S (length ms0))). lra. }
    rewrite B. intros HI.
    clear B. repeat (apply in_app_or in HI; destruct HI as [HI|HI];
      [match type of HI with In _ (if ?b then _ else _) => destruct b; [destruct HI as [HI|[]]; discriminate HI|destruct HI] | In _ [] => destruct HI end|]).
    apply in_flat_map in HI. destruct HI as (kv & _ & HI). destruct (_ && _); [destruct HI as [HI|[]]; discriminate|destruct HI].
  Qed.
  (** C85: bottlenecks: one per slow call, with the step 2i and no data sizes *)
  Lemma profile_bottlenecks : (0 <= bott)%R ->
    let b := opt_list (p_bottlenecks (snd profiled)) in
    map (fun m => (m_step m, m_time m)) b =
      filter (fun p => Rlt_b bott (snd p * 1000)) (combine (map (fun i => 2 * i) (seq 1 (length xs))) call_times) /\
    Forall (fun m => m_in m = 0 /\ m_out m = 0) b.
  Proof.
    intros HB. cbn zeta. destruct (profiled_records HALL) as (_ & _ & H3 & _). cbn zeta in H3. rewrite H3. clear H3.
    assert (G : forall (ys : list (K * A * (R * R * R))) (rs : list (result O S)) n last, length rs = length ys ->
       let b := filter (fun m => Rlt_b bott (m_time m * 1000)) (metrics_of track_mem (2 * n + 1) last (two_records arg_data result_data name detailed ys rs)) in
       map (fun m => (m_step m, m_time m)) b =
       filter (fun p => Rlt_b bott (snd p * 1000)) (combine (map (fun i => 2 * i) (seq (n + 1) (length ys))) (map (fun x => fst (fst (snd x))) ys)) /\
       Forall (fun m => m_in m = 0 /\ m_out m = 0) b).
    { clear -HB. induction ys as [|[[k a] [[t m1] m2]] ys IH]; intros [|r rs] n last HL; try discriminate; [split; [reflexivity|constructor]|].
      cbn [two_records metrics_of filter m_time q_time q_mem]. rewrite Rlt_b_false by lra.
      specialize (IH rs (n + 1) m2 ltac:(cbn in HL; lia)). cbn zeta in *.
      replace (2 * n + 1 + 1 + 1) with (2 * (n + 1) + 1) by lia. destruct IH as [I1 I2].
      cbn [length seq map fst snd combine filter]. replace (Datatypes.S (n + 1)) with (n + 1 + 1) by lia.
      destruct (Rlt_b bott (t * 1000)); [|split; assumption]. cbn [map m_step m_time]. rewrite I1. split.
      - f_equal. f_equal. lia.
      - constructor; [split; reflexivity|exact I2]. }
    destruct (G xs (fst (fst profiled)) 0 0%R HALL) as [G1 G2]. split; [exact G1|exact G2].
  Qed.
  (** C85: the advice about large inputs never comes for a decorated function *)
  Lemma profile_never_large : ~ In AdvLargeInput (recommendations (snd profiled)).
  Proof.
    destruct (profiled_records HALL) as (H1 & _). cbn zeta in H1. clear HNE HPOS.
    set (big := fun m : metric => (1024 * 1024 <? Z.of_nat (m_in m))%Z).
    assert (G : forall (ys : list (K * A * (R * R * R))) (rs : list (result O S)) n last j,
       2 * length (filter big (skipn j (metrics_of track_mem n last (two_records arg_data result_data name detailed ys rs)))) <=
       length (skipn j (metrics_of track_mem n last (two_records arg_data result_data name detailed ys rs)))).
    { clear. induction ys as [|[[k a] [[t m1] m2]] ys IH]; intros [|r rs] n last j; cbn [two_records metrics_of]; try (rewrite skipn_nil; cbn; lia).
      destruct j as [|[|j]].
      - specialize (IH rs (n + 1 + 1) m2 0). rewrite !skipn_O in *. cbn [q_mem] in *. cbn [filter length].
        match goal with |- context [if big ?u then _ :: (if big ?v then _ else _) else _] => change (big v) with false; destruct (big u); cbn [length]; lia end.
      - specialize (IH rs (n + 1 + 1) m2 0). rewrite !skipn_O in *. cbn [q_mem skipn] in *. cbn [filter length].
        replace (big _) with false by reflexivity. lia.
      - cbn [skipn q_mem]. apply IH. }
    unfold recommendations. destruct (p_metrics (snd profiled)) as [|m0 ms0] eqn:EM; [intros []|].
    fold big. set (ms := m0 :: ms0) in *.
    assert (B : Rlt_b (INR (length ms) / 2) (INR (length (filter big ms))) = false).
    { apply Rlt_b_false. specialize (G xs (fst (fst profiled)) 1 0%R). unfold lastn in H1. rewrite H1.
      match goal with |- context [skipn ?j _] => specialize (G j) end.
      apply le_INR in G. rewrite mult_INR in G. cbn [INR] in G. lra. }
    rewrite B. clear B. intros HI.
    repeat (apply in_app_or in HI; destruct HI as [HI|HI];
      [match type of HI with In _ (if ?b then _ else _) => destruct b; [destruct HI as [HI|[]]; discriminate HI|destruct HI] | In _ [] => destruct HI end|]).
    apply in_flat_map in HI. destruct HI as (kv & _ & HI). destruct (_ && _); [destruct HI as [HI|[]]; discriminate|destruct HI].
  Qed.
End Prof.

Lemma maxR_gt c : forall l, l <> [] -> (c < maxR l)%R <-> exists x, In x l /\ (c < x)%R.
Proof.
  intros [|a l]; [congruence|intros _]. cbn [maxR]. revert a. induction l as [|b l IH]; intros a; cbn [fold_left].
  - split; [intros H; exists a; split; [now left|exact H]|intros (x & [->|[]] & H); exact H].
  - rewrite IH. split.
    + intros (x & [<-|H] & Hx).
      * destruct (Rle_dec a b) as [L|L]; [rewrite Rmax_right in Hx by exact L; exists b|rewrite Rmax_left in Hx by lra; exists a]; split; auto; [right; now left|now left].
      * exists x. split; [right; now right|exact Hx].
    + intros (x & [<-|[<-|H]] & Hx); [exists (Rmax a b)|exists (Rmax a b)|exists x]; (split; [|]); try (now left); try (now right); try exact Hx.
      * eapply Rlt_le_trans; [exact Hx|apply Rmax_l].
      * eapply Rlt_le_trans; [exact Hx|apply Rmax_r].
Qed.
Lemma in_if {A} (b : bool) (x y : A) : In x (if b then [y] else []) <-> b = true /\ x = y.
Proof. destruct b; cbn; intuition congruence. Qed.
(** C85: when each advice is given *)
Lemma recommendations_exact pr : p_metrics pr <> [] ->
  let ms := p_metrics pr in
  (In AdvTimeVariance (recommendations pr) <-> exists m, In m ms /\ (3 * meanR (map m_time ms) < m_time m)%R) /\
  (In AdvMemory (recommendations pr) <-> (100 < sumR (map (fun m => Rmax 0 (m_delta m)) ms))%R) /\
  (In AdvJit (recommendations pr) <-> length ms < 10 * length (filter m_jit ms)) /\
  (In AdvLargeInput (recommendations pr) <-> length ms < 2 * length (filter (fun m => (1048576 <? Z.of_nat (m_in m))%Z) ms)) /\
  (forall k, In (AdvModule k) (recommendations pr) <->
     exists ts, In (k, ts) (p_modules pr) /\ 2 <= length ts /\ (meanR ts / 2 < stdevR ts)%R).
Proof.
  intros NE. cbn zeta. unfold recommendations. destruct (p_metrics pr) as [|m0 ms0] eqn:EM; [congruence|].
  set (ms := m0 :: ms0) in *.
  repeat setoid_rewrite in_app_iff. repeat setoid_rewrite in_if. repeat setoid_rewrite Rlt_b_iff.
  assert (FM : forall x, In x (flat_map (fun kv : string * list R => if (1 <? length (snd kv)) && Rlt_b (meanR (snd kv) * (1 / 2)) (stdevR (snd kv)) then [AdvModule (fst kv)] else []) (p_modules pr)) <->
     exists k ts, x = AdvModule k /\ In (k, ts) (p_modules pr) /\ 2 <= length ts /\ (meanR ts / 2 < stdevR ts)%R).
  { intros x. rewrite in_flat_map. split.
    - intros ([k ts] & HI & HX). apply in_if in HX. destruct HX as [HB ->]. apply andb_prop in HB. destruct HB as [B1 B2].
      cbn [fst snd] in *. exists k, ts. split; [reflexivity|]. split; [exact HI|]. split; [apply Nat.ltb_lt in B1; lia|].
      apply Rlt_b_iff in B2. lra.
    - intros (k & ts & -> & HI & HL & HR). exists (k, ts). split; [exact HI|]. apply in_if. split; [|reflexivity]. cbn [fst snd].
      apply andb_true_intro. split; [apply Nat.ltb_lt; lia|apply Rlt_b_iff; lra]. }
  setoid_rewrite FM.
  assert (N1 : forall a : advice, (exists k ts, a = AdvModule k /\ In (k, ts) (p_modules pr) /\ 2 <= length ts /\ (meanR ts / 2 < stdevR ts)%R) ->
      exists k, a = AdvModule k) by (intros a (k & ts & H & _); eauto).
  assert (HR : forall a b c : nat, c <> 0 -> (INR a / INR c < INR b)%R <-> a < c * b).
  { intros a b c C. assert (0 < INR c)%R by (apply lt_0_INR; lia). split.
    - intros H1. apply INR_lt. rewrite mult_INR. apply (Rmult_lt_compat_l (INR c)) in H1; [|assumption].
      replace (INR c * (INR a / INR c))%R with (INR a) in H1 by (field; lra). exact H1.
    - intros H1. apply lt_INR in H1. rewrite mult_INR in H1. apply (Rmult_lt_reg_l (INR c)); [assumption|].
      replace (INR c * (INR a / INR c))%R with (INR a) by (field; lra). exact H1. }
  pose proof (fun a b => HR a b 10 ltac:(lia)) as H10. pose proof (fun a b => HR a b 2 ltac:(lia)) as H2.
  replace (INR 10) with 10%R in H10 by (cbn; lra). replace (INR 2) with 2%R in H2 by (cbn; lra).
  rewrite H10, H2. change (1024 * 1024)%Z with 1048576%Z.
  assert (MX : (meanR (map m_time ms) * 3 < maxR (map m_time ms))%R <-> exists m, In m ms /\ (3 * meanR (map m_time ms) < m_time m)%R).
  { rewrite maxR_gt by (unfold ms; discriminate). split.
    - intros (x & HI & HX). apply in_map_iff in HI. destruct HI as (m & <- & HI). exists m. split; [exact HI|lra].
    - intros (m & HI & HX). exists (m_time m). split; [now apply in_map|lra]. }
  assert (DL : forall l, sumR (filter (fun x => Rlt_b 0 x) (map m_delta l)) = sumR (map (fun m => Rmax 0 (m_delta m)) l)).
  { induction l as [|m l IH]; [reflexivity|]. cbn [map filter]. unfold sumR in *. destruct (Rlt_b 0 (m_delta m)) eqn:B; cbn [fold_right]; rewrite IH.
    - apply Rlt_b_iff in B. rewrite Rmax_right by lra. reflexivity.
    - rewrite Rmax_left; [lra|]. destruct (Rle_dec (m_delta m) 0); [assumption|]. exfalso. rewrite Rlt_b_true in B by lra. discriminate. }
  rewrite DL. split; [rewrite <- MX|split; [|split; [|split]]].
  - split; [|intros; left; split; [assumption|reflexivity]].
    intros [[H _]|[[_ H]|[[_ H]|[[_ H]|H]]]]; [exact H|discriminate..|destruct (N1 _ H); discriminate].
  - split; [|intros; right; left; split; [assumption|reflexivity]].
    intros [[_ H]|[[H _]|[[_ H]|[[_ H]|H]]]]; [discriminate|exact H|discriminate..|destruct (N1 _ H); discriminate].
  - split; [|intros; right; right; left; split; [assumption|reflexivity]].
    intros [[_ H]|[[_ H]|[[H _]|[[_ H]|H]]]]; [discriminate..|exact H|discriminate|destruct (N1 _ H); discriminate].
  - split; [|intros; right; right; right; left; split; [assumption|reflexivity]].
    intros [[_ H]|[[_ H]|[[_ H]|[[H _]|H]]]]; [discriminate..|exact H|destruct (N1 _ H); discriminate].
  - intros k. split.
    + intros [[_ H]|[[_ H]|[[_ H]|[[_ H]|H]]]]; [discriminate..|]. destruct H as (k' & ts & HE & H). injection HE; intros <-. exists ts. exact H.
    + intros (ts & H). right; right; right; right. exists k, ts. split; [reflexivity|exact H].
Qed.

(** C85: detect_memory_leaks compares the ends of the last ten metrics *)
Lemma profiler_leak_exact p g : profiler_leak p = Some g <->
  exists l a b w, p_metrics p = l ++ a :: w ++ [b] /\ length w = 8 /\ g = (m_mem b - m_mem a)%R /\ (p_leak_mb p < g)%R.
Proof.
  unfold profiler_leak. split.
  - destruct (length (p_metrics p) <? 10) eqn:E; [discriminate|]. apply Nat.ltb_ge in E.
    set (q := skipn (length (p_metrics p) - 10) (p_metrics p)).
    assert (HQ : length q = 10) by (unfold q; rewrite skipn_length; lia).
    pose proof (firstn_skipn (length (p_metrics p) - 10) (p_metrics p)) as EQ. fold q in EQ.
    destruct q as [|a [|b1 [|b2 [|b3 [|b4 [|b5 [|b6 [|b7 [|b8 [|b [|]]]]]]]]]]]; try discriminate HQ.
    cbn [map nth]. destruct (Rlt_b (p_leak_mb p) (m_mem b - m_mem a)) eqn:B; [|discriminate]. intros H. injection H; intros <-.
    exists (firstn (length (p_metrics p) - 10) (p_metrics p)), a, b, [b1; b2; b3; b4; b5; b6; b7; b8].
    split; [symmetry; exact EQ|]. split; [reflexivity|]. split; [reflexivity|]. now apply Rlt_b_iff.
  - intros (l & a & b & w & E & HW & -> & HT). rewrite E.
    replace (length (l ++ a :: w ++ [b])) with (length l + 10) by (rewrite app_length; cbn [length]; rewrite app_length; cbn [length]; lia).
    replace (length l + 10 <? 10) with false by (symmetry; apply Nat.ltb_ge; lia).
    replace (length l + 10 - 10) with (length l) by lia. rewrite skipn_app, skipn_all, Nat.sub_diag. cbn [app skipn].
    destruct w as [|b1 [|b2 [|b3 [|b4 [|b5 [|b6 [|b7 [|b8 [|]]]]]]]]]; try discriminate HW.
    cbn [map nth app]. now rewrite Rlt_b_true.
Qed.

Lemma severity_exact t :
  (severity_of t = Critical <-> (100 < t)%R) /\ (severity_of t = High <-> (50 < t <= 100)%R) /\
  (severity_of t = Medium <-> (20 < t <= 50)%R) /\ (severity_of t = Low <-> (t <= 20)%R).
Proof.
  unfold severity_of.
  destruct (Rlt_b 100 t) eqn:B1; [apply Rlt_b_iff in B1|assert (~ (100 < t)%R) by (rewrite <- Rlt_b_iff; congruence)];
  [repeat split; intros; try reflexivity; try discriminate; lra|].
  destruct (Rlt_b 50 t) eqn:B2; [apply Rlt_b_iff in B2|assert (~ (50 < t)%R) by (rewrite <- Rlt_b_iff; congruence)];
  [repeat split; intros; try reflexivity; try discriminate; lra|].
  destruct (Rlt_b 20 t) eqn:B3; [apply Rlt_b_iff in B3|assert (~ (20 < t)%R) by (rewrite <- Rlt_b_iff; congruence)];
  repeat split; intros; try reflexivity; try discriminate; lra.
Qed.
