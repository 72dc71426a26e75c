(** Proofs about summaries and reports. *)
From Coq Require Import String List Bool Arith Lia ZArith Reals Lra Permutation Sorted.
From Verif Require Import Model.Float Model.FlaxOptim Spec.StreamSpec Spec.DebugSpec
  Proofs.FloatFacts Proofs.StreamProofs Proofs.DebugProofs3 Proofs.DebugProofs4.
From Verif Require Import Model.Debug Model.Reports Spec.ReportSpec.
Import ListNotations.
Local Open Scope list_scope.

(** * statistics *)
Lemma fold_max l : forall a, In (fold_left Rmax l a) (a :: l) /\ forall x, In x (a :: l) -> (x <= fold_left Rmax l a)%R.
Proof.
  induction l as [|b l IH]; intros a; cbn [fold_left].
  - split; [left; reflexivity|]. intros x [<-|[]]. apply Rle_refl.
  - destruct (IH (Rmax a b)) as (I & L). split.
    + destruct I as [I|I]; [|right; right; exact I]. rewrite <- I. unfold Rmax. destruct (Rle_dec a b); [right; left|left]; reflexivity.
    + pose proof (L _ (or_introl eq_refl)) as M. pose proof (Rmax_l a b). pose proof (Rmax_r a b).
      intros x [<-|[<-|J]]; [lra|lra|apply L; right; exact J].
Qed.
Lemma fold_min l : forall a, In (fold_left Rmin l a) (a :: l) /\ forall x, In x (a :: l) -> (fold_left Rmin l a <= x)%R.
Proof.
  induction l as [|b l IH]; intros a; cbn [fold_left].
  - split; [left; reflexivity|]. intros x [<-|[]]. apply Rle_refl.
  - destruct (IH (Rmin a b)) as (I & L). split.
    + destruct I as [I|I]; [|right; right; exact I]. rewrite <- I. unfold Rmin. destruct (Rle_dec a b); [left|right; left]; reflexivity.
    + pose proof (L _ (or_introl eq_refl)) as M. pose proof (Rmin_l a b). pose proof (Rmin_r a b).
      intros x [<-|[<-|J]]; [lra|lra|apply L; right; exact J].
Qed.
Lemma max_spec l : l <> [] -> is_max (maxR l) l.
Proof. destruct l as [|a l]; [contradiction|]. intros _. exact (fold_max l a). Qed.
Lemma min_spec l : l <> [] -> is_min (minR l) l.
Proof. destruct l as [|a l]; [contradiction|]. intros _. exact (fold_min l a). Qed.
Lemma len_pos {A} (l : list A) : l <> [] -> (0 < INR (length l))%R.
Proof. destruct l; [contradiction|]. intros _. apply lt_0_INR. cbn. lia. Qed.
Lemma mean_spec l : l <> [] -> is_average (meanR l) l.
Proof. intros N. unfold is_average, meanR. change (sumR l) with (total l). field. pose proof (len_pos l N). lra. Qed.
Lemma insert_perm x l : Permutation (x :: l) (insertR x l).
Proof.
  induction l as [|y l IH]; cbn; [reflexivity|]. destruct (Rle_b x y); [reflexivity|].
  rewrite perm_swap. constructor. exact IH.
Qed.
Lemma sort_perm l : Permutation l (sortR l).
Proof. induction l as [|x l IH]; cbn; [reflexivity|]. rewrite <- insert_perm. constructor. exact IH. Qed.
Lemma Rle_b_cases x y : (Rle_b x y = true /\ (x <= y)%R) \/ (Rle_b x y = false /\ (y < x)%R).
Proof. unfold Rle_b. destruct (Rle_dec x y); [left|right]; (split; [reflexivity|lra]). Qed.
Lemma insert_sorted x l : StronglySorted Rle l -> StronglySorted Rle (insertR x l).
Proof.
  induction l as [|y l IH]; intros S; cbn.
  - constructor; [constructor|constructor].
  - destruct (Rle_b_cases x y) as [(-> & L)|(-> & L)].
    + constructor; [exact S|]. apply StronglySorted_inv in S as (_ & F). constructor; [exact L|].
      eapply Forall_impl; [|exact F]. intros z Hz. cbn in Hz. lra.
    + apply StronglySorted_inv in S as (S & F). constructor; [exact (IH S)|].
      apply (Permutation_Forall (insert_perm x l)). constructor; [lra|exact F].
Qed.
Lemma sort_sorted l : StronglySorted Rle (sortR l).
Proof. induction l as [|x l IH]; cbn; [constructor|]. apply insert_sorted. exact IH. Qed.
Lemma split_nth (l : list R) n : n < length l -> exists a b, l = a ++ nth n l 0%R :: b /\ length a = n /\ length b = length l - n - 1.
Proof.
  intros H. destruct (nth_split l 0%R H) as (a & b & E & L). exists a, b. split; [exact E|]. split; [exact L|].
  apply (f_equal (@length R)) in E. rewrite app_length in E. cbn in E. lia.
Qed.
Lemma median_spec l : l <> [] -> is_median (medianR l) l.
Proof.
  intros N. exists (sortR l). split; [apply sort_perm|]. split; [apply sort_sorted|].
  assert (L : length (sortR l) = length l) by (symmetry; apply Permutation_length; apply sort_perm).
  assert (P : 0 < length l) by (destruct l; [contradiction|cbn; lia]).
  unfold medianR. destruct (Nat.even (length l)) eqn:E.
  - right. apply Nat.even_spec in E as (k & E). set (s := sortR l) in *. clearbody s. rewrite <- L in E |- *.
    assert (D : length s / 2 = k) by (rewrite E; rewrite Nat.mul_comm; apply Nat.div_mul; lia). rewrite D.
    destruct (split_nth s (k - 1)) as (a & b & Es & La & Lb); [lia|].
    destruct b as [|y b]; [cbn in Lb; lia|]. exists a, (nth (k - 1) s 0%R), y, b.
    assert (Y : nth k s 0%R = y).
    { rewrite Es. rewrite app_nth2 by lia. rewrite La. replace (k - (k - 1)) with 1 by lia. reflexivity. }
    rewrite Y. split; [exact Es|]. split; [cbn in Lb; lia|reflexivity].
  - left. assert (O : Nat.odd (length l) = true) by (rewrite <- Nat.negb_even, E; reflexivity).
    apply Nat.odd_spec in O as (k & O). set (s := sortR l) in *. clearbody s. rewrite <- L in O |- *.
    assert (D : length s / 2 = k).
    { rewrite O. rewrite Nat.add_1_r. rewrite Nat.mul_comm. symmetry. apply (Nat.div_unique _ 2 k 1); lia. }
    rewrite D. destruct (split_nth s k) as (a & b & Es & La & Lb); [lia|]. exists a, b. split; [exact Es|]. lia.
Qed.
Lemma total_nonneg l : (forall x, In x l -> 0 <= x)%R -> (0 <= total l)%R.
Proof.
  induction l as [|x l IH]; intros H; cbn; [lra|]. pose proof (H x (or_introl eq_refl)).
  assert (0 <= total l)%R by (apply IH; intros y I; apply H; right; exact I). unfold total in *. lra.
Qed.
Lemma dev_spec l : is_deviation (dev0 l) l.
Proof.
  unfold is_deviation, dev0. destruct (Nat.ltb_spec 1 (length l)) as [H|H].
  - split; [apply sqrt_pos|]. split; [lia|]. intros _. exists (meanR l). split; [apply mean_spec; destruct l; [cbn in H; lia|discriminate]|].
    unfold stdevR. assert (P : (0 < INR (length l) - 1)%R).
    { change 1%R with (INR 1). rewrite <- minus_INR by lia. apply lt_0_INR. lia. }
    change (sumR (map (fun x => Rsqr (x - meanR l)) l)) with (total (map (fun x => Rsqr (x - meanR l)) l)).
    assert (T : (0 <= total (map (fun x => Rsqr (x - meanR l)) l))%R).
    { apply total_nonneg. intros x I. apply in_map_iff in I as (y & <- & _). apply Rle_0_sqr. }
    rewrite Rsqr_sqrt by (apply Rmult_le_pos; [exact T|left; apply Rinv_0_lt_compat; exact P]). field. lra.
  - split; [apply Rle_refl|]. split; [reflexivity|lia].
Qed.

(** * the records of a profiler *)
Lemma metrics_times tm : forall l n last, map m_time (metrics_of tm n last l) = map q_time l /\ map m_jit (metrics_of tm n last l) = map q_jit l /\
  map m_mem (metrics_of tm n last l) = (if tm then map q_mem l else map (fun _ => 0%R) l).
Proof.
  induction l as [|q l IH]; intros n la; [destruct tm; auto|]. cbn [metrics_of map m_time m_jit m_mem].
  destruct (IH (n + 1) (q_mem q)) as (A & B & C). rewrite A, B, C. destruct tm; auto.
Qed.
Lemma map_lastn {A B} (f : A -> B) n l : map f (lastn n l) = lastn n (map f l).
Proof. unfold lastn. rewrite map_length, skipn_map. reflexivity. Qed.
(** the deltas of the last [k] metrics *)
Lemma metrics_skip tm : forall k l n la, k <= length l ->
  skipn k (metrics_of tm n la l) = metrics_of tm (n + k) (last (map q_mem (firstn k l)) la) (skipn k l).
Proof.
  induction k as [|k IH]; intros l n la K; [cbn; rewrite Nat.add_0_r; reflexivity|].
  destruct l as [|q l]; [cbn in K; lia|]. cbn [metrics_of skipn firstn map]. rewrite IH by (cbn in K; lia).
  replace (n + 1 + k) with (n + S k) by lia. f_equal.
  destruct (map q_mem (firstn k l)) as [|x r] eqn:E; [reflexivity|]. cbn [last]. clear. revert q x. induction r as [|y r IHr]; intros q x; [reflexivity|]. exact (IHr q y).
Qed.
Lemma deltas_rises : forall l n la, sumR (filter (fun x => Rlt_b 0 x) (map m_delta (metrics_of true n la l))) = rises la (map q_mem l).
Proof.
  induction l as [|q l IH]; intros n la; [reflexivity|]. cbn [metrics_of map m_delta filter rises]. specialize (IH (n + 1) (q_mem q)).
  destruct (Rlt_b_spec 0 (q_mem q - la)) as [H|H].
  - cbn [sumR fold_right]. fold (sumR (filter (fun x => Rlt_b 0 x) (map m_delta (metrics_of true (n + 1) (q_mem q) l)))). rewrite IH.
    rewrite Rmax_right by lra. reflexivity.
  - rewrite IH. rewrite (Rmax_left 0 (q_mem q - la)) by lra. ring.
Qed.
Lemma deltas_none : forall l n la, sumR (filter (fun x => Rlt_b 0 x) (map m_delta (metrics_of false n la l))) = 0%R.
Proof.
  induction l as [|q l IH]; intros n la; [reflexivity|]. cbn [metrics_of map m_delta filter].
  destruct (Rlt_b_spec 0 0) as [H|H]; [lra|]. apply IH.
Qed.
Lemma metrics_len tm : forall l n la, length (metrics_of tm n la l) = length l.
Proof. induction l as [|q l IH]; intros n la; [reflexivity|]. cbn. rewrite IH. reflexivity. Qed.
Lemma lastn_metrics tm mx l : exists n, lastn mx (metrics_of tm 1 0 l) =
  metrics_of tm n (last (map q_mem (firstn (length l - mx) l)) 0%R) (lastn mx l).
Proof. unfold lastn. rewrite metrics_len. eexists. apply metrics_skip. lia. Qed.

Section Profiled.
  Variables (tm : bool) (bott leak : R) (mx : nat) (l : list rec_call) (duration : R).
  Let p := fold_left record_q l (new_profiler tm bott leak mx).
  Let r := finalize p.

  Lemma lastn_nil {A} n (k : list A) : lastn n k = [] <-> n = 0 \/ k = [].
  Proof.
    unfold lastn. split.
    - intros H. apply (f_equal (@length A)) in H. rewrite skipn_length in H. destruct n; [auto|]. destruct k; [auto|]. exfalso. cbn [length] in H. clear -H. lia.
    - intros [->| ->]; [rewrite Nat.sub_0_r; apply skipn_all|]. destruct (_ - _); reflexivity.
  Qed.
  Lemma summary_defined : get_summary duration (result_bottlenecks r p) r = None <-> mx = 0 \/ l = [].
  Proof.
    destruct (record_exact tm bott leak mx l) as (M & _). fold p in M. unfold get_summary.
    assert (E : r_metrics r = lastn mx (metrics_of tm 1 0 l)) by exact M.
    rewrite E. assert (X : lastn mx (metrics_of tm 1 0 l) = [] <-> mx = 0 \/ l = []).
    { rewrite lastn_nil. split; intros [H|H]; auto.
      - right. apply length_zero_iff_nil. rewrite <- (metrics_len tm l 1 0), H. reflexivity.
      - right. subst l. reflexivity. }
    rewrite <- X. destruct (lastn mx (metrics_of tm 1 0 l)); split; congruence.
  Qed.
  Lemma summary_spec s : get_summary duration (result_bottlenecks r p) r = Some s ->
    let kept := lastn mx l in
    let times := map q_time kept in
    let mems := map q_mem kept in
    (ps_duration s = duration /\ ps_steps s = length l /\ (0 < duration -> ps_throughput s * duration = INR (length l))%R) /\
    (ps_total_time s = total times /\ is_average (ps_mean_ms s / 1000) times /\ is_median (ps_median_ms s / 1000) times /\
     is_max (ps_max_ms s / 1000) times /\ is_min (ps_min_ms s / 1000) times /\ is_deviation (ps_dev_ms s / 1000) times) /\
    (tm = true -> is_max (ps_peak s) mems /\ is_average (ps_avg_mem s) mems /\
       ps_allocated s = rises (last (map q_mem (firstn (length l - mx) l)) 0%R) mems /\
       ((0 < ps_peak s)%R -> exists m, is_min m mems /\ (ps_efficiency s * ps_peak s = m)%R)) /\
    (tm = false -> ps_peak s = 0%R /\ ps_avg_mem s = 0%R /\ ps_allocated s = 0%R /\ ps_efficiency s = 1%R) /\
    (ps_bottlenecks s = length (filter (fun q => Rlt_b bott (q_time q * 1000)) l) /\ ps_jit s = length (filter q_jit kept) /\
     ps_advice s = length (recommendations p)).
  Proof.
    destruct (record_exact tm bott leak mx l) as (M & ST & B & _). fold p in M, ST, B. unfold get_summary.
    assert (E : r_metrics r = lastn mx (metrics_of tm 1 0 l)) by exact M.
    assert (Es : r_steps r = length l) by exact ST.
    assert (Ead : r_advice r = recommendations p) by reflexivity.
    assert (Eb : result_bottlenecks r p = filter (fun m => Rlt_b bott (m_time m * 1000)) (metrics_of tm 1 0 l)).
    { rewrite <- B. unfold result_bottlenecks, r, finalize. cbn [r_shared]. destruct (p_bottlenecks p); reflexivity. }
    rewrite Es, E, Eb, Ead. clear E Es Eb Ead M B ST. 
    set (adv := recommendations p). clearbody adv.
    destruct (lastn_metrics tm mx l) as (n & EL). rewrite EL. set (la := last (map q_mem (firstn (length l - mx) l)) 0%R).
    set (kept := lastn mx l). destruct (metrics_times tm kept n la) as (ET & EJ & EM).
    assert (BL : length (filter (fun m => Rlt_b bott (m_time m * 1000)) (metrics_of tm 1 0 l)) = length (filter (fun q => Rlt_b bott (q_time q * 1000)) l)).
    { destruct (metrics_times tm l 1 0%R) as (TT & _ & _). revert TT. generalize (metrics_of tm 1 0 l) as ms. clear. intros ms. revert l.
      induction ms as [|m ms IH]; intros [|q l] TT; try discriminate TT; [reflexivity|]. cbn [map] in TT.
      pose proof (f_equal (hd 0%R) TT) as T1. pose proof (f_equal (@tl R) TT) as T2. cbn in T1, T2. cbn [filter]. rewrite T1.
      destruct (Rlt_b bott (q_time q * 1000)); cbn [length]; rewrite (IH l T2); reflexivity. }
    assert (JL : length (filter m_jit (metrics_of tm n la kept)) = length (filter q_jit kept)).
    { revert EJ. generalize (metrics_of tm n la kept) as ms. generalize kept as k. clear. intros k ms. revert k.
      induction ms as [|m ms IH]; intros [|q l] TT; try discriminate TT; [reflexivity|]. cbn [map] in TT.
      pose proof (f_equal (hd false) TT) as T1. pose proof (f_equal (@tl bool) TT) as T2. cbn in T1, T2. cbn [filter]. rewrite T1.
      destruct (q_jit q); cbn [length]; rewrite (IH l T2); reflexivity. }
    assert (NE : metrics_of tm n la kept <> [] -> kept <> []) by (intros H ->; apply H; reflexivity).
    destruct (metrics_of tm n la kept) as [|m0 ms0] eqn:EQ; [discriminate|]. rewrite <- EQ in *.
    assert (KN : kept <> []) by (apply NE; rewrite EQ; discriminate). clear NE.
    rewrite ET, EM, BL, JL.
    assert (AL : tm = true -> sumR (filter (fun x => Rlt_b 0 x) (map m_delta (metrics_of tm n la kept))) = rises la (map q_mem kept)).
    { intros ->. apply deltas_rises. }
    assert (AN : tm = false -> sumR (filter (fun x => Rlt_b 0 x) (map m_delta (metrics_of tm n la kept))) = 0%R).
    { intros ->. apply deltas_none. }
    set (al := sumR (filter (fun x => Rlt_b 0 x) (map m_delta (metrics_of tm n la kept)))) in *. clearbody al.
    intros H. apply (f_equal (fun o => match o with Some x => x | None => s end)) in H. subst s.
    cbn [ps_duration ps_steps ps_throughput ps_total_time ps_mean_ms ps_median_ms ps_max_ms ps_min_ms ps_dev_ms ps_peak ps_avg_mem ps_allocated ps_efficiency ps_bottlenecks ps_jit ps_advice].
    assert (TN : map q_time kept <> []) by (destruct kept; [contradiction|discriminate]).
    assert (MN : map q_mem kept <> []) by (destruct kept; [contradiction|discriminate]).
    assert (K : forall x, (x * 1000 / 1000)%R = x) by (intros; field). rewrite !K.
    split; [|split; [|split; [|split]]].
    - split; [reflexivity|]. split; [reflexivity|]. intros D. rewrite Rlt_b_true by exact D. field. lra.
    - split; [reflexivity|]. split; [apply mean_spec; exact TN|]. split; [apply median_spec; exact TN|].
      split; [apply max_spec; exact TN|]. split; [apply min_spec; exact TN|apply dev_spec].
    - intros T. rewrite (AL T). destruct tm; [|discriminate T]. split; [apply max_spec; exact MN|]. split; [apply mean_spec; exact MN|].
      split; [reflexivity|]. intros P. rewrite Rlt_b_true by exact P. exists (minR (map q_mem kept)). split; [apply min_spec; exact MN|]. field. lra.
    - intros T. rewrite (AN T). destruct tm; [discriminate T|].
      assert (Z : forall f : R -> R -> R, (f 0 0 = 0)%R -> forall k, fold_left f (map (fun _ : rec_call => 0%R) k) 0%R = 0%R).
      { intros f F k. induction k as [|x k IH]; [reflexivity|]. cbn. rewrite F. exact IH. }
      assert (MZ : maxR (map (fun _ => 0%R) kept) = 0%R).
      { destruct kept as [|k0 kr]; [reflexivity|]. cbn [map maxR]. apply Z. apply Rmax_left. lra. }
      rewrite MZ. split; [reflexivity|]. split; [|split; [reflexivity|rewrite Rlt_b_false by lra; reflexivity]].
      unfold meanR. assert (SZ : sumR (map (fun _ => 0%R) kept) = 0%R).
      { clear. induction kept as [|x k IH]; [reflexivity|]. cbn. fold (sumR (map (fun _ : rec_call => 0%R) k)). rewrite IH. lra. }
      rewrite SZ. unfold Rdiv. lra.
    - auto.
  Qed.
End Profiled.

Lemma rises_ge l : forall prev x, In x l -> (x <= prev + rises prev l)%R.
Proof.
  induction l as [|y l IH]; intros prev x I; [destruct I|]. cbn [rises].
  pose proof (Rmax_l 0 (y - prev)). pose proof (Rmax_r 0 (y - prev)).
  assert (P : forall l q, (0 <= rises q l)%R).
  { clear. induction l as [|z l IH]; intros q; cbn [rises]; [lra|]. pose proof (Rmax_l 0 (z - q)). pose proof (IH z). lra. }
  pose proof (P l y). destruct I as [->|I]; [lra|]. specialize (IH y x I). lra.
Qed.
Lemma rises_const m l : (forall x, In x l -> x = m) -> rises m l = 0%R.
Proof.
  induction l as [|y l IH]; intros H; [reflexivity|]. cbn [rises]. rewrite (H y (or_introl eq_refl)).
  rewrite IH by (intros x I; apply H; right; exact I). rewrite (Rmax_left 0 (m - m)) by lra. ring.
Qed.
