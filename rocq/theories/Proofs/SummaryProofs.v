(** Proofs about the statistics of the summaries (C103). *)
From Coq Require Import String List Bool Arith Lia ZArith Reals Lra Permutation Sorted.
From Verif Require Import Model.Float Model.FlaxOptim Spec.SummarySpec Proofs.FloatFacts Proofs.DebugProofs3 Proofs.DebugProofs4.
From Verif Require Import Model.Debug Model.Summary.
Import ListNotations.
Local Open Scope list_scope.

Lemma sumR_total l : sumR l = total l.
Proof. induction l as [|x l IH]; cbn; [reflexivity|]. unfold sumR in IH. rewrite IH. reflexivity. Qed.

Lemma INR_len_pos {A} (l : list A) : l <> [] -> (0 < INR (length l))%R.
Proof. intros N. apply lt_0_INR. destruct l; [congruence|cbn; lia]. Qed.

Lemma mean_is l : l <> [] -> is_mean (meanR l) l.
Proof.
  intros N. unfold is_mean, meanR. rewrite sumR_total. pose proof (INR_len_pos l N). field. lra.
Qed.

Lemma fold_max_is l : forall x, is_max (fold_left Rmax l x) (x :: l).
Proof.
  induction l as [|y l IH]; intros x; cbn [fold_left].
  - split; [now left|]. intros z [<-|[]]. lra.
  - destruct (IH (Rmax x y)) as [I U]. split.
    + destruct I as [I|I].
      * assert (C : Rmax x y = x \/ Rmax x y = y) by (unfold Rmax; destruct (Rle_dec x y); auto).
        rewrite <- I. destruct C as [->| ->]; [now left|right; now left].
      * right. now right.
    + intros z [<-|[<-|HI]].
      * eapply Rle_trans; [apply (Rmax_l x y)|]. apply U. now left.
      * eapply Rle_trans; [apply (Rmax_r x y)|]. apply U. now left.
      * apply U. now right.
Qed.
Lemma max_is l : l <> [] -> is_max (maxR l) l.
Proof. destruct l as [|x l]; [congruence|]. intros _. apply fold_max_is. Qed.

Lemma fold_min_is l : forall x, is_min (fold_left Rmin l x) (x :: l).
Proof.
  induction l as [|y l IH]; intros x; cbn [fold_left].
  - split; [now left|]. intros z [<-|[]]. lra.
  - destruct (IH (Rmin x y)) as [I U]. split.
    + destruct I as [I|I].
      * assert (C : Rmin x y = x \/ Rmin x y = y) by (unfold Rmin; destruct (Rle_dec x y); auto).
        rewrite <- I. destruct C as [->| ->]; [now left|right; now left].
      * right. now right.
    + intros z [<-|[<-|HI]].
      * eapply Rle_trans; [|apply (Rmin_l x y)]. apply U. now left.
      * eapply Rle_trans; [|apply (Rmin_r x y)]. apply U. now left.
      * apply U. now right.
Qed.
Lemma min_is l : l <> [] -> is_min (minR l) l.
Proof. destruct l as [|x l]; [congruence|]. intros _. apply fold_min_is. Qed.

Lemma insert_perm x l : Permutation (insertR x l) (x :: l).
Proof.
  induction l as [|y l IH]; cbn [insertR]; [reflexivity|]. destruct (Rle_b x y); [reflexivity|].
  rewrite IH. constructor.
Qed.
Lemma sort_perm l : Permutation (sortR l) l.
Proof. induction l as [|x l IH]; cbn; [reflexivity|]. rewrite insert_perm. constructor. exact IH. Qed.

Lemma insert_sorted x l : StronglySorted Rle l -> StronglySorted Rle (insertR x l).
Proof.
  induction l as [|y l IH]; intros HS; cbn [insertR]; [repeat constructor|].
  destruct (Rle_b_spec x y) as [B|NB].
  - constructor; [exact HS|]. constructor; [exact B|].
    apply StronglySorted_inv in HS. destruct HS as [_ F]. eapply Forall_impl; [|exact F]. intros z Hz. cbv beta in Hz. lra.
  - apply StronglySorted_inv in HS. destruct HS as [HS F]. constructor; [apply IH, HS|].
    rewrite Forall_forall in *. intros z HI. apply (Permutation_in _ (insert_perm x l)) in HI.
    destruct HI as [<-|HI]; [lra|apply F, HI].
Qed.
Lemma sort_sorted l : StronglySorted Rle (sortR l).
Proof. induction l as [|x l IH]; cbn; [constructor|]. apply insert_sorted, IH. Qed.

Lemma split_mid {A} (d : A) (l : list A) n : n < length l -> exists a b, l = a ++ nth n l d :: b /\ length a = n.
Proof.
  intros H. destruct (nth_split l d H) as (a & b & E & L). exists a, b. split; assumption.
Qed.

Lemma median_is l : l <> [] -> is_median (medianR l) l.
Proof.
  intros N. assert (HL : length (sortR l) = length l) by (apply Permutation_length, sort_perm).
  assert (HN : 0 < length l) by (destruct l; [congruence|cbn; lia]).
  exists (sortR l). split; [apply sort_perm|]. split; [apply sort_sorted|].
  unfold medianR. cbv zeta. destruct (Nat.even (length l)) eqn:EV.
  - right. apply Nat.even_spec in EV. destruct EV as [k EK]. rewrite EK.
    replace (2 * k / 2) with k by (rewrite Nat.mul_comm, Nat.div_mul; lia).
    destruct (split_mid 0%R (sortR l) (k - 1)) as (a & b & E & L); [lia|].
    destruct b as [|y b].
    { exfalso. apply (f_equal (@length R)) in E. rewrite app_length in E. cbn in E. lia. }
    exists a, (nth (k - 1) (sortR l) 0%R), y, b. split; [exact E|]. split.
    + apply (f_equal (@length R)) in E. rewrite app_length in E. cbn in E. lia.
    + assert (Y : nth k (sortR l) 0%R = y).
      { rewrite E. rewrite app_nth2 by lia. replace (k - length a) with 1 by lia. reflexivity. }
      rewrite Y. reflexivity.
  - left. assert (OD : Nat.odd (length l) = true) by (unfold Nat.odd; rewrite EV; reflexivity).
    apply Nat.odd_spec in OD. destruct OD as [k EK].
    replace (length l / 2) with k by (rewrite EK; apply (Nat.div_unique (2 * k + 1) 2 k 1); lia).
    destruct (split_mid 0%R (sortR l) k) as (a & b & E & L); [lia|].
    exists a, b. split; [exact E|]. apply (f_equal (@length R)) in E. rewrite app_length in E. cbn in E. lia.
Qed.

Lemma total_nonneg l : (forall x, In x l -> 0 <= x)%R -> (0 <= total l)%R.
Proof. induction l as [|x l IH]; intros H; cbn; [lra|]. pose proof (H x (or_introl eq_refl)). pose proof (IH (fun y h => H y (or_intror h))). lra. Qed.

Lemma stdev_is l : 2 <= length l -> is_stdev (stdevR l) l.
Proof.
  intros H2. assert (N : l <> []) by (destruct l; [cbn in H2; lia|congruence]).
  assert (HL : (0 < INR (length l) - 1)%R).
  { apply le_INR in H2. cbn in H2. lra. }
  unfold stdevR. rewrite sumR_total.
  set (q := total (map (fun x => Rsqr (x - meanR l)) l)).
  assert (Q : (0 <= q)%R).
  { apply total_nonneg. intros x HI. apply in_map_iff in HI. destruct HI as (y & <- & _). apply Rle_0_sqr. }
  split; [apply sqrt_pos|]. exists (meanR l). split; [apply mean_is, N|].
  rewrite sqrt_sqrt.
  - replace (q / (INR (length l) - 1) * (INR (length l) - 1))%R with q by (field; lra). reflexivity.
  - unfold Rdiv. apply Rmult_le_pos; [exact Q|]. left. apply Rinv_0_lt_compat, HL.
Qed.

(** C103_statistics *)
Lemma statistics_exact l : l <> [] ->
  is_max (maxR l) l /\ is_min (minR l) l /\ is_mean (meanR l) l /\ is_median (medianR l) l /\
  (2 <= length l -> is_stdev (stdevR l) l).
Proof. intros N. split; [apply max_is, N|]. split; [apply min_is, N|]. split; [apply mean_is, N|]. split; [apply median_is, N|apply stdev_is]. Qed.

(** C103_determined: each notion is met by one number *)
Lemma max_unique l a b : is_max a l -> is_max b l -> a = b.
Proof. intros [I U] [I' U']. apply Rle_antisym; [apply U', I|apply U, I']. Qed.
Lemma min_unique l a b : is_min a l -> is_min b l -> a = b.
Proof. intros [I U] [I' U']. apply Rle_antisym; [apply U, I'|apply U', I]. Qed.
Lemma mean_unique l a b : l <> [] -> is_mean a l -> is_mean b l -> a = b.
Proof.
  unfold is_mean. intros N E1 E2. pose proof (INR_len_pos l N). apply Rmult_eq_reg_r with (INR (length l)); lra.
Qed.
Lemma sorted_unique : forall s t : list R, Permutation s t -> StronglySorted Rle s -> StronglySorted Rle t -> s = t.
Proof.
  induction s as [|x s IH]; intros t HP HS HT.
  - apply Permutation_nil in HP. now subst.
  - destruct t as [|y t]; [apply Permutation_sym, Permutation_nil in HP; discriminate|].
    apply StronglySorted_inv in HS, HT. destruct HS as [HS FS], HT as [HT FT]. rewrite Forall_forall in FS, FT.
    assert (x = y).
    { apply Rle_antisym.
      - pose proof (Permutation_in y (Permutation_sym HP) (or_introl eq_refl)) as HI. destruct HI as [->|HI]; [lra|apply FS, HI].
      - pose proof (Permutation_in x HP (or_introl eq_refl)) as HI. destruct HI as [->|HI]; [lra|apply FT, HI]. }
    subst y. f_equal. apply IH; [|assumption|assumption]. eapply Permutation_cons_inv, HP.
Qed.
Lemma app_len_inj {A} (a b c d : list A) : a ++ b = c ++ d -> length a = length c -> a = c /\ b = d.
Proof.
  revert c. induction a as [|x a IH]; intros [|y c]; cbn; intros E L; try lia; [now split|].
  injection E as E1 E2. destruct (IH c E2) as [-> ->]; [lia|]. subst. now split.
Qed.
Lemma median_unique l a b : is_median a l -> is_median b l -> a = b.
Proof.
  intros (s & P & HS & C) (t & P' & HT & C').
  assert (s = t) by (apply sorted_unique; [rewrite P, P'; reflexivity|assumption|assumption]). subst t.
  destruct C as [(p & q & E & L)|(p & x & y & q & E & L & ->)]; destruct C' as [(p' & q' & E' & L')|(p' & x' & y' & q' & E' & L' & ->)];
    rewrite E in E'; pose proof (f_equal (@length R) E') as EL; rewrite !app_length in EL; cbn [length] in EL.
  - destruct (app_len_inj _ _ _ _ E') as [_ X]; [lia|]. congruence.
  - lia.
  - lia.
  - destruct (app_len_inj _ _ _ _ E') as [_ X]; [lia|]. congruence.
Qed.
Lemma stdev_unique l a b : 2 <= length l -> is_stdev a l -> is_stdev b l -> a = b.
Proof.
  intros H2 (P & m & M & E) (P' & m' & M' & E').
  assert (N : l <> []) by (destruct l; [cbn in H2; lia|congruence]).
  rewrite (mean_unique l m' m N M' M) in E'.
  assert (HL : (0 < INR (length l) - 1)%R) by (apply le_INR in H2; cbn in H2; lra).
  assert (Q : (a * a = b * b)%R) by (apply Rmult_eq_reg_r with (INR (length l) - 1)%R; lra).
  apply Rsqr_inj; assumption.
Qed.
Lemma statistics_determined l a b :
  (is_max a l -> is_max b l -> a = b) /\ (is_min a l -> is_min b l -> a = b) /\
  (l <> [] -> is_mean a l -> is_mean b l -> a = b) /\ (is_median a l -> is_median b l -> a = b) /\
  (2 <= length l -> is_stdev a l -> is_stdev b l -> a = b).
Proof.
  split; [apply max_unique|]. split; [apply min_unique|]. split; [apply mean_unique|]. split; [apply median_unique|apply stdev_unique].
Qed.

(** C103_between *)
Lemma total_between lo hi l : (forall x, In x l -> lo <= x <= hi)%R -> (lo * INR (length l) <= total l <= hi * INR (length l))%R.
Proof.
  induction l as [|x l IH]; intros H; [cbn; lra|]. change (length (x :: l)) with (S (length l)). rewrite S_INR. cbn [total].
  pose proof (H x (or_introl eq_refl)). destruct (IH (fun y h => H y (or_intror h))) as [A B]. lra.
Qed.
Lemma between l lo hi m d : l <> [] -> is_min lo l -> is_max hi l -> is_mean m l -> is_median d l ->
  (lo <= m <= hi)%R /\ (lo <= d <= hi)%R.
Proof.
  intros N [_ Ulo] [_ Uhi] HM (s & P & HS & C).
  assert (B : forall x, In x l -> (lo <= x <= hi)%R) by (intros x HI; split; [apply Ulo, HI|apply Uhi, HI]).
  split.
  - pose proof (INR_len_pos l N) as HL. destruct (total_between lo hi l B) as [T1 T2]. unfold is_mean in HM. rewrite <- HM in T1, T2.
    split; apply Rmult_le_reg_r with (INR (length l)); assumption.
  - destruct C as [(a & b & E & _)|(a & x & y & b & E & _ & ->)].
    + apply B. apply (Permutation_in d P). rewrite E. apply in_or_app. right. now left.
    + assert (In x l) by (apply (Permutation_in x P); rewrite E; apply in_or_app; right; now left).
      assert (In y l) by (apply (Permutation_in y P); rewrite E; apply in_or_app; right; right; now left).
      pose proof (B x). pose proof (B y). intuition lra.
Qed.
