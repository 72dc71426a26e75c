(** C141: masked statistics of finite arrays. *)
From Coq Require Import List Arith Reals Lra Lia Bool.
From Verif Require Import Model.Float Model.Masks Spec.MaskSpec Spec.MaskAlgebraSpec Proofs.MaskProofs Proofs.CompositionProofs Proofs.CompositionProofs2 Proofs.SplitProofs2.
Import ListNotations.
Local Open Scope R_scope.

Lemma Rlt_b_true a b : a < b -> Rlt_b a b = true.
Proof. unfold Rlt_b. destruct (Rlt_dec a b); [auto|contradiction]. Qed.
Lemma Rlt_b_false a b : b <= a -> Rlt_b a b = false.
Proof. unfold Rlt_b. destruct (Rlt_dec a b); [lra|auto]. Qed.

Lemma selected_map {A B} (f : A -> B) ms : forall l, selected ms (map f l) = map f (selected ms l).
Proof. induction ms as [|[] ms IH]; intros [|x l]; cbn; try reflexivity; rewrite IH; reflexivity. Qed.
Lemma contribution_fin fm l : map (contribution fm) (map Fin l) = l.
Proof. rewrite map_map. apply map_id. Qed.
Lemma shaped_arr {A} s (l : list A) : length l = size s -> well_shaped (Arr s l).
Proof. auto. Qed.
Lemma finite_shaped s l : length l = size s -> well_shaped (finite_array s l).
Proof. intros H. unfold well_shaped, finite_array. cbn. rewrite map_length. exact H. Qed.

Lemma total_map_affine c d l : total (map (fun r => c * r + d) l) = c * total l + INR (length l) * d.
Proof.
  unfold total. induction l as [|x l IH]; [cbn; ring|]. cbn [map fold_right length]. rewrite IH, S_INR. ring.
Qed.
Lemma INR_pos {A} (l : list A) : l <> [] -> 0 < INR (length l).
Proof. intros H. apply lt_0_INR. destruct l; [congruence|cbn; lia]. Qed.
Lemma mean_affine c d l : l <> [] -> mean_of (map (fun r => c * r + d) l) = c * mean_of l + d.
Proof.
  intros H. unfold mean_of. rewrite total_map_affine, map_length. pose proof (INR_pos l H). field. lra.
Qed.
Lemma mean_scale k l : mean_of (map (fun r => k * r) l) = k * mean_of l.
Proof.
  unfold mean_of. rewrite map_length. replace (total (map (fun r => k * r) l)) with (k * total l); [unfold Rdiv; ring|].
  unfold total. induction l as [|x l IH]; [cbn; ring|]. cbn [map fold_right]. rewrite <- IH. ring.
Qed.
Lemma var_affine c d l : l <> [] -> var_of (map (fun r => c * r + d) l) = c ^ 2 * var_of l.
Proof.
  intros H. unfold var_of. rewrite (mean_affine c d l H), map_map. rewrite <- (mean_scale (c ^ 2)), map_map. f_equal.
  apply map_ext. intros r. ring.
Qed.
Lemma second_scale c l : second_moment (map (fun r => c * r) l) = c ^ 2 * second_moment l.
Proof. unfold second_moment. rewrite map_map, <- (mean_scale (c ^ 2)), map_map. f_equal. apply map_ext. intros r. ring. Qed.
Lemma mean_range a b l : l <> [] -> Forall (fun r => a <= r <= b) l -> a <= mean_of l <= b.
Proof.
  intros Hl H. pose proof (INR_pos l Hl) as Hn. unfold mean_of.
  assert (K : a * INR (length l) <= total l <= b * INR (length l)).
  { clear Hl Hn. unfold total. induction H as [|x l Hx H IH]; [cbn; lra|]. cbn [fold_right length]. rewrite S_INR. lra. }
  split; apply (Rmult_le_reg_r (INR (length l))); try assumption; unfold Rdiv; rewrite Rmult_assoc, Rinv_l by lra; lra.
Qed.
Lemma total_zero l : Forall (fun x => 0 <= x) l -> total l = 0 -> Forall (fun x => x = 0) l.
Proof.
  unfold total. induction 1 as [|x l Hx H IH]; [constructor|]. cbn [fold_right]. intros E.
  pose proof (CompositionProofs.total_nonneg l H) as Hp. unfold total in Hp. constructor; [lra|]. apply IH. lra.
Qed.
Lemma mean_zero l : Forall (fun x => 0 <= x) l -> l <> [] -> mean_of l = 0 -> Forall (fun x => x = 0) l.
Proof.
  intros H Hl E. apply total_zero; [exact H|]. pose proof (INR_pos l Hl). unfold mean_of in E.
  apply (f_equal (fun z => z * INR (length l))) in E. unfold Rdiv in E. rewrite Rmult_assoc, Rinv_l in E by lra. lra.
Qed.
Lemma var_zero l : l <> [] -> (var_of l = 0 <-> all_equal l).
Proof.
  intros Hl. split.
  - intros E. assert (F : Forall (fun x => x = 0) (map (fun v => (v - mean_of l) ^ 2) l)).
    { apply mean_zero; [|destruct l; [congruence|discriminate]|exact E]. apply Forall_map, Forall_forall. intros; apply pow2_ge_0. }
    rewrite Forall_map, Forall_forall in F.
    assert (G : forall a, In a l -> a = mean_of l).
    { intros a Ha. specialize (F a Ha). cbn in F. nra. }
    intros a b Ha Hb. rewrite (G a Ha), (G b Hb). reflexivity.
  - intros H. destruct l as [|a l]; [congruence|]. assert (F : Forall (fun x => x = a) (a :: l)).
    { apply Forall_forall. intros x Hx. apply H; [exact Hx|left; reflexivity]. }
    unfold var_of. rewrite (mean_const (a :: l) a Hl F). 
    apply mean_const; [discriminate|]. apply Forall_map. eapply Forall_impl; [|exact F]. intros x ->. cbn. ring.
Qed.

Section Mask.
  Variables (fm : R) (s : list nat) (ms : list bool).
  Hypothesis Hm : length ms = size s.
  Let mask := Arr s ms.

  Lemma mean_fin l : length l = size s -> selected ms l <> [] ->
    mask_mean fm None mask (finite_array s l) = Some (Arr [] [Fin (mean_of (selected ms l))]).
  Proof.
    intros Hl Hne. rewrite (mask_mean_none fm mask (finite_array s l)); [|apply shaped_arr; exact Hm|apply finite_shaped; exact Hl|reflexivity].
    cbn [data mask finite_array]. rewrite selected_map, contribution_fin. unfold mean_or_nan.
    destruct (selected ms l); [congruence|reflexivity].
  Qed.
  Lemma std_fin eps (centered : bool) l : 0 <= eps -> length l = size s -> selected ms l <> [] ->
    mask_std fm eps None centered mask (finite_array s l) =
    Some (Arr [] [Fin (regular_std eps (if centered then second_moment (selected ms l) else var_of (selected ms l)))]).
  Proof.
    intros He Hl Hne. rewrite (mask_std_none fm eps centered mask (finite_array s l) He); [|apply shaped_arr; exact Hm|apply finite_shaped; exact Hl|reflexivity].
    cbv zeta. cbn [data mask finite_array]. rewrite selected_map, contribution_fin. unfold std_of, regular_std.
    destruct (selected ms l); [congruence|]. destruct (Rlt_b 0 _); reflexivity.
  Qed.

  Lemma mean_statistics l : length l = size s -> selected ms l <> [] ->
    exists m, mask_mean fm None mask (finite_array s l) = Some (Arr [] [Fin m]) /\
      (forall a b, Forall (fun r => a <= r <= b) (selected ms l) -> a <= m <= b) /\
      (forall c d, mask_mean fm None mask (finite_array s (map (fun r => c * r + d) l)) = Some (Arr [] [Fin (c * m + d)])).
  Proof.
    intros Hl Hne. eexists. split; [apply mean_fin; assumption|]. split.
    - intros a b H. apply mean_range; assumption.
    - intros c d. rewrite mean_fin.
      + rewrite selected_map, mean_affine by exact Hne. reflexivity.
      + rewrite map_length. exact Hl.
      + rewrite selected_map. destruct (selected ms l); [congruence|discriminate].
  Qed.
  Lemma std_statistics l : length l = size s -> selected ms l <> [] ->
    exists v, 0 <= v /\ (v = 0 <-> all_equal (selected ms l)) /\
      (forall eps c d, 0 <= eps ->
         mask_std fm eps None false mask (finite_array s (map (fun r => c * r + d) l)) = Some (Arr [] [Fin (regular_std eps (c ^ 2 * v))])) /\
      (forall eps, 0 <= eps -> mask_std fm eps None false mask (finite_array s l) = Some (Arr [] [Fin (regular_std eps v)])).
  Proof.
    intros Hl Hne. exists (var_of (selected ms l)). split; [apply var_nonneg|]. split; [apply var_zero; exact Hne|]. split.
    - intros eps c d He. rewrite (std_fin eps false) by
        (first [exact He | rewrite map_length; exact Hl | rewrite selected_map; destruct (selected ms l); [congruence|discriminate]]).
      rewrite selected_map, var_affine by exact Hne. reflexivity.
    - intros eps He. apply (std_fin eps false); assumption.
  Qed.

  Lemma normalize_fin eps (centered : bool) l : 0 <= eps -> length l = size s -> selected ms l <> [] ->
    let v := if centered then second_moment (selected ms l) else var_of (selected ms l) in
    mask_normalize fm eps None centered mask (finite_array s l) =
    Some (finite_array s (map (fun r => if Rlt_b 0 v then / sqrt (eps + v) * r else 0) l)).
  Proof.
    intros He Hl Hne v.
    destruct (mask_normalize_none fm eps centered mask (finite_array s l) He) as (y & Ey & Sy & Ly & Hy);
      [apply shaped_arr; exact Hm|apply finite_shaped; exact Hl|reflexivity|].
    rewrite Ey. cbv zeta in Hy. cbn [data mask finite_array shape] in *. rewrite selected_map, contribution_fin in Hy. fold v in Hy.
    destruct y as [sy dy]. cbn [shape data] in *. subst sy. f_equal. unfold finite_array. f_equal.
    apply nth_error_ext. intros k. rewrite !nth_error_map.
    destruct (nth_error l k) as [r|] eqn:E.
    - rewrite (Hy k (Fin r)) by now rewrite nth_error_map, E. cbn [option_map]. f_equal. f_equal.
      destruct (Rlt_b 0 v); [|reflexivity]. destruct (selected ms l); [congruence|]. unfold Rdiv. ring.
    - cbn. apply nth_error_None. rewrite Ly, map_length. apply nth_error_None. exact E.
  Qed.

  Lemma normalize_std eps (centered : bool) l : 0 <= eps -> length l = size s -> selected ms l <> [] ->
    let v := if centered then second_moment (selected ms l) else var_of (selected ms l) in
    0 < v ->
    exists y, mask_normalize fm eps None centered mask (finite_array s l) = Some (finite_array s y) /\
      mask_std fm 0 None centered mask (finite_array s y) = Some (Arr [] [Fin (sqrt (v / (eps + v)))]) /\
      sqrt (v / (eps + v)) <= 1 /\ (eps = 0 -> sqrt (v / (eps + v)) = 1).
  Proof.
    intros He Hl Hne v Hv. eexists. split; [apply normalize_fin; assumption|]. fold v. rewrite (Rlt_b_true 0 v Hv).
    assert (Hs : 0 < sqrt (eps + v)) by (apply sqrt_lt_R0; lra).
    assert (Hi : (/ sqrt (eps + v)) ^ 2 = / (eps + v)).
    { rewrite <- (pow2_sqrt (eps + v)) at 2 by lra. cbn. field. lra. }
    split; [|split].
    - rewrite (std_fin 0 centered) by
        (first [lra | rewrite map_length; exact Hl | rewrite selected_map; destruct (selected ms l); [congruence|discriminate]]).
      do 4 f_equal. rewrite selected_map.
      assert (Ev : (if centered then second_moment (map (fun r => / sqrt (eps + v) * r) (selected ms l))
                    else var_of (map (fun r => / sqrt (eps + v) * r) (selected ms l))) = v / (eps + v)).
      { unfold v in *. destruct centered.
        - rewrite second_scale, Hi. unfold Rdiv. ring.
        - rewrite <- (map_ext (fun r => / sqrt (eps + var_of (selected ms l)) * r + 0)) by (intros; ring).
          rewrite var_affine by exact Hne. rewrite Hi. unfold Rdiv. ring. }
      rewrite Ev. unfold regular_std. rewrite Rlt_b_true; [f_equal; ring|]. apply Rdiv_lt_0_compat; lra.
    - rewrite <- sqrt_1. apply sqrt_le_1_alt. apply (Rmult_le_reg_r (eps + v)); [lra|]. unfold Rdiv. rewrite Rmult_assoc, Rinv_l by lra. lra.
    - intros ->. rewrite Rplus_0_l. unfold Rdiv. rewrite Rinv_r by lra. apply sqrt_1.
  Qed.

  (** another unit amounts to another regularisation *)
  Lemma normalize_scale eps (centered : bool) c l : 0 <= eps -> c <> 0 -> length l = size s -> selected ms l <> [] ->
    exists y, mask_normalize fm (eps / c ^ 2) None centered mask (finite_array s l) = Some (finite_array s y) /\
      mask_normalize fm eps None centered mask (finite_array s (map (fun r => c * r) l)) =
        Some (finite_array s (map (fun r => sign c * r) y)).
  Proof.
    intros He Hc Hl Hne. assert (Hc2 : 0 < c ^ 2) by nra.
    assert (He' : 0 <= eps / c ^ 2) by (apply Rmult_le_pos; [lra|left; apply Rinv_0_lt_compat; lra]).
    eexists. split; [apply normalize_fin; assumption|].
    rewrite (normalize_fin eps centered) by
        (first [exact He | rewrite map_length; exact Hl | rewrite selected_map; destruct (selected ms l); [congruence|discriminate]]).
    cbv zeta. f_equal. f_equal. rewrite !map_map. apply map_ext. intros r. rewrite selected_map.
    set (v := if centered then second_moment (selected ms l) else var_of (selected ms l)).
    assert (Ev : (if centered then second_moment (map (fun r => c * r) (selected ms l)) else var_of (map (fun r => c * r) (selected ms l))) = c ^ 2 * v).
    { unfold v. destruct centered; [apply second_scale|].
      rewrite <- (map_ext (fun r => c * r + 0)) by (intros; ring). apply var_affine. exact Hne. }
    rewrite Ev. destruct (Rlt_dec 0 v) as [Hv|Hv].
    - rewrite !Rlt_b_true by nra.
      assert (Es : eps + c ^ 2 * v = c ^ 2 * (eps / c ^ 2 + v)) by (field; exact Hc).
      rewrite Es, sqrt_mult by lra.
      assert (Hs : 0 < sqrt (eps / c ^ 2 + v)) by (apply sqrt_lt_R0; lra).
      rewrite <- Rsqr_pow2, sqrt_Rsqr_abs. rewrite Rsqr_pow2. unfold sign, Rabs. destruct (Rcase_abs c).
      + rewrite Rlt_b_true by assumption. field. lra.
      + rewrite Rlt_b_false by lra. field. lra.
    - rewrite !Rlt_b_false by nra. ring.
  Qed.

End Mask.

Lemma merge_sel ms : forall ns (l : list R), length ms = length ns -> length ms = length l -> apart ms ns ->
  total (selected (either ms ns) l) = total (selected ms l) + total (selected ns l) /\
  length (selected (either ms ns) l) = (length (selected ms l) + length (selected ns l))%nat.
Proof.
  unfold apart, either, total. induction ms as [|m ms IH]; intros [|n ns] [|x l] H1 H2 H; try discriminate.
  - cbn. split; [lra|reflexivity].
  - cbn [combine] in *. pose proof (Forall_inv H) as Hmn. pose proof (Forall_inv_tail H) as Ht. cbn [fst snd] in Hmn.
    destruct (IH ns l) as [E1 E2]; [cbn in *; lia..|exact Ht|].
    destruct m, n; try discriminate Hmn; cbn [map fst snd orb selected fold_right length]; rewrite ?E1, ?E2; split; try lra; try lia.
Qed.
Lemma merge_means fm s ms ns l : length ms = size s -> length ns = size s -> length l = size s -> apart ms ns ->
  selected ms l <> [] -> selected ns l <> [] ->
  exists a b, mask_mean fm None (Arr s ms) (finite_array s l) = Some (Arr [] [Fin a]) /\
    mask_mean fm None (Arr s ns) (finite_array s l) = Some (Arr [] [Fin b]) /\
    mask_mean fm None (Arr s (either ms ns)) (finite_array s l) =
      Some (Arr [] [Fin ((INR (length (selected ms l)) * a + INR (length (selected ns l)) * b) /
                         (INR (length (selected ms l)) + INR (length (selected ns l))))]).
Proof.
  intros Hm Hn Hl Ha N1 N2. do 2 eexists. split; [apply mean_fin; assumption|]. split; [apply mean_fin; assumption|].
  destruct (merge_sel ms ns l ltac:(congruence) ltac:(congruence) Ha) as [E1 E2].
  pose proof (INR_pos _ N1). pose proof (INR_pos _ N2).
  rewrite mean_fin.
  - do 4 f_equal. unfold mean_of. rewrite E1, E2, plus_INR. field. repeat split; lra.
  - unfold either. rewrite map_length, combine_length. lia.
  - exact Hl.
  - intros E. rewrite E in E2. cbn in E2. destruct (selected ms l); [congruence|]. cbn in E2. lia.
Qed.
