(** Proofs for C131: the algebra of RollingMean. *)
From Coq Require Import List Arith ZArith Lia Reals Lra.
From Verif Require Import Model.Unroll Model.Float Model.Modules Spec.SeriesSpec Spec.EwmSpec Spec.AlgebraSpec
  Proofs.FloatFacts Proofs.RunFacts Proofs.SmallProofs Proofs.SmallExtra.
Import ListNotations.
Local Open Scope R_scope.

Fixpoint observed (l : list (option R)) : list R :=
  match l with [] => [] | Some x :: r => x :: observed r | None :: r => observed r end.
Definition avg (mp : Z) (l : list R) : fl :=
  if ((1 <=? Z.of_nat (length l)) && (mp <=? Z.of_nat (length l)))%Z%bool then Fin (rsum l / INR (length l)) else NaN.

Lemma valid_observed l : valid_values (map of_option l) = map Fin (observed l).
Proof. induction l as [|[x|] l IH]; cbn; [reflexivity|rewrite <- IH; reflexivity|exact IH]. Qed.
Lemma window_map {A B} (f : A -> B) h t l : window h t (map f l) = map f (window h t l).
Proof. unfold window. rewrite firstn_map, skipn_map. reflexivity. Qed.

Lemma rolling_avg h mp os ys sF : (0 < h)%nat ->
  run (RollingMean h mp) (map of_option os) = Some (ys, sF) ->
  length ys = length os /\
  forall t, (t < length os)%nat -> nth_error ys t = Some (avg mp (observed (window h t os))).
Proof.
  intros Hh. destruct os as [|o0 os]; [cbn; discriminate|]. cbn [map]. intros Hr.
  destruct (rolling_mean_run _ _ _ _ _ _ Hh Hr) as (HL & H).
  cbn [length] in HL. rewrite map_length in HL. split; [exact HL|].
  intros t Ht. assert (Ht' : (t < length (of_option o0 :: map of_option os))%nat) by (cbn [length] in *; rewrite map_length; exact Ht).
  specialize (H t Ht'). cbn zeta in H. rewrite H. f_equal.
  change (of_option o0 :: map of_option os) with (map of_option (o0 :: os)).
  rewrite window_map, valid_observed, map_length, fsum_Fin. unfold avg.
  destruct (Z.leb_spec 1 (Z.of_nat (length (observed (window h t (o0 :: os)))))); cbn [andb]; [|reflexivity].
  destruct (mp <=? Z.of_nat (length (observed (window h t (o0 :: os)))))%Z; [|reflexivity]. rewrite fdiv_Fin; [reflexivity|]. apply not_0_INR. lia.
Qed.

Lemma observed_map f l : observed (map (option_map f) l) = map f (observed l).
Proof. induction l as [|[x|] l IH]; cbn; [reflexivity|rewrite IH; reflexivity|exact IH]. Qed.
Lemma rsum_affine a b l : rsum (map (fun x => a * x + b) l) = a * rsum l + b * INR (length l).
Proof.
  induction l as [|x l IH]; [cbn; lra|]. cbn [map rsum fold_right length]. fold (rsum l).
  change (fold_right Rplus 0 (map (fun x0 => a * x0 + b) l)) with (rsum (map (fun x0 => a * x0 + b) l)).
  rewrite IH, S_INR. lra.
Qed.
Lemma avg_affine a b mp l : avg mp (map (fun x => a * x + b) l) = affine_fl a b (avg mp l).
Proof.
  unfold avg. rewrite map_length, rsum_affine.
  destruct (Z.leb_spec 1 (Z.of_nat (length l))); cbn [andb]; [|reflexivity].
  destruct (mp <=? Z.of_nat (length l))%Z; [|reflexivity]. cbn [affine_fl]. f_equal.
  assert (INR (length l) <> 0) by (apply not_0_INR; lia). field. assumption.
Qed.

Lemma nth_ext_eq {A} (l l' : list A) : length l = length l' ->
  (forall t, (t < length l)%nat -> nth_error l t = nth_error l' t) -> l = l'.
Proof.
  revert l'. induction l as [|a l IH]; intros [|b l'] HL H; try discriminate; [reflexivity|].
  f_equal.
  - specialize (H 0%nat ltac:(cbn; lia)). cbn in H. congruence.
  - apply IH; [cbn in HL; lia|]. intros t Ht. exact (H (S t) ltac:(cbn; lia)).
Qed.

Lemma rolling_affine h mp a b os ys sF ys' sF' : (0 < h)%nat ->
  run (RollingMean h mp) (map of_option os) = Some (ys, sF) ->
  run (RollingMean h mp) (map of_option (map (affine a b) os)) = Some (ys', sF') ->
  ys' = map (affine_fl a b) ys.
Proof.
  intros Hh E E'. destruct (rolling_avg _ _ _ _ _ Hh E) as (L & H). destruct (rolling_avg _ _ _ _ _ Hh E') as (L' & H').
  rewrite map_length in *.
  apply nth_ext_eq; [rewrite map_length; congruence|]. intros t Ht. rewrite L' in Ht.
  rewrite (H' t Ht), (map_nth_error (affine_fl a b) t ys (H t Ht)). f_equal.
  rewrite window_map. unfold affine. rewrite observed_map. apply avg_affine.
Qed.

Lemma rsum_bounds lo hi l : Forall (fun x => lo <= x <= hi) l ->
  lo * INR (length l) <= rsum l <= hi * INR (length l).
Proof.
  induction 1 as [|x l Hx _ IH]; [cbn; lra|]. cbn [rsum fold_right length]. fold (rsum l). rewrite S_INR. lra.
Qed.
Lemma avg_range mp lo hi l : Forall (fun x => lo <= x <= hi) l ->
  avg mp l = NaN \/ exists r, avg mp l = Fin r /\ lo <= r <= hi.
Proof.
  intros H. unfold avg. destruct (Z.leb_spec 1 (Z.of_nat (length l))); cbn [andb]; [|left; reflexivity].
  destruct (mp <=? Z.of_nat (length l))%Z; [|left; reflexivity]. right. eexists. split; [reflexivity|].
  assert (P : 0 < INR (length l)) by (apply lt_0_INR; lia). pose proof (rsum_bounds _ _ _ H) as [A B].
  split.
  - apply Rmult_le_reg_r with (INR (length l)); [exact P|]. replace (rsum l / INR (length l) * INR (length l)) with (rsum l) by (field; lra). exact A.
  - apply Rmult_le_reg_r with (INR (length l)); [exact P|]. replace (rsum l / INR (length l) * INR (length l)) with (rsum l) by (field; lra). exact B.
Qed.
Lemma observed_in x l : In x (observed l) <-> In (Some x) l.
Proof.
  induction l as [|[y|] l IH]; cbn; [tauto|..].
  - rewrite IH. split; (intros [H|H]; [left; congruence|right; exact H]).
  - rewrite IH. split; [tauto|]. intros [H|H]; [discriminate|exact H].
Qed.
Lemma nth_error_skipn_eq {A} n (l : list A) k : nth_error (skipn n l) k = nth_error l (n + k).
Proof. revert l. induction n; intros l; [reflexivity|]. destruct l; [destruct k; reflexivity|]. cbn [skipn]. rewrite IHn. reflexivity. Qed.
Lemma nth_error_firstn_eq {A} n (l : list A) k : (k < n)%nat -> nth_error (firstn n l) k = nth_error l k.
Proof. revert l k. induction n; intros l k H; [lia|]. destruct l; [reflexivity|]. destruct k; [reflexivity|]. cbn. apply IHn. lia. Qed.
Lemma window_in {A} h t (l : list A) x : In x (window h t l) ->
  exists s, (t < s + h)%nat /\ (s <= t)%nat /\ nth_error l s = Some x.
Proof.
  intros H. apply In_nth_error in H as (k & H). unfold window in H. rewrite nth_error_skipn_eq in H.
  assert (K : (t + 1 - h + k < t + 1)%nat).
  { assert (t + 1 - h + k < length (firstn (t + 1) l))%nat by (apply nth_error_Some; congruence).
    rewrite firstn_length in *. lia. }
  rewrite nth_error_firstn_eq in H by exact K. exists (t + 1 - h + k)%nat. split; [lia|]. split; [lia|exact H].
Qed.

Lemma rolling_range h mp os ys sF lo hi t y : (0 < h)%nat ->
  run (RollingMean h mp) (map of_option os) = Some (ys, sF) -> nth_error ys t = Some y ->
  (forall s x, (s <= t)%nat -> (t < s + h)%nat -> nth_error os s = Some (Some x) -> lo <= x <= hi) ->
  y = NaN \/ exists r, y = Fin r /\ lo <= r <= hi.
Proof.
  intros Hh E Hy Hb. destruct (rolling_avg _ _ _ _ _ Hh E) as (L & H).
  assert (Ht : (t < length os)%nat) by (rewrite <- L; apply nth_error_Some; congruence).
  rewrite (H t Ht) in Hy. injection Hy as <-. apply avg_range. apply Forall_forall. intros x Hx.
  apply observed_in, window_in in Hx as (s & A & B & C). exact (Hb s x B A C).
Qed.

Lemma rsum_map2 l l' : length l = length l' -> rsum (map (fun xy => fst xy + snd xy) (combine l l')) = rsum l + rsum l'.
Proof.
  revert l'. induction l as [|x l IH]; intros [|y l'] H; try discriminate; [cbn; lra|].
  cbn [combine map rsum fold_right fst snd]. fold (rsum l). fold (rsum l').
  change (fold_right Rplus 0 (map (fun xy => fst xy + snd xy) (combine l l'))) with (rsum (map (fun xy => fst xy + snd xy) (combine l l'))).
  rewrite IH by (cbn in H; lia). lra.
Qed.
Lemma observed_plus l l' : same_holes l l' ->
  length (observed l) = length (observed l') /\
  observed (map plus_opt (combine l l')) = map (fun xy => fst xy + snd xy) (combine (observed l) (observed l')).
Proof.
  induction 1 as [|x y l l' Hxy _ [IH1 IH2]]; [split; reflexivity|].
  destruct x as [x|], y as [y|]; cbn.
  - split; [f_equal; exact IH1|]. cbn [combine map]. rewrite IH2. reflexivity.
  - destruct Hxy as [_ Hxy]. discriminate (Hxy eq_refl).
  - destruct Hxy as [Hxy _]. discriminate (Hxy eq_refl).
  - split; assumption.
Qed.
Lemma avg_plus mp l l' : length l = length l' ->
  avg mp (map (fun xy => fst xy + snd xy) (combine l l')) = plus_fl (avg mp l, avg mp l').
Proof.
  intros H. unfold avg. rewrite map_length, combine_length, rsum_map2, <- H, Nat.min_id by exact H.
  destruct (Z.leb_spec 1 (Z.of_nat (length l))); cbn [andb]; [|reflexivity].
  destruct (mp <=? Z.of_nat (length l))%Z; [|reflexivity]. cbn [plus_fl]. f_equal.
  assert (INR (length l) <> 0) by (apply not_0_INR; lia). field. assumption.
Qed.
Lemma F2_firstn {A B} (P : A -> B -> Prop) n l l' : Forall2 P l l' -> Forall2 P (firstn n l) (firstn n l').
Proof. intros H. revert n. induction H; intros [|n]; cbn; constructor; auto. Qed.
Lemma F2_skipn {A B} (P : A -> B -> Prop) n l l' : Forall2 P l l' -> Forall2 P (skipn n l) (skipn n l').
Proof. intros H. revert n. induction H; intros [|n]; cbn; auto. Qed.
Lemma combine_firstn_eq {A B} n (l : list A) (l' : list B) : firstn n (combine l l') = combine (firstn n l) (firstn n l').
Proof. revert l l'. induction n; intros [|a l] [|b l']; cbn; try reflexivity. rewrite IHn. reflexivity. Qed.
Lemma combine_skipn_eq {A B} n (l : list A) (l' : list B) : length l = length l' ->
  skipn n (combine l l') = combine (skipn n l) (skipn n l').
Proof. revert l l'. induction n; intros [|a l] [|b l'] H; cbn; try reflexivity; try discriminate. apply IHn. cbn in H. lia. Qed.
Lemma F2_length {A B} (P : A -> B -> Prop) l l' : Forall2 P l l' -> length l = length l'.
Proof. induction 1; cbn; congruence. Qed.

Lemma nth_error_combine_some {A B} (l : list A) (l' : list B) t a b :
  nth_error l t = Some a -> nth_error l' t = Some b -> nth_error (combine l l') t = Some (a, b).
Proof.
  revert l l'. induction t; intros [|x l] [|y l']; cbn; try discriminate; [congruence|]. apply IHt.
Qed.
Lemma rolling_additive h mp xs xs' ys sF ys' sF' zs sG : (0 < h)%nat -> same_holes xs xs' ->
  run (RollingMean h mp) (map of_option xs) = Some (ys, sF) ->
  run (RollingMean h mp) (map of_option xs') = Some (ys', sF') ->
  run (RollingMean h mp) (map of_option (map plus_opt (combine xs xs'))) = Some (zs, sG) ->
  zs = map plus_fl (combine ys ys').
Proof.
  intros Hh Hs E E' E''. pose proof (F2_length _ _ _ Hs) as HL.
  destruct (rolling_avg _ _ _ _ _ Hh E) as (L & H). destruct (rolling_avg _ _ _ _ _ Hh E') as (L' & H').
  destruct (rolling_avg _ _ _ _ _ Hh E'') as (L'' & H'').
  rewrite map_length, combine_length, <- HL, Nat.min_id in *.
  apply nth_ext_eq; [rewrite map_length, combine_length; lia|].
  intros t Ht. rewrite L'' in Ht. rewrite (H'' t Ht).
  rewrite (map_nth_error plus_fl t (combine ys ys') (nth_error_combine_some _ _ _ _ _ (H t Ht) (H' t ltac:(lia)))).
  f_equal. unfold window. rewrite firstn_map, skipn_map, combine_firstn_eq, combine_skipn_eq
    by (rewrite !firstn_length; lia).
  destruct (observed_plus (window h t xs) (window h t xs')) as [A B]; [apply F2_skipn, F2_firstn; exact Hs|].
  unfold window in A, B. rewrite B. apply avg_plus, A.
Qed.
