From Coq Require Import List Arith ZArith Lia Reals Lra Bool.
From Verif Require Import Model.Tree Model.Unroll Model.Float Model.Modules Spec.SeriesSpec
  Proofs.ListFacts Proofs.FloatFacts Proofs.RunFacts Proofs.BufferProofs Proofs.SmallProofs.
Import ListNotations.

Lemma buffer_recorded {A} m (full_like : A -> A) x0 xs ys sF :
  0 < m ->
  run (Buffer_return_state m full_like) (x0 :: xs) = Some (ys, sF) ->
  forall t b st, nth_error ys t = Some (b, st) ->
  skipn (i_start st) b = window m t (x0 :: xs).
Proof.
  intros Hm Hr t b st Hy. destruct (buffer_run _ _ _ _ _ _ Hm Hr) as (Hl & H).
  assert (Ht : t < length (x0 :: xs)) by (rewrite <- Hl; apply nth_error_Some; congruence).
  destruct (H t Ht) as (b' & st' & Hy' & _ & Hlen & Hi & Hbl & Hw).
  rewrite Hy in Hy'. injection Hy' as <- <-.
  apply nth_error_ext; intros i. unfold window. rewrite !nth_error_skipn, Hi.
  destruct (Nat.lt_ge_cases i (Nat.min (t + 1) m)) as [Hlt|Hge].
  - replace (m - Nat.min (t + 1) m + i) with (m - 1 - (Nat.min (t + 1) m - 1 - i)) by lia.
    rewrite Hw by lia.
    destruct (Nat.leb_spec (Nat.min (t + 1) m - 1 - i) t); [|lia].
    rewrite nth_error_firstn by lia. f_equal. lia.
  - transitivity (@None A); [|symmetry]; apply nth_error_None; [lia|].
    rewrite firstn_length_le by lia. lia.
Qed.

Lemma lag_return_state_is_buffer {A} k (full_like : A -> A) x0 xs ys sF :
  run (Lag_return_state k full_like) (x0 :: xs) = Some (ys, sF) ->
  forall t, t < length (x0 :: xs) -> exists b : list A,
    nth_error ys t = Some b /\ length b = k + 1 /\
    hd_error b = if t <? k then Some (full_like x0) else nth_error (x0 :: xs) (t - k).
Proof.
  intros Hr t Ht. apply (buffer_run_plain (k + 1)) in Hr; [|lia]. destruct Hr as (_ & H).
  destruct (H t Ht) as (b & Hb & Hl & Hw). exists b. split; auto. split; auto.
  specialize (Hw k ltac:(lia)). replace (k + 1 - 1 - k) with 0 in Hw by lia.
  replace (hd_error b) with (nth_error b 0) by (destruct b; reflexivity). rewrite Hw.
  destruct (Nat.leb_spec k t); destruct (Nat.ltb_spec t k); try lia; auto.
Qed.

Lemma diff_periods p : Diff p = None <-> p <> 1.
Proof. unfold Diff. destruct (Nat.eqb_spec p 1); split; congruence. Qed.

Lemma pct_change_callable p fm fz : PctChange p fm fz = None <-> (p <> 1 \/ fm = OtherMethod).
Proof.
  unfold PctChange. destruct (Nat.eqb_spec p 1); destruct fm; split; intros H; try congruence; auto;
    destruct H; congruence.
Qed.

Lemma rolling_mean_finite h mp x0 xs ys sF t (vs : list R) :
  0 < h ->
  run (RollingMean h mp) (x0 :: xs) = Some (ys, sF) ->
  t < length (x0 :: xs) ->
  valid_values (window h t (x0 :: xs)) = map Fin vs -> vs <> [] ->
  (mp <= Z.of_nat (length vs))%Z ->
  nth_error ys t = Some (Fin (rsum vs / INR (length vs))).
Proof.
  intros Hh Hr Ht Hv Hne Hmp. destruct (rolling_mean_run _ _ _ _ _ _ Hh Hr) as (_ & H).
  specialize (H t Ht). cbn zeta in H. rewrite Hv, map_length, fsum_Fin in H. rewrite H.
  assert (length vs <> 0) by (destruct vs; cbn; congruence).
  destruct (Z.leb_spec 1 (Z.of_nat (length vs))); [|lia].
  destruct (Z.leb_spec mp (Z.of_nat (length vs))); [|lia]. cbn [andb].
  rewrite fdiv_Fin; auto. apply not_0_INR; auto.
Qed.

Lemma first_false {A} (neq : A -> A -> bool) (d : A) x0 xs ys sF :
  (forall a b, neq a b = false <-> a = b) ->
  run (HasChanged neq d) (x0 :: xs) = Some (ys, sF) ->
  (nth_error ys 0 = Some false <-> Forall (fun z => z = d) x0).
Proof.
  intros Hneq Hr. destruct (has_changed_run _ _ _ _ _ _ Hr) as (_ & _ & b & Hb & Hiff).
  rewrite Hb. split.
  - intros [= ->]. apply Forall_forall. intros x Hin. apply Hneq.
    destruct (neq x d) eqn:E; auto. apply In_nth_error in Hin. destruct Hin as [i Hi].
    assert (false = true) by (apply Hiff; eauto). congruence.
  - intros HF. f_equal. destruct b; auto. destruct (proj1 Hiff eq_refl) as (i & x & Hi & Hx).
    rewrite Forall_forall in HF. apply nth_error_In in Hi. apply HF in Hi.
    apply Hneq in Hi. congruence.
Qed.

Lemma has_changed_first :
  (forall (x0 : list fl) xs ys sF, x0 <> [] ->
     run (HasChanged fne dtype_init_float) (x0 :: xs) = Some (ys, sF) -> nth_error ys 0 = Some true) /\
  (forall x0 xs ys sF, run (HasChanged (fun a b => negb (Z.eqb a b)) dtype_init_int) (x0 :: xs) = Some (ys, sF) ->
     (nth_error ys 0 = Some false <-> Forall (fun z => z = (-99999)%Z) x0)) /\
  (forall x0 xs ys sF, run (HasChanged (fun a b => negb (Z.eqb a b)) dtype_init_uint) (x0 :: xs) = Some (ys, sF) ->
     (nth_error ys 0 = Some false <-> Forall (fun z => z = 0%Z) x0)) /\
  (forall x0 xs ys sF, run (HasChanged (fun a b => negb (Bool.eqb a b)) dtype_init_bool) (x0 :: xs) = Some (ys, sF) ->
     (nth_error ys 0 = Some false <-> Forall (fun z => z = false) x0)).
Proof.
  split; [|split; [|split]].
  - intros x0 xs ys sF Hne Hr.
    destruct (has_changed_run _ _ _ _ _ _ Hr) as (_ & _ & b & Hb & Hiff).
    rewrite Hb. f_equal. apply Hiff. destruct x0 as [|a r]; [congruence|].
    exists 0, a. split; auto. apply fne_spec. right; left; reflexivity.
  - intros. eapply first_false; eauto. intros a b. rewrite negb_false_iff. apply Z.eqb_eq.
  - intros. eapply first_false; eauto. intros a b. rewrite negb_false_iff. apply Z.eqb_eq.
  - intros. eapply first_false; eauto. intros a b. rewrite negb_false_iff. apply eqb_true_iff.
Qed.
