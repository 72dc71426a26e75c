(** Counting and powers in single and double precision. *)
From Coq Require Import ZArith Reals Lra Lia Bool.
From Flocq Require Import Core.
From Verif Require Import Model.Float Spec.RoundSpec Proofs.FloatFacts Proofs.RoundProofs Proofs.RoundProofs3 Proofs.RoundProofs7 Proofs.RoundProofs9.
Local Open Scope R_scope.

Section Fmt.
  Variables (emin p : Z).
  Hypothesis Hp : (2 <= p)%Z.
  Hypothesis He : (emin <= 0)%Z.
  Notation fexp := (FLT_exp emin p).
  Notation rn := (round radix2 fexp ZnearestE).
  Local Instance prec_p : Prec_gt_0 p. Proof using Hp. unfold Prec_gt_0. lia. Qed.

  Lemma IZR_pow2 k : (0 <= k)%Z -> IZR (2 ^ k) = bpow radix2 k.
  Proof using. intros H. rewrite <- IZR_Zpower by auto. reflexivity. Qed.

  Lemma count_exact n : (0 <= n <= 2 ^ p)%Z -> rn (IZR n) = IZR n.
  Proof using Hp He.
    intros H. apply round_generic; [apply valid_rnd_N|].
    destruct (Z.eq_dec n (2 ^ p)) as [->|E].
    - rewrite IZR_pow2 by lia. apply generic_format_bpow. unfold FLT_exp. lia.
    - apply generic_format_FLT. exists (Float radix2 n 0); cbn [Fnum Fexp]; auto.
      + unfold F2R. cbn [Fnum Fexp bpow]. ring.
      + change (Z.pow (radix_val radix2) p) with (2 ^ p)%Z. rewrite Z.abs_eq by lia. lia.
  Qed.

  Lemma count_stops : rn (IZR (2 ^ p) + 1) = IZR (2 ^ p).
  Proof using Hp He.
    set (x := IZR (2 ^ p) + 1).
    assert (P2 : (2 ^ p = 2 * 2 ^ (p - 1))%Z) by (rewrite <- Z.pow_succ_r by lia; f_equal; lia).
    assert (Pos : (2 <= 2 ^ (p - 1))%Z). { change 2%Z with (2 ^ 1)%Z at 1. apply Z.pow_le_mono_r; lia. }
    assert (Hx : 0 < x). { unfold x. assert (0 <= IZR (2 ^ p)) by (apply IZR_le; lia). lra. }
    assert (M : mag radix2 x = (p + 1)%Z :> Z).
    { apply mag_unique_pos. replace (p + 1 - 1)%Z with p by ring.
      rewrite <- !IZR_pow2 by lia. unfold x. split; [lra|].
      rewrite <- (plus_IZR _ 1). apply IZR_lt. rewrite Z.pow_add_r by lia. lia. }
    assert (Ce : cexp radix2 fexp x = 1%Z). { unfold cexp, FLT_exp. rewrite M. lia. }
    unfold round, scaled_mantissa. rewrite Ce. cbn [Z.opp]. unfold F2R. cbn [Fnum Fexp].
    assert (S : x * bpow radix2 (-1) = IZR (2 ^ (p - 1)) + / 2).
    { unfold x. rewrite P2 at 1. rewrite mult_IZR. change (bpow radix2 (-1)) with (/ 2). lra. }
    rewrite S.
    assert (F : Zfloor (IZR (2 ^ (p - 1)) + / 2) = (2 ^ (p - 1))%Z).
    { apply Zfloor_imp. rewrite plus_IZR. lra. }
    unfold Znearest. rewrite F. rewrite Rcompare_Eq by lra.
    assert (Ev : Z.even (2 ^ (p - 1)) = true).
    { rewrite Z.even_pow; [reflexivity|]. lia. }
    rewrite Ev. cbn [negb]. rewrite P2, mult_IZR. change (bpow radix2 1) with 2. ring.
  Qed.
End Fmt.

Lemma single_counts : counts_to single (2 ^ 24).
Proof.
  split; [intros n Hn; apply (count_exact (-149) 24); try lia; auto|apply (count_stops (-149) 24); lia].
Qed.
Lemma double_counts : counts_to double (2 ^ 53).
Proof.
  split; [intros n Hn; apply (count_exact (-1074) 53); try lia; auto|apply (count_stops (-1074) 53); lia].
Qed.

Lemma power_rounded u eta rd : rounding u eta rd -> 0 <= u -> eta <= u -> power_within (2 * u) (rounded_power rd).
Proof.
  intros HR Hu He b n Hb Hn. unfold rounded_power.
  assert (E : (if Req_b b 0 then 0 else Rpower b (INR n)) = b ^ n).
  { destruct (Req_b_spec b 0) as [->|Hz].
    - rewrite pow_ne_zero by lia. reflexivity.
    - apply Rpower_pow. lra. }
  rewrite E.
  assert (P : 0 <= b ^ n <= 1). { split; [apply pow_le; lra|]. rewrite <- (pow1 n). apply pow_incr; lra. }
  apply Rle_trans with (u * 1 + eta); [|lra]. apply (rd_err_le u eta rd HR Hu). rewrite Rabs_pos_eq; lra.
Qed.

Lemma inv_pow_le a b : (a <= b)%nat -> / 2 ^ b <= / 2 ^ a.
Proof. intros H. apply Rinv_le_contravar; [apply pow_lt; lra|]. apply Rle_pow; [lra|auto]. Qed.
Lemma IZR_2pow (n : nat) : IZR (2 ^ Z.of_nat n) = 2 ^ n.
Proof. rewrite <- pow_IZR. reflexivity. Qed.

Lemma var_side u eta fm (n p q : nat) :
  u = / 2 ^ p -> eta = / 2 ^ q -> (p <= q)%nat -> (1 <= p)%nat -> 2 ^ n <= fm -> (p <= n)%nat ->
  eta <= u /\ 1 <= 2 * u * IZR (2 ^ Z.of_nat p) /\ IZR (2 ^ Z.of_nat p) <= fm.
Proof.
  intros -> -> H1 H2 H3 H4. rewrite IZR_2pow. split; [apply inv_pow_le; auto|].
  assert (0 < 2 ^ p) by (apply pow_lt; lra). split.
  - rewrite Rmult_assoc, Rinv_l by lra. lra.
  - apply Rle_trans with (2 := H3). apply Rle_pow; [lra|auto].
Qed.
