(** Concrete runs meeting the hypotheses of C131-C134. *)
From Coq Require Import List Arith ZArith Lia Reals Lra Bool.
From Verif Require Import Model.Unroll Model.Batch Model.Float Model.Modules Model.Ewm Model.Dynamics Spec.SeriesSpec Spec.EwmSpec Spec.DynSpec
  Spec.AlgebraSpec Proofs.FloatFacts Proofs.RunFacts Proofs.SmallProofs Proofs.SmallExtra Proofs.DynProofs Proofs.AlgebraProofs
  Proofs.AlgebraProofs2 Proofs.AlgebraProofs3 Proofs.EwmExamples.
Import ListNotations.
Local Open Scope R_scope.

Lemma rolling_value h mp os : (0 < h)%nat -> os <> [] ->
  exists sF, run (RollingMean h mp) (map of_option os) = Some (map (fun t => avg mp (observed (window h t os))) (seq 0 (length os)), sF).
Proof.
  intros Hh Ho. destruct os as [|o os]; [contradiction|].
  assert (E : exists ys sF, run (RollingMean h mp) (map of_option (o :: os)) = Some (ys, sF)).
  { unfold RollingMean. cbn [map]. rewrite run_eq. eexists. eexists. reflexivity. }
  destruct E as (ys & sF & E). exists sF. rewrite E. f_equal. f_equal.
  destruct (rolling_avg h mp (o :: os) ys sF Hh E) as (L & H).
  apply nth_ext_eq; [rewrite map_length, seq_length; exact L|]. intros t Ht. rewrite L in Ht. rewrite (H t Ht).
  symmetry. rewrite (map_nth_error (fun t => avg mp (observed (window h t (o :: os)))) t (seq 0 (length (o :: os))) (d := t)); [reflexivity|].
  rewrite (nth_error_nth' _ 0%nat) by (rewrite seq_length; exact Ht). rewrite seq_nth by exact Ht. reflexivity.
Qed.

Ltac rolling_ex os :=
  match goal with |- exists sF, run (RollingMean ?h ?mp) ?xs = Some (?out, sF) =>
    destruct (rolling_value h mp os ltac:(lia) ltac:(discriminate)) as (sF & E); exists sF;
    change (map of_option os) with xs in E; rewrite E; do 2 f_equal; cbn; fin_eq
  end.

Lemma rolling_ex1 : exists sF, run (RollingMean 2 1) [Fin 1; NaN; Fin 3; Fin 5] = Some ([Fin 1; Fin 1; Fin 3; Fin 4], sF).
Proof. rolling_ex [Some 1; None; Some 3; Some 5]. Qed.
Lemma rolling_ex2 : exists sF, run (RollingMean 2 1) [Fin 3; NaN; Fin 7; Fin 11] = Some ([Fin 3; Fin 3; Fin 7; Fin 9], sF).
Proof. rolling_ex [Some 3; None; Some 7; Some 11]. Qed.
Lemma rolling_ex3 : exists sF, run (RollingMean 2 1) [Fin 4; NaN; Fin 10; Fin 16] = Some ([Fin 4; Fin 4; Fin 10; Fin 13], sF).
Proof. rolling_ex [Some 4; None; Some 10; Some 16]. Qed.
Lemma rolling_ex4 : exists sF, run (RollingMean 2 1) [NaN; Fin 2; Fin 4] = Some ([NaN; Fin 2; Fin 3], sF).
Proof. rolling_ex [None; Some 2; Some 4]. Qed.

Lemma diff_ex1 : exists d sF, Diff 1 = Some d /\ run d [Fin 1; Fin 3; Fin 7] = Some ([NaN; Fin 2; Fin 4], sF).
Proof.
  do 2 eexists. split; [reflexivity|].
  rewrite run_eq. fl_eval. fin_eq.
Qed.

Lemma pct_ex1 : exists m sF, PctChange 1 Pad true = Some m /\ run m [Fin 1; NaN; Fin 3] = Some ([NaN; Fin 0; Fin 2], sF).
Proof. do 2 eexists. split; [reflexivity|]. rewrite run_eq. fl_eval. fin_eq. Qed.
Lemma pct_ex2 : exists m sF, PctChange 1 Pad true = Some m /\ run m [Fin 5; NaN; Fin 15] = Some ([NaN; Fin 0; Fin 2], sF).
Proof. do 2 eexists. split; [reflexivity|]. rewrite run_eq. fl_eval. fin_eq. Qed.

Lemma ewma0_ex : exists sF, run (EWMA 1000 (EwmaCfg 0 0 AdjTrue false NaN)) [NaN; Fin 2; NaN; Fin 5] = Some ([NaN; Fin 2; Fin 2; Fin 5], sF).
Proof.
  assert (E : exists ys sF, run (EWMA 1000 (EwmaCfg 0 0 AdjTrue false NaN)) (map of_option [None; Some 2; None; Some 5]) = Some (ys, sF)).
  { unfold EWMA. cbn [map]. rewrite run_eq. eexists. eexists. reflexivity. }
  assert (F : exists sG, run Ffill (map of_option [None; Some 2; None; Some 5]) = Some ([NaN; Fin 2; Fin 2; Fin 5], sG)).
  { eexists. reflexivity. }
  destruct E as (ys & sF & E). destruct F as (sG & F). exists sF.
  rewrite (ewma0_ffill _ _ _ _ _ _ _ _ E F) in E. exact E.
Qed.

Lemma ohlc_ex1 : exists sF, run OHLC [(Fin 2, true); (Fin 5, false); (Fin 1, true); (NaN, false)] =
    Some ([Ohlc (Fin 2) (Fin 2) (Fin 2) (Fin 2); Ohlc (Fin 2) (Fin 5) (Fin 2) (Fin 5);
           Ohlc (Fin 1) (Fin 1) (Fin 1) (Fin 1); Ohlc (Fin 1) (Fin 1) (Fin 1) (Fin 1)], sF).
Proof.
  eexists. cbv -[Rlt_b IZR]. repeat (rewrite ?Rlt_b_true by lra; rewrite ?Rlt_b_false by lra; cbv -[Rlt_b IZR]).
  reflexivity.
Qed.
Lemma ohlc_ex2 : exists sF ys, run OHLC [(Fin 2, true); (Fin 5, false); (Fin 1, false); (NaN, false)] = Some (ys, sF) /\
    last ys ohlc_nan = Ohlc (Fin 2) (Fin 5) (Fin 1) (Fin 1) /\
    merged (Ohlc (Fin 2) (Fin 5) (Fin 2) (Fin 5)) (Ohlc (Fin 1) (Fin 1) (Fin 1) (Fin 1)) = Ohlc (Fin 2) (Fin 5) (Fin 1) (Fin 1).
Proof.
  eexists. eexists. split; [reflexivity|].
  split; cbv -[Rlt_b IZR]; repeat (rewrite ?Rlt_b_true by lra; rewrite ?Rlt_b_false by lra; cbv -[Rlt_b IZR]); reflexivity.
Qed.
