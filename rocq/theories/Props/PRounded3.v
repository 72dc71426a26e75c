(** Property theorems C145-C146: rounding errors of the compiled (numba) exponential average and of adjust="linear".
    [rounding], [round_to], [single], [double], [within], [bounded], [counts_to]: Spec/RoundSpec.v;
    [exp_weighted], [column]: Spec/EwmModesSpec.v; [observation], [when_enough], [complete_from_first]: Spec/EwmSpec.v. *)
From Coq Require Import List ZArith Reals Lra Lia.
From Verif Require Import Model.Unroll Model.Float Model.Modules Model.Ewm Model.Rounded Model.RoundedNumba
  Spec.EwmSpec Spec.RoundSpec Spec.EwmModesSpec Proofs.RoundProofs3 Proofs.RoundProofs4 Proofs.RoundProofs5 Proofs.RoundProofs6 Proofs.RoundProofs7
  Proofs.RoundProofs13 Proofs.RoundProofs14 Proofs.RoundProofs17.
Import ListNotations.
Local Open Scope R_scope.

(** C145: every cell of the compiled average is close to the exactly computed one, in the three modes (linear: as
    long as no missing value decays the weights, C22). *)
Theorem C145_error :
  forall u eta rd fm cfg X N (table : list (list fl)) p res sF,
  rounding u eta rd -> 0 <= u -> 0 <= eta ->
  100 * u * (1 + com cfg) ^ 2 <= 1 -> 0 <= X ->
  eta * (1 + com cfg) <= u * Rmin 1 X -> 8 * (1 + com cfg) * Rmax 1 X <= fm ->
  (adjust cfg = AdjLinear -> rd (com cfg) = com cfg /\ counts_to rd N /\ 1 + com cfg <= IZR N) ->
  Forall (fun row => length row = p) table -> Forall (Forall (bounded X)) table -> bounded X (initial_value cfg) ->
  numba_ewma_r (round_to rd fm) cfg table None = Some (res, sF) ->
  length res = length table /\ Forall (fun row => length row = p) res /\
  forall j t y, (j < p)%nat -> nth_error (column j res) t = Some y ->
    let os := firstn (t + 1) (map (observation fm) (column j table)) in
    let seen := observation fm (initial_value cfg) :: os in
    (adjust cfg = AdjLinear -> ignore_na cfg = true \/ complete_from_first seen) ->
    within (80 * u * (1 + com cfg) ^ 2 * X) y
      (when_enough (min_periods cfg) os (exp_weighted (adjust cfg) (ignore_na cfg) (1 / (1 + com cfg)) seen)).
Proof. exact @numba_table_error. Qed.
Print Assumptions C145_error.

(** C145 in double precision (the default of pandas): com < 2^23, observations between 2^-900 and 2^900 at most. *)
Theorem C145_double :
  forall cfg X (table : list (list fl)) p res sF,
  1 + com cfg <= 2 ^ 23 -> / 2 ^ 900 <= X <= 2 ^ 900 -> (adjust cfg = AdjLinear -> double (com cfg) = com cfg) ->
  Forall (fun row => length row = p) table -> Forall (Forall (bounded X)) table -> bounded X (initial_value cfg) ->
  numba_ewma_r (round_to double max_double) cfg table None = Some (res, sF) ->
  length res = length table /\ Forall (fun row => length row = p) res /\
  forall j t y, (j < p)%nat -> nth_error (column j res) t = Some y ->
    let os := firstn (t + 1) (map (observation max_double) (column j table)) in
    let seen := observation max_double (initial_value cfg) :: os in
    (adjust cfg = AdjLinear -> ignore_na cfg = true \/ complete_from_first seen) ->
    within (80 * / 2 ^ 53 * (1 + com cfg) ^ 2 * X) y
      (when_enough (min_periods cfg) os (exp_weighted (adjust cfg) (ignore_na cfg) (1 / (1 + com cfg)) seen)).
Proof.
  intros cfg X table p res sF HC HX Hl Hp Hb Hi Hn.
  pose proof (numba_columns _ cfg table p res sF Hp Hn) as (Hc & _).
  destruct (side_double (com cfg) X ltac:(lra) HC HX) as (A & B & C & D & _ & E & F & _).
  apply (numba_table_error _ _ _ _ cfg X (2 ^ 53) table p res sF double_rounding A B C D E F); auto.
  intros Ha. split; [auto|split; [exact double_counts|]].
  apply Rle_trans with (1 := HC). change (2 ^ 53)%Z with (2 ^ Z.of_nat 53)%Z. rewrite IZR_2pow. apply Rle_pow; [lra|lia].
Qed.
Print Assumptions C145_double.

(** C145: a column of equal observations comes back unchanged, whatever the arithmetic. *)
Theorem C145_constant_exact :
  forall rnd cfg (table : list (list fl)) p res sF j c,
  initial_value cfg = NaN \/ initial_value cfg = Fin c ->
  Forall (fun row => length row = p) table -> (j < p)%nat ->
  Forall (fun x => x = NaN \/ x = Fin c) (column j table) ->
  numba_ewma_r rnd cfg table None = Some (res, sF) ->
  forall t y, nth_error (column j res) t = Some y ->
    let os := firstn (t + 1) (map (observation 0) (column j table)) in
    y = when_enough (min_periods cfg) os
          match valid_obs (observation 0 (initial_value cfg) :: os) with [] => None | _ => Some c end.
Proof. exact @numba_table_constant. Qed.
Print Assumptions C145_constant_exact.

(** C145: the compiled loop and the jax module stay close ... *)
Theorem C145_agreement :
  forall u eta rd fm cfg X N (table : list (list fl)) p res sF j ys s,
  rounding u eta rd -> 0 <= u -> 0 <= eta ->
  100 * u * (1 + com cfg) ^ 2 <= 1 -> 0 <= X ->
  eta * (1 + com cfg) <= u * Rmin 1 X -> 8 * (1 + com cfg) * Rmax 1 X <= fm ->
  (adjust cfg = AdjLinear -> rd (com cfg) = com cfg /\ counts_to rd N /\ 1 + com cfg <= IZR N) ->
  Forall (fun row => length row = p) table -> Forall (Forall (bounded X)) table -> bounded X (initial_value cfg) ->
  numba_ewma_r (round_to rd fm) cfg table None = Some (res, sF) ->
  (j < p)%nat -> run (EWMA_r (round_to rd fm) fm cfg) (column j table) = Some (ys, s) ->
  forall t a b, nth_error (column j res) t = Some a -> nth_error ys t = Some b ->
    (adjust cfg = AdjLinear -> ignore_na cfg = true \/
       complete_from_first (observation fm (initial_value cfg) :: firstn (t + 1) (map (observation fm) (column j table)))) ->
    within (160 * u * (1 + com cfg) ^ 2 * X) a b.
Proof. exact @numba_table_agrees. Qed.
Print Assumptions C145_agreement.

(** ... but are not equal bit for bit (C25 holds in exact arithmetic): on 3, 3 with com = 4 in single precision one
    returns 3, 3 and the other 3, 3 + 2^-22. *)
Theorem C145_bitwise_agreement_refuted :
  exists sF s,
  let cfg := EwmaCfg 4 0 AdjTrue false NaN in
  numba_ewma_r (round_to single max_single) cfg [[Fin 3]; [Fin 3]] None = Some ([[Fin 3]; [Fin 3]], sF) /\
  run (EWMA_r (round_to single max_single) max_single cfg) [Fin 3; Fin 3] =
    Some ([Fin 3; Fin (12582913 / 4194304)], s) /\ Fin 3 <> Fin (12582913 / 4194304).
Proof.
  destruct (numba_three max_single) as (sF & A).
  assert (M : 100 <= max_single).
  { pose proof max_single_ge as M. apply Rle_trans with (2 := M). apply Rle_trans with (2 ^ 7); [lra|]. apply Rle_pow; [lra|lia]. }
  destruct (ex_constant max_single M) as (s & B).
  exists sF, s. split; [exact A|split; [exact B|]]. intros E. assert (Q : 3 = 12582913 / 4194304) by congruence. lra.
Qed.
Print Assumptions C145_bitwise_agreement_refuted.

(** C145: with exact arithmetic, the rounded loop is the loop of C25. *)
Theorem C145_exact_arithmetic :
  forall cfg values state, numba_ewma_r (fun v => v) cfg values state = numba_ewma cfg values state.
Proof. exact numba_exact. Qed.
Print Assumptions C145_exact_arithmetic.

(** C146: the error of EWMA with adjust="linear" does not grow with the length of the series either. *)
Theorem C146_error_linear :
  forall u eta rd fm cfg X N xs ys sF,
  rounding u eta rd -> 0 <= u -> 0 <= eta -> 0 < com cfg -> adjust cfg = AdjLinear ->
  100 * u * (1 + com cfg) ^ 2 <= 1 -> 0 <= X ->
  eta * (1 + com cfg) <= u * Rmin 1 X -> 8 * (1 + com cfg) * Rmax 1 X <= fm ->
  rd (com cfg) = com cfg -> counts_to rd N -> 1 + com cfg <= IZR N ->
  Forall (bounded X) xs -> bounded X (initial_value cfg) ->
  run (EWMA_r (round_to rd fm) fm cfg) xs = Some (ys, sF) ->
  forall t y, nth_error ys t = Some y ->
    let os := firstn (t + 1) (map (observation fm) xs) in
    let seen := observation fm (initial_value cfg) :: os in
    ignore_na cfg = true \/ complete_from_first seen ->
    within (80 * u * (1 + com cfg) ^ 2 * X) y
      (when_enough (min_periods cfg) os
        match valid_obs seen with [] => None | l => Some (linear_recursion (1 / (1 + com cfg)) l) end).
Proof.
  intros u eta rd fm cfg X N xs ys sF HR Hu He Hc Ha Hs HX Ht Hm L1 L2 L3 Hxs Hi Hr t y Hy os seen Hl.
  pose proof (haiku_series u eta rd fm cfg X N xs ys sF HR Hu He Hc Hs HX Ht Hm (fun _ => conj L1 (conj L2 L3)) Hxs Hi Hr t y Hy
    (fun _ => Hl)) as G. rewrite Ha in G. exact G.
Qed.
Print Assumptions C146_error_linear.

(** C146 in single precision: com < 256, observations between 2^-100 and 2^100 at most. *)
Theorem C146_single_linear :
  forall cfg X xs ys sF,
  0 < com cfg -> 1 + com cfg <= 2 ^ 8 -> adjust cfg = AdjLinear -> / 2 ^ 100 <= X <= 2 ^ 100 ->
  single (com cfg) = com cfg ->
  Forall (bounded X) xs -> bounded X (initial_value cfg) ->
  run (EWMA_r (round_to single max_single) max_single cfg) xs = Some (ys, sF) ->
  forall t y, nth_error ys t = Some y ->
    let os := firstn (t + 1) (map (observation max_single) xs) in
    let seen := observation max_single (initial_value cfg) :: os in
    ignore_na cfg = true \/ complete_from_first seen ->
    within (80 * / 2 ^ 24 * (1 + com cfg) ^ 2 * X) y
      (when_enough (min_periods cfg) os
        match valid_obs seen with [] => None | l => Some (linear_recursion (1 / (1 + com cfg)) l) end).
Proof.
  intros cfg X xs ys sF Hc HC Ha HX Hrep Hxs Hi Hr.
  destruct (side_single (com cfg) X ltac:(lra) HC HX) as (A & B & C & D & _ & E & F & _).
  apply (C146_error_linear _ _ _ _ cfg X (2 ^ 24) xs ys sF single_rounding A B Hc Ha C D E F Hrep single_counts); auto.
  apply Rle_trans with (1 := HC). change (2 ^ 24)%Z with (2 ^ Z.of_nat 24)%Z. rewrite IZR_2pow. apply Rle_pow; [lra|lia].
Qed.
Print Assumptions C146_single_linear.

Lemma three_range : / 2 ^ 100 <= 3 <= 2 ^ 100 /\ / 2 ^ 900 <= 3 <= 2 ^ 900.
Proof.
  assert (P : forall n, (2 <= n)%nat -> / 2 ^ n <= 3 <= 2 ^ n).
  { intros n Hn. split.
    - apply Rle_trans with 1; [|lra]. rewrite <- Rinv_1. apply Rinv_le_contravar; [lra|]. apply pow_R1_Rle; lra.
    - apply Rle_trans with (2 ^ 2); [lra|]. apply Rle_pow; [lra|auto]. }
  split; apply P; lia.
Qed.

(** The hypotheses of C145_double hold for a table of two columns with a missing value. *)
Example C145_example :
  let cfg := EwmaCfg 4 0 AdjTrue false NaN in
  let table := [[Fin 3; NaN]; [Fin (-2); Fin 1]] in
  1 + com cfg <= 2 ^ 23 /\ / 2 ^ 900 <= 3 <= 2 ^ 900 /\ (adjust cfg = AdjLinear -> double (com cfg) = com cfg) /\
  Forall (fun row => length row = 2%nat) table /\ Forall (Forall (bounded 3)) table /\ bounded 3 (initial_value cfg) /\
  exists res sF, numba_ewma_r (round_to double max_double) cfg table None = Some (res, sF).
Proof.
  cbv zeta. cbn [com adjust initial_value bounded].
  split; [lra|split; [exact (proj2 three_range)|split; [discriminate|split; [repeat constructor|split; [|split; [exact I|]]]]]].
  - repeat (apply Forall_cons; [repeat (apply Forall_cons; [cbn [bounded]; try exact I; apply Rabs_le; lra|]); apply Forall_nil|]).
    apply Forall_nil.
  - unfold numba_ewma_r. cbn [com]. rewrite Proofs.FloatFacts.Rlt_b_true by lra.
    match goal with |- exists res sF, Some ?q = _ => destruct q as [res sF] eqn:E end. exists res, sF. reflexivity.
Qed.

(** The hypotheses of C146_single_linear hold: com = 4 is a single precision number. *)
Example C146_example :
  let cfg := EwmaCfg 4 0 AdjLinear true NaN in
  0 < com cfg /\ 1 + com cfg <= 2 ^ 8 /\ adjust cfg = AdjLinear /\ / 2 ^ 100 <= 3 <= 2 ^ 100 /\
  single (com cfg) = com cfg /\ Forall (bounded 3) [Fin 3; NaN; Fin (-2)] /\ bounded 3 (initial_value cfg) /\
  exists ys sF, run (EWMA_r (round_to single max_single) max_single cfg) [Fin 3; NaN; Fin (-2)] = Some (ys, sF).
Proof.
  cbv zeta. cbn [com adjust initial_value bounded].
  split; [lra|split; [lra|split; [reflexivity|split; [exact (proj1 three_range)|split; [|split; [|split; [exact I|]]]]]]].
  - destruct single_counts as [A _]. exact (A 4%Z ltac:(lia)).
  - repeat (apply Forall_cons; [cbn [bounded]; try exact I; apply Rabs_le; lra|]). apply Forall_nil.
  - eexists. eexists. apply (Proofs.RunFacts.run_eq (fun _ : fl => ewma_init _)).
Qed.
