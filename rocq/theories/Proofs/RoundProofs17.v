(** The compiled exponential average with rounding: tables, agreement with the module. *)
From Coq Require Import List ZArith Reals Lra Lia Bool.
From Verif Require Import Model.Unroll Model.Float Model.Modules Model.Ewm Model.Rounded Model.RoundedNumba Spec.EwmSpec
  Spec.RoundSpec Spec.EwmModesSpec Proofs.FloatFacts Proofs.ListFacts Proofs.RunFacts Proofs.EwmFacts Proofs.EwmProofs Proofs.EwmExtra
  Proofs.RoundProofs Proofs.RoundProofs2 Proofs.RoundProofs3 Proofs.RoundProofs5 Proofs.RoundProofs13 Proofs.RoundProofs14 Proofs.RoundProofs15
  Proofs.RoundProofs16.
Import ListNotations.
Local Open Scope R_scope.

Lemma spec_value fm cfg xs t : 0 < com cfg -> (t < length xs)%nat ->
  let os := map (observation fm) xs in
  let i := observation fm (initial_value cfg) in
  (adjust cfg = AdjLinear -> ignore_na cfg = true \/ complete_from_first (i :: firstn (t + 1) os)) ->
  when_enough (min_periods cfg) (firstn (t + 1) os) (fst (rstate cfg i (firstn (t + 1) os))) =
  when_enough (min_periods cfg) (firstn (t + 1) os)
    (exp_weighted (adjust cfg) (ignore_na cfg) (1 / (1 + com cfg)) (i :: firstn (t + 1) os)).
Proof.
  intros Hc Hlt os i Hl. destruct xs as [|x0 r]; [simpl in Hlt; lia|].
  destruct (run_total (fun _ : fl => ewma_init cfg) (fun s x => let '((r, _), s') := ewma_step fm cfg s x in (r, s')) x0 r)
    as (ys' & sF' & Hr'). fold (EWMA fm cfg) in Hr'.
  destruct (ewma_run fm cfg _ ys' sF' ltac:(lra) Hr') as (_ & A). specialize (A t Hlt). cbv zeta in A. fold os i in A.
  unfold exp_weighted. destruct (adjust cfg) eqn:Ea.
  - destruct (ewma_adjust_true fm cfg _ ys' sF' Hc Ea Hr') as (_ & B). specialize (B t Hlt). cbv zeta in B. fold os i in B. congruence.
  - destruct (ewma_adjust_false fm cfg _ ys' sF' ltac:(lra) Ea Hr') as (_ & B). specialize (B t Hlt). cbv zeta in B. fold os i in B. congruence.
  - pose proof (ewma_linear fm cfg _ ys' sF' ltac:(lra) Ea Hr' t Hlt (Hl eq_refl)) as B. cbv zeta in B. fold os i in B. congruence.
Qed.

Lemma numba_series u eta rd fm cfg X N xs ys sF :
  rounding u eta rd -> 0 <= u -> 0 <= eta -> 0 < com cfg ->
  100 * u * (1 + com cfg) ^ 2 <= 1 -> 0 <= X ->
  eta * (1 + com cfg) <= u * Rmin 1 X -> 8 * (1 + com cfg) * Rmax 1 X <= fm ->
  (adjust cfg = AdjLinear -> rd (com cfg) = com cfg /\ counts_to rd N /\ 1 + com cfg <= IZR N) ->
  Forall (bounded X) xs -> bounded X (initial_value cfg) ->
  run (numba_mod (round_to rd fm) cfg) xs = Some (ys, sF) ->
  forall t y, nth_error ys t = Some y ->
    let os := firstn (t + 1) (map (observation fm) xs) in
    let seen := observation fm (initial_value cfg) :: os in
    (adjust cfg = AdjLinear -> ignore_na cfg = true \/ complete_from_first seen) ->
    within (80 * u * (1 + com cfg) ^ 2 * X) y
      (when_enough (min_periods cfg) os (exp_weighted (adjust cfg) (ignore_na cfg) (1 / (1 + com cfg)) seen)).
Proof.
  intros HR Hu He Hc Hs HX Ht Hm HL Hxs Hi Hr t y Hy os seen Hl.
  assert (Hlen : length ys = length xs).
  { destruct (run_nonempty _ _ _ _ Hr) as (x0 & r & ->). exact (proj1 (run_nth (fun _ : fl => ewma_init cfg) _ x0 r ys sF Hr)). }
  assert (Hlt : (t < length xs)%nat) by (rewrite <- Hlen; apply nth_error_Some; congruence).
  assert (Z := spec_value fm cfg xs t Hc Hlt). cbv zeta in Z. fold os in Z. fold seen in Z. rewrite <- (Z Hl).
  assert (D : adjust cfg = AdjLinear \/ adjust cfg <> AdjLinear) by (destruct (adjust cfg); (left; congruence) || (right; congruence)).
  destruct D as [D|D].
  - destruct (HL D) as (L1 & L2 & L3).
    destruct (numba_linear_run u eta rd fm cfg X HR Hu He ltac:(lra) Hs HX Ht Hm Hi N L1 L2 L3 xs ys sF D Hxs Hr) as (_ & G).
    apply (G t y Hy). exact (Hl D).
  - destruct (numba_run u eta rd fm cfg X HR Hu He ltac:(lra) Hs HX Ht Hm Hi xs ys sF D Hxs Hr) as (_ & G).
    apply (G t y Hy).
Qed.

Lemma haiku_series u eta rd fm cfg X N xs ys sF :
  rounding u eta rd -> 0 <= u -> 0 <= eta -> 0 < com cfg ->
  100 * u * (1 + com cfg) ^ 2 <= 1 -> 0 <= X ->
  eta * (1 + com cfg) <= u * Rmin 1 X -> 8 * (1 + com cfg) * Rmax 1 X <= fm ->
  (adjust cfg = AdjLinear -> rd (com cfg) = com cfg /\ counts_to rd N /\ 1 + com cfg <= IZR N) ->
  Forall (bounded X) xs -> bounded X (initial_value cfg) ->
  run (EWMA_r (round_to rd fm) fm cfg) xs = Some (ys, sF) ->
  forall t y, nth_error ys t = Some y ->
    let os := firstn (t + 1) (map (observation fm) xs) in
    let seen := observation fm (initial_value cfg) :: os in
    (adjust cfg = AdjLinear -> ignore_na cfg = true \/ complete_from_first seen) ->
    within (80 * u * (1 + com cfg) ^ 2 * X) y
      (when_enough (min_periods cfg) os (exp_weighted (adjust cfg) (ignore_na cfg) (1 / (1 + com cfg)) seen)).
Proof.
  intros HR Hu He Hc Hs HX Ht Hm HL Hxs Hi Hr t y Hy os seen Hl.
  assert (Hlen : length ys = length xs).
  { destruct (run_nonempty _ _ _ _ Hr) as (x0 & r & ->). exact (proj1 (run_nth (fun _ : fl => ewma_init cfg) _ x0 r ys sF Hr)). }
  assert (Hlt : (t < length xs)%nat) by (rewrite <- Hlen; apply nth_error_Some; congruence).
  assert (Z := spec_value fm cfg xs t Hc Hlt). cbv zeta in Z. fold os in Z. fold seen in Z. rewrite <- (Z Hl).
  assert (D : adjust cfg = AdjLinear \/ adjust cfg <> AdjLinear) by (destruct (adjust cfg); (left; congruence) || (right; congruence)).
  destruct D as [D|D].
  - destruct (HL D) as (L1 & L2 & L3).
    destruct (haiku_linear_run u eta rd fm cfg X HR Hu He ltac:(lra) Hs HX Ht Hm Hi N L1 L2 L3 xs ys sF D Hxs Hr) as (_ & G).
    apply (G t y Hy). exact (Hl D).
  - destruct (ewma_r_run u eta rd fm cfg X HR Hu He ltac:(lra) D Hs HX Ht Hm xs ys sF Hxs Hi Hr) as (_ & G).
    apply (G t y Hy).
Qed.

(** *** tables *)
Lemma in_column j (table : list (list fl)) (Q : fl -> Prop) : Q NaN -> Forall (Forall Q) table -> Forall Q (column j table).
Proof.
  intros HN H. apply Forall_forall. intros v Hv. unfold column in Hv. apply in_map_iff in Hv. destruct Hv as (row & <- & Hr).
  rewrite Forall_forall in H. specialize (H row Hr). rewrite Forall_forall in H.
  destruct (nth_in_or_default j row NaN) as [Hin| ->]; auto.
Qed.

Lemma numba_table_error : forall u eta rd fm cfg X N (table : list (list fl)) p res sF,
  rounding u eta rd -> 0 <= u -> 0 <= eta ->
  100 * u * (1 + com cfg) ^ 2 <= 1 -> 0 <= X ->
  eta * (1 + com cfg) <= u * Rmin 1 X -> 8 * (1 + com cfg) * Rmax 1 X <= fm ->
  (adjust cfg = AdjLinear -> rd (com cfg) = com cfg /\ counts_to rd N /\ 1 + com cfg <= IZR N) ->
  Forall (fun row => length row = p) table -> Forall (Forall (bounded X)) table -> bounded X (initial_value cfg) ->
  numba_ewma_r (round_to rd fm) cfg table None = Some (res, sF) ->
  length res = length table /\ Forall (fun row => length row = p) res /\
  forall j t y, (j < p)%nat -> nth_error (column j res) t = Some y ->
    let os := firstn (t + 1) (map (observation fm) (column j table)) in
    let seen := observation fm (initial_value cfg) :: os in
    (adjust cfg = AdjLinear -> ignore_na cfg = true \/ complete_from_first seen) ->
    within (80 * u * (1 + com cfg) ^ 2 * X) y
      (when_enough (min_periods cfg) os (exp_weighted (adjust cfg) (ignore_na cfg) (1 / (1 + com cfg)) seen)).
Proof.
  intros u eta rd fm cfg X N table p res sF HR Hu He Hs HX Ht Hm HL Hp Hb Hi Hn.
  destruct (numba_columns _ cfg table p res sF Hp Hn) as (Hc & A & B & G). split; [exact A|split; [exact B|]].
  intros j t y Hj Hy. destruct (G j Hj) as (s & Hr).
  exact (numba_series u eta rd fm cfg X N (column j table) _ s HR Hu He Hc Hs HX Ht Hm HL
    (in_column j table (bounded X) I Hb) Hi Hr t y Hy).
Qed.

Lemma numba_table_constant : forall rnd cfg (table : list (list fl)) p res sF j c,
  initial_value cfg = NaN \/ initial_value cfg = Fin c ->
  Forall (fun row => length row = p) table -> (j < p)%nat ->
  Forall (fun x => x = NaN \/ x = Fin c) (column j table) ->
  numba_ewma_r rnd cfg table None = Some (res, sF) ->
  forall t y, nth_error (column j res) t = Some y ->
    let os := firstn (t + 1) (map (observation 0) (column j table)) in
    y = when_enough (min_periods cfg) os
          match valid_obs (observation 0 (initial_value cfg) :: os) with [] => None | _ => Some c end.
Proof.
  intros rnd cfg table p res sF j c Hi Hp Hj Hcol Hn t y Hy.
  destruct (numba_columns _ cfg table p res sF Hp Hn) as (_ & _ & _ & G). destruct (G j Hj) as (s & Hr).
  destruct (numba_constant_run rnd cfg c _ _ _ Hi Hcol Hr) as (_ & Q). cbv zeta. rewrite firstn_map. exact (Q t y Hy).
Qed.

Lemma within_trans e x y z : within e x z -> within e y z -> within (2 * e) x y.
Proof.
  destruct x, y, z; cbn [within]; try contradiction; auto. intros A B. apply abs_inv in A. apply abs_inv in B. apply abs_le; lra.
Qed.

Lemma numba_table_agrees : forall u eta rd fm cfg X N (table : list (list fl)) p res sF j ys s,
  rounding u eta rd -> 0 <= u -> 0 <= eta ->
  100 * u * (1 + com cfg) ^ 2 <= 1 -> 0 <= X ->
  eta * (1 + com cfg) <= u * Rmin 1 X -> 8 * (1 + com cfg) * Rmax 1 X <= fm ->
  (adjust cfg = AdjLinear -> rd (com cfg) = com cfg /\ counts_to rd N /\ 1 + com cfg <= IZR N) ->
  Forall (fun row => length row = p) table -> Forall (Forall (bounded X)) table -> bounded X (initial_value cfg) ->
  numba_ewma_r (round_to rd fm) cfg table None = Some (res, sF) ->
  (j < p)%nat -> run (EWMA_r (round_to rd fm) fm cfg) (column j table) = Some (ys, s) ->
  forall t a b, nth_error (column j res) t = Some a -> nth_error ys t = Some b ->
    (adjust cfg = AdjLinear -> ignore_na cfg = true \/
       complete_from_first (observation fm (initial_value cfg) :: firstn (t + 1) (map (observation fm) (column j table)))) ->
    within (160 * u * (1 + com cfg) ^ 2 * X) a b.
Proof.
  intros u eta rd fm cfg X N table p res sF j ys s HR Hu He Hs HX Ht Hm HL Hp Hb Hi Hn Hj Hh t a b Ha Hb' Hl.
  destruct (numba_columns _ cfg table p res sF Hp Hn) as (Hc & _).
  destruct (numba_table_error u eta rd fm cfg X N table p res sF HR Hu He Hs HX Ht Hm HL Hp Hb Hi Hn) as (_ & _ & G).
  specialize (G j t a Hj Ha Hl).
  assert (G' := haiku_series u eta rd fm cfg X N (column j table) ys s HR Hu He Hc Hs HX Ht Hm HL
    (in_column j table (bounded X) I Hb) Hi Hh t b Hb' Hl). cbv zeta in G, G'.
  replace (160 * u * (1 + com cfg) ^ 2 * X) with (2 * (80 * u * (1 + com cfg) ^ 2 * X)) by ring.
  eapply within_trans; eassumption.
Qed.

(** *** 3, 3 in single precision, com = 4: the compiled loop returns 3, 3 *)
Lemma numba_three fm : exists sF,
  numba_ewma_r (round_to single fm) ex_cfg [[Fin 3]; [Fin 3]] None = Some ([[Fin 3]; [Fin 3]], sF).
Proof.
  unfold numba_ewma_r, ex_cfg. rewrite Rlt_b_true by (cbn [com]; lra).
  cbn [map numba_rows_r numba_row_r map2]. unfold numba_row_r, ewma_init. cbn [map2 map].
  unfold numba_cell_r at 2. cbn [ew_mean old_wt nobs initial_value com adjust ignore_na min_periods isnan negb orb truthy fst snd].
  unfold numba_cell_r. cbn [ew_mean old_wt nobs initial_value com adjust ignore_na min_periods isnan negb orb truthy fst snd].
  rewrite fne_refl. eexists. reflexivity.
Qed.
