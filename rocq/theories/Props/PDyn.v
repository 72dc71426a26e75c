(** Property theorems C27-C33: masks, event-driven modules, linear filters and the gym feedback.
    [run m xs] is [unroll] of the module [m] on the series [xs] (without overrides). *)
From Coq Require Import List Arith Lia Reals Lra Bool.
From Verif Require Import Model.Tree Model.Unroll Model.Float Model.Modules Model.Ewm Model.Masks
  Model.Dynamics Spec.SeriesSpec Spec.EwmSpec Spec.MaskSpec Spec.DynSpec Spec.CovSpec Proofs.FloatFacts Proofs.MaskProofs Proofs.DynProofs Proofs.DynProofs2
  Proofs.EwmExamples.
Import ListNotations.
Local Open Scope R_scope.

(** C27: without axis, entry by entry. *)
Theorem C27_apply_mask :
  forall v mask x,
  well_shaped mask -> well_shaped x -> shape mask = shape x ->
  exists y, apply_mask None v mask x = Some y /\ shape y = shape x /\ well_shaped y /\
    forall k b a, nth_error (data mask) k = Some b -> nth_error (data x) k = Some a ->
      nth_error (data y) k = Some (if b then a else v).
Proof. exact @apply_mask_none. Qed.
Print Assumptions C27_apply_mask.

(** C27: axis=0, the mask selects rows. *)
Theorem C27_apply_mask_axis0 :
  forall v c m rows,
  rectangular c rows -> length m = length rows ->
  exists rows', apply_mask (Some 0%nat) v (Arr [length m] m) (matrix c rows) = Some (matrix c rows') /\
    length rows' = length rows /\ rectangular c rows' /\
    forall i j b a, nth_error m i = Some b -> nth2 rows i j = Some a ->
      nth2 rows' i j = Some (if b then a else v).
Proof. exact @apply_mask_axis0. Qed.
Print Assumptions C27_apply_mask_axis0.

(** C27: axis=1, the mask selects columns. *)
Theorem C27_apply_mask_axis1 :
  forall v m rows,
  rectangular (length m) rows ->
  exists rows', apply_mask (Some 1%nat) v (Arr [length m] m) (matrix (length m) rows) =
      Some (matrix (length m) rows') /\
    length rows' = length rows /\ rectangular (length m) rows' /\
    forall i j b a, nth_error m j = Some b -> nth2 rows i j = Some a ->
      nth2 rows' i j = Some (if b then a else v).
Proof. exact @apply_mask_axis1. Qed.
Print Assumptions C27_apply_mask_axis1.

(** C27: incompatible shapes, and only those, raise. *)
Theorem C27_apply_mask_raises :
  forall axis v mask x,
  apply_mask axis v mask x = None <->
  match axis with
  | None => shape x <> shape mask
  | Some 0%nat => ~ exists c, shape x = [length (data mask); c]
  | Some 1%nat => ~ exists r, shape x = [r; length (data mask)]
  | Some _ => True
  end.
Proof. exact @apply_mask_raises. Qed.
Print Assumptions C27_apply_mask_raises.

(** C27: a pytree input is masked leaf by leaf. *)
Theorem C27_apply_mask_tree :
  forall axis v mask (t t' : tree (arr fl)),
  ApplyMask axis v mask t = Some t' <->
  tree_def t' = tree_def t /\
  Forall2 (fun a b => apply_mask axis v mask a = Some b) (tree_leaves t) (tree_leaves t').
Proof. intros. apply tree_mapM_spec. Qed.
Print Assumptions C27_apply_mask_tree.

Example C27_example :
  apply_mask (Some 0%nat) NaN (Arr [2%nat] [true; false]) (matrix 2 [[Fin 1; Fin 2]; [Fin 3; Fin 4]]) =
    Some (matrix 2 [[Fin 1; Fin 2]; [NaN; NaN]]) /\
  apply_mask (Some 1%nat) NaN (Arr [2%nat] [true; false]) (matrix 2 [[Fin 1; Fin 2]; [Fin 3; Fin 4]]) =
    Some (matrix 2 [[Fin 1; NaN]; [Fin 3; NaN]]).
Proof. split; reflexivity. Qed.

(** C28: mean of the selected contributions (an unmasked NaN counts as 0, and is counted), NaN if nothing
    is selected. *)
Theorem C28_mask_mean :
  forall fm mask x,
  well_shaped mask -> well_shaped x -> shape mask = shape x ->
  mask_mean fm None mask x =
  Some (Arr [] [mean_or_nan (map (contribution fm) (selected (data mask) (data x)))]).
Proof. exact @mask_mean_none. Qed.
Print Assumptions C28_mask_mean.

Theorem C28_mask_mean_axis0 :
  forall fm c ms rows,
  rectangular c ms -> rectangular c rows -> length ms = length rows ->
  mask_mean fm (Some 0%nat) (matrix c ms) (matrix c rows) =
  Some (Arr [c] (map (fun j => mean_or_nan (map (contribution fm)
      (selected (col false j ms) (col NaN j rows)))) (seq 0 c))).
Proof. exact @mask_mean_axis0. Qed.
Print Assumptions C28_mask_mean_axis0.

Theorem C28_mask_mean_axis1 :
  forall fm c ms rows,
  rectangular c ms -> rectangular c rows -> length ms = length rows ->
  mask_mean fm (Some 1%nat) (matrix c ms) (matrix c rows) =
  Some (Arr [length rows] (map2 (fun m r => mean_or_nan (map (contribution fm) (selected m r))) ms rows)).
Proof. exact @mask_mean_axis1. Qed.
Print Assumptions C28_mask_mean_axis1.

(** C28: standard deviation of the selected values. *)
Theorem C28_mask_std :
  forall fm eps centered mask x,
  0 <= eps -> well_shaped mask -> well_shaped x -> shape mask = shape x ->
  mask_std fm eps None centered mask x =
  let l := map (contribution fm) (selected (data mask) (data x)) in
  Some (Arr [] [std_of eps (if centered then second_moment l else var_of l) l]).
Proof. exact @mask_std_none. Qed.
Print Assumptions C28_mask_std.

Theorem C28_mask_std_axis0 :
  forall fm eps centered c ms rows,
  0 <= eps -> rectangular c ms -> rectangular c rows -> length ms = length rows ->
  mask_std fm eps (Some 0%nat) centered (matrix c ms) (matrix c rows) =
  Some (Arr [c] (map (fun j =>
      let l := map (contribution fm) (selected (col false j ms) (col NaN j rows)) in
      std_of eps (if centered then second_moment l else var_of l) l) (seq 0 c))).
Proof. exact @mask_std_axis0. Qed.
Print Assumptions C28_mask_std_axis0.

Theorem C28_mask_std_axis1_centered :
  forall fm eps c ms rows,
  0 <= eps -> rectangular c ms -> rectangular c rows -> length ms = length rows ->
  mask_std fm eps (Some 1%nat) true (matrix c ms) (matrix c rows) =
  Some (Arr [length rows] (map2 (fun m r =>
      let l := map (contribution fm) (selected m r) in std_of eps (second_moment l) l) ms rows)).
Proof. exact @mask_std_axis1_centered. Qed.
Print Assumptions C28_mask_std_axis1_centered.

(** C28: with axis=1 and assume_centered=False, MaskStd raises unless the matrix is square ... *)
Theorem C28_mask_std_axis1_raises :
  forall fm eps c ms rows,
  rectangular c ms -> rectangular c rows -> length ms = length rows ->
  length rows <> 1%nat -> length rows <> c ->
  mask_std fm eps (Some 1%nat) false (matrix c ms) (matrix c rows) = None.
Proof. exact @mask_std_axis1_raises. Qed.
Print Assumptions C28_mask_std_axis1_raises.

(** ... and is wrong on square matrices: the row means are subtracted from the columns. *)
Theorem C28_mask_std_axis1_refuted :
   exists y,
  mask_std 1000 0 (Some 1%nat) false (matrix 2 [[true; true]; [true; true]])
    (matrix 2 [[Fin 1; Fin 3]; [Fin 5; Fin 9]]) = Some y /\
  data y = [Fin (sqrt (17/2)); Fin (sqrt (13/2))] /\
  std_of 0 (var_of [1; 3]) [1; 3] = Fin 1 /\
  std_of 0 (var_of [5; 9]) [5; 9] = Fin 2.
Proof. exact @mask_std_axis1_wrong. Qed.
Print Assumptions C28_mask_std_axis1_refuted.

(** C28: values under the mask have no influence (any axis). *)
Theorem C28_masked_values_irrelevant :
  forall fm eps axis centered mask x x',
  well_shaped mask -> well_shaped x -> well_shaped x' -> same_where mask x x' ->
  mask_mean fm axis mask x = mask_mean fm axis mask x' /\
  mask_std fm eps axis centered mask x = mask_std fm eps axis centered mask x'.
Proof. exact @mask_stats_same. Qed.
Print Assumptions C28_masked_values_irrelevant.

(** C28: MaskNormalize divides by the standard deviation; it does not centre its input. *)
Theorem C28_mask_normalize :
  forall fm eps centered mask x,
  0 <= eps -> well_shaped mask -> well_shaped x -> shape mask = shape x ->
  exists y, mask_normalize fm eps None centered mask x = Some y /\ shape y = shape x /\
    length (data y) = length (data x) /\
    let l := map (contribution fm) (selected (data mask) (data x)) in
    let v := if centered then second_moment l else var_of l in
    forall k a, nth_error (data x) k = Some a ->
      nth_error (data y) k = Some (Fin (match a with
        | Fin r => if Rlt_b 0 v then match l with [] => 0 | _ => r / sqrt (eps + v) end else 0
        | _ => 0 end)).
Proof. exact @mask_normalize_none. Qed.
Print Assumptions C28_mask_normalize.

Theorem C28_mask_normalize_finite :
  forall fm eps axis centered mask x y,
  mask_normalize fm eps axis centered mask x = Some y -> Forall (fun v => isfinite v = true) (data y).
Proof. exact @mask_normalize_finite. Qed.
Print Assumptions C28_mask_normalize_finite.

Example C28_example :
  mask_mean 1000 None (Arr [3%nat] [true; false; true]) (Arr [3%nat] [Fin 1; NaN; Fin 4]) = Some (Arr [] [Fin (5/2)]) /\
  well_shaped (Arr [3%nat] [true; false; true]) /\
  same_where (Arr [3%nat] [true; false; true]) (Arr [3%nat] [Fin 1; NaN; Fin 4]) (Arr [3%nat] [Fin 1; Fin 7; Fin 4]).
Proof.
  split; [|split; [reflexivity|split; [reflexivity|]]].
  - rewrite mask_mean_none; try reflexivity. cbn. unfold mean_of, total. cbn. do 3 f_equal. f_equal. lra.
  - intros [|[|[|k]]] H; cbn in *; try reflexivity; try discriminate. 
Qed.

(** C29: the bar at step t is the bar of the valid values since the last reset. *)
Theorem C29_ohlc :
  forall (xs : list (fl * bool)) ys sF,
  run OHLC xs = Some (ys, sF) ->
  length ys = length xs /\
  forall t bin, (t < length xs)%nat -> is_bin (firstn (t + 1) xs) bin ->
  exists o, nth_error ys t = Some o /\ bar (valid_values bin) o.
Proof. exact @ohlc_run. Qed.
Print Assumptions C29_ohlc.

(** C29: low <= open <= high and low <= close <= high. *)
Theorem C29_bar_order :
  forall vs o,
  bar vs o -> vs <> [] -> Forall (fun v => v <> NaN) vs ->
  fle (o_low o) (o_open o) = true /\ fle (o_open o) (o_high o) = true /\
  fle (o_low o) (o_close o) = true /\ fle (o_close o) (o_high o) = true.
Proof. exact @bar_order. Qed.
Print Assumptions C29_bar_order.

(** C29: nothing older than a reset matters. *)
Theorem C29_ohlc_reset :
  forall pre v post ys sF ys' sF',
  run OHLC (pre ++ (v, true) :: post) = Some (ys, sF) ->
  run OHLC ((v, true) :: post) = Some (ys', sF') ->
  skipn (length pre) ys = ys' /\ sF = sF'.
Proof. exact @ohlc_reset. Qed.
Print Assumptions C29_ohlc_reset.

Example C29_example :
  exists sF, run OHLC [(Fin 2, false); (NaN, false); (Fin 5, false); (Fin 1, true); (Fin 3, false)] =
    Some ([Ohlc (Fin 2) (Fin 2) (Fin 2) (Fin 2); Ohlc (Fin 2) (Fin 2) (Fin 2) (Fin 2);
           Ohlc (Fin 2) (Fin 5) (Fin 2) (Fin 5); Ohlc (Fin 1) (Fin 1) (Fin 1) (Fin 1);
           Ohlc (Fin 1) (Fin 3) (Fin 1) (Fin 3)], sF).
Proof.
  eexists. cbv -[Rlt_b IZR]. repeat (rewrite ?Rlt_b_true by lra; rewrite ?Rlt_b_false by lra; cbv -[Rlt_b IZR]).
  reflexivity.
Qed.

(** C30: the output at step t is that of the last event (the initial output before any), and the
    wrapped module only sees the event steps. *)
Theorem C30_update_on_event :
  forall (K P S X Y : Type) (split : K -> K * K) (full_like : Y -> Y) (tf : transformed K P S X Y)
    rng params state e0 x0 exs ys sF p s prev,
  p = match params with Some p => p | None => fst (t_init tf rng x0) end ->
  (prev, s) = match state with
              | Some st => st
              | None => let '(p0, s0) := t_init tf rng x0 in
                        (full_like (fst (t_apply tf p0 s0 rng x0)), s0)
              end ->
  unroll split (update_on_event full_like tf) false rng params state ((e0, x0) :: exs) =
    Some (ys, sF) ->
  let all := (e0, x0) :: exs in
  snd sF = snd (drive tf p s (event_calls (step_keys split rng (length all)) all)) /\
  length ys = length all /\
  forall t, (t < length all)%nat ->
    nth_error ys t = Some (last (fst (drive tf p s
      (event_calls (step_keys split rng (t + 1)) (firstn (t + 1) all)))) prev).
Proof. exact @uoe_unroll. Qed.
Print Assumptions C30_update_on_event.

(** C30: inputs outside events are irrelevant. *)
Theorem C30_only_events_matter :
  forall (K P S X Y : Type) (split : K -> K * K) (full_like : Y -> Y) (tf : transformed K P S X Y)
    rng p st (exs exs' : list (bool * X)),
  map fst exs = map fst exs' ->
  (forall t x x', nth_error exs t = Some (true, x) -> nth_error exs' t = Some (true, x') -> x = x') ->
  unroll_apply split (update_on_event full_like tf) false p st rng exs =
  unroll_apply split (update_on_event full_like tf) false p st rng exs'.
Proof. exact @uoe_irrelevant. Qed.
Print Assumptions C30_only_events_matter.

(** A running sum updated on events. *)
Example C30_example :
  let sum := @Transformed unit unit nat nat nat (fun _ _ => (tt, 0%nat)) (fun _ s _ x => ((s + x)%nat, (s + x)%nat)) in
  unroll (fun k => (k, k)) (update_on_event (fun _ => 9%nat) sum) false None None None
    [(false, 1%nat); (true, 2%nat); (false, 3%nat); (true, 4%nat)] =
  Some ([9; 2; 2; 6]%nat, (6, 6)%nat).
Proof. reflexivity. Qed.

(** C31: the ARMA recursion ... *)
Theorem C31_arma :
  forall alpha beta eps outs sF,
  run (ARMA (map Fin alpha) (map Fin beta)) (map Fin eps) = Some (outs, sF) ->
  exists ys, outs = map Fin ys /\ arma_rec alpha beta eps ys.
Proof. exact @arma_run. Qed.
Print Assumptions C31_arma.

(** ... which determines the outputs, ... *)
Theorem C31_arma_unique :
  forall alpha beta eps ys ys',
  arma_rec alpha beta eps ys -> arma_rec alpha beta eps ys' -> ys = ys'.
Proof. exact @arma_rec_unique. Qed.
Print Assumptions C31_arma_unique.

(** ... and is linear in the noise. *)
Theorem C31_arma_linear :
  forall alpha beta a b e1 e2 y1 y2,
  length e1 = length e2 ->
  arma_rec alpha beta e1 y1 -> arma_rec alpha beta e2 y2 ->
  arma_rec alpha beta (lin a b e1 e2) (lin a b y1 y2).
Proof. exact @arma_linear. Qed.
Print Assumptions C31_arma_linear.

(** C31: whatever the coefficients and the noise (NaN included), the outputs are finite. *)
Theorem C31_arma_finite :
  forall alpha beta eps outs sF,
  run (ARMA alpha beta) eps = Some (outs, sF) -> Forall (fun y => isfinite y = true) outs.
Proof. exact @arma_finite. Qed.
Print Assumptions C31_arma_finite.

Example C31_example :
  exists sF, run (ARMA [Fin (1/2)] [Fin 2]) [Fin 1; Fin 0; Fin 4] =
    Some ([Fin 1; Fin (5/2); Fin (21/4)], sF).
Proof.
  destruct (run (ARMA [Fin (1/2)] [Fin 2]) [Fin 1; Fin 0; Fin 4]) as [[outs sF]|] eqn:E; [|discriminate].
  exists sF. do 2 f_equal.
  destruct (arma_run [1/2] [2] [1; 0; 4] outs sF E) as (ys & -> & L & H).
  destruct ys as [|a [|b [|c [|d ys]]]]; try discriminate.
  pose proof (H 0%nat ltac:(cbn; auto)) as H0. pose proof (H 1%nat ltac:(cbn; auto)) as H1.
  pose proof (H 2%nat ltac:(cbn; auto)) as H2.
  unfold arma_value, lagged in *. cbn in *. repeat f_equal; lra.
Qed.

(** C32: features and errors. *)
Theorem C32_snarimax :
  forall p q reg m yX preds sF,
  SNARIMAX p 0 q 0 0 0 reg = Some m -> run m yX = Some (preds, sF) ->
  exists errs, sn_rec p q reg yX preds errs.
Proof. exact @sn_run. Qed.
Print Assumptions C32_snarimax.

(** C32: other orders than (p, 0, q) are rejected. *)
Theorem C32_accepted_orders :
  forall p d q sp sd sq reg,
  SNARIMAX p d q sp sd sq reg = None <-> ~ (d = 0 /\ sp = 0 /\ sd = 0 /\ sq = 0)%nat.
Proof. exact @sn_orders. Qed.
Print Assumptions C32_accepted_orders.

(** C32: with p >= 1 the current target is one of the features: a regressor that reads the last feature
    "predicts" it. *)
Theorem C32_forecast_is_causal_refuted :
  forall p q yX m preds sF,
  (1 <= p)%nat ->
  SNARIMAX p 0 q 0 0 0 (fun X => last X NaN) = Some m -> run m yX = Some (preds, sF) ->
  forall t y X, nth_error yX t = Some (y, X) -> nth_error preds t = Some (zero_filled y).
Proof. exact @sn_leak. Qed.
Print Assumptions C32_forecast_is_causal_refuted.

Example C32_example :
  exists m sF, SNARIMAX 1 0 1 0 0 0 (fun X => nth 0 X NaN) = Some m /\
    run m [(Fin 1, []); (Fin 3, [])] = Some ([Fin 0; Fin (1 - 0)], sF).
Proof.
  eexists. eexists. split; [reflexivity|]. cbv -[Rplus Rminus Ropp IZR].
  reflexivity.
Qed.

(** C33: the loop: environment on the previous action, agent on the new observation. *)
Theorem C33_gym_feedback :
  forall (X O Act Rw IE IA SA SE : Type) (agent : SA -> O -> (Act * IA) * SA)
    (env : SE -> Act * X -> (Rw * O * IE) * SE) (sa0 : SA) (se0 : SE) (as_obs : X -> O)
    (return_obs return_action : bool) init_action x0 xs outs sF,
  run (GymFeedback agent env sa0 se0 as_obs return_obs return_action init_action) (x0 :: xs) = Some (outs, sF) ->
  length outs = length (x0 :: xs) /\
  exists (act : nat -> Act) (sa : nat -> SA) (se : nat -> SE),
    act 0%nat = match init_action with Some a => a | None => fst (fst (agent sa0 (as_obs x0))) end /\
    sa 0%nat = sa0 /\ se 0%nat = se0 /\
    forall t x, nth_error (x0 :: xs) t = Some x ->
      exists rw obs ie ia,
        env (se t) (act t, x) = ((rw, obs, ie), se (S t)) /\
        agent (sa t) obs = ((act (S t), ia), sa (S t)) /\
        nth_error outs t = Some (GymOut rw (if return_obs then Some obs else None)
           (if return_action then Some (act (S t)) else None), (ie, ia)).
Proof. exact @gym_run. Qed.
Print Assumptions C33_gym_feedback.

Example C33_example :
  let agent (s : nat) (o : nat) := ((o + s, tt), S s)%nat in
  let env (s : nat) (ax : nat * nat) := ((fst ax, snd ax, tt), s + fst ax)%nat in
  exists sF, run (GymFeedback agent env 0%nat 0%nat (fun x => x) true true (Some 7%nat)) [10; 20; 30]%nat =
  Some ([(GymOut 7 (Some 10) (Some 10), (tt, tt)); (GymOut 10 (Some 20) (Some 21), (tt, tt));
         (GymOut 21 (Some 30) (Some 32), (tt, tt))]%nat, sF).
Proof. eexists. reflexivity. Qed.
