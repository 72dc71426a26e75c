(** Property theorems C72-C76: flax OHLC, ARMA, masks, SNARIMAX and GymFeedback.
    [flax_from_scratch m xs]: the outputs of the module called on [xs] from the initial values of its variables. *)
From Coq Require Import List Arith ZArith Lia Reals Lra Bool.
From Verif Require Import Model.Tree Model.Unroll Model.Float Model.Modules Model.Ewm Model.Dynamics Model.Masks Model.FlaxModules
  Model.FlaxMore Spec.SeriesSpec Spec.DynSpec Spec.EwmSpec Spec.MaskSpec Spec.FlaxSpec Spec.FlaxMoreSpec
  Proofs.FloatFacts Proofs.FlaxMoreProofs Proofs.FlaxMaskProofs.
Import ListNotations.

(** C72: each output is the bar of the values since the last reset ([flax_bar]). *)
Theorem C72_bars :
  forall (xs : list (fl * bool)) t bin,
  t < length xs -> is_bin (firstn (t + 1) xs) bin ->
  exists o, nth_error (flax_from_scratch FOHLC xs) t = Some o /\ flax_bar bin o.
Proof. exact @fohlc_run. Qed.
Print Assumptions C72_bars.

(** C72: without missing values these are the bars of the haiku OHLC. *)
Theorem C72_haiku :
  forall xs,
  xs <> [] -> Forall (fun p => fst p <> NaN) xs -> same_outputs FOHLC OHLC xs.
Proof. exact @fohlc_same. Qed.
Print Assumptions C72_haiku.

(** C72: a missing value inside an open bar makes high and low NaN until the next reset ... *)
Theorem C72_missing_value_poisons :
  forall pre v mid post,
  isnan v = false ->
  Forall (fun p : fl * bool => snd p = false) (mid ++ (NaN, false) :: post) ->
  exists o, nth_error (flax_from_scratch FOHLC (pre ++ (v, true) :: mid ++ (NaN, false) :: post))
              (length pre + 1 + length mid + length post) = Some o /\
            ( post = [] -> o_close o = NaN) /\ o_open o = v /\ o_high o = NaN /\ o_low o = NaN.
Proof. exact @fohlc_nan_poisons. Qed.
Print Assumptions C72_missing_value_poisons.

(** ... and the agreement with haiku fails. *)
Theorem C72_haiku_nan_refuted :
   exists ys yf sF,
  run OHLC [(Fin 3, true); (NaN, false); (Fin 1, false)] = Some (ys, sF) /\
  flax_from_scratch FOHLC [(Fin 3, true); (NaN, false); (Fin 1, false)] = yf /\
  ys = [Ohlc (Fin 3) (Fin 3) (Fin 3) (Fin 3); Ohlc (Fin 3) (Fin 3) (Fin 3) (Fin 3); Ohlc (Fin 3) (Fin 3) (Fin 1) (Fin 1)] /\
  yf = [Ohlc (Fin 3) (Fin 3) (Fin 3) (Fin 3); Ohlc (Fin 3) NaN NaN NaN; Ohlc (Fin 3) NaN NaN (Fin 1)].
Proof. exact @fohlc_nan_refuted. Qed.
Print Assumptions C72_haiku_nan_refuted.

Example C72_example :
  is_bin [(Fin 5, true); (Fin 2, true); (NaN, false)] [Fin 2; NaN] /\
  Forall (fun p : fl * bool => fst p <> NaN) [(Fin 5, true); (Fin 2, false)].
Proof.
  split.
  - left. exists [(Fin 5, true)], (Fin 2), [(NaN, false)]. split; [reflexivity|]. split; [repeat constructor|reflexivity].
  - repeat constructor; discriminate.
Qed.

(** C73: what the flax ARMA computes on finite data ([flax_arma_rec]); two writes to the output ring per step. *)
Theorem C73_recursion :
  forall alpha beta eps,
  index_safe (length alpha) (eps ++ eps) -> index_safe (length beta) eps ->
  exists ys, flax_from_scratch (FARMA (map Fin alpha) (map Fin beta)) (map Fin eps) = map Fin ys /\
    flax_arma_rec alpha beta eps ys.
Proof. exact @farma_run. Qed.
Print Assumptions C73_recursion.

(** C73: a single autoregressive coefficient has no effect. *)
Theorem C73_single_coefficient_ignored :
  forall a beta xs,
  flax_from_scratch (FARMA [Fin a] beta) xs = flax_from_scratch (FARMA [] beta) xs.
Proof. exact @farma_one_coefficient. Qed.
Print Assumptions C73_single_coefficient_ignored.

(** C73: the documented recursion fails, for the autoregressive and for the moving average part. *)
Theorem C73_documented_refuted :
   flax_from_scratch (FARMA [Fin (1/2)] []) [Fin 1; Fin 0] = [Fin 1; Fin 0] /\
  ~ arma_rec [(1/2)%R] [] [1%R; 0%R] [1%R; 0%R] /\
  flax_from_scratch (FARMA [] [Fin 1]) [Fin 1; Fin 0] = [Fin 2; Fin 0] /\
  ~ arma_rec [] [1%R] [1%R; 0%R] [2%R; 0%R].
Proof. exact @farma_documented_refuted. Qed.
Print Assumptions C73_documented_refuted.

(** C73: with two autoregressive coefficients or more, all outputs from a missing input on are 0. *)
Theorem C73_missing_input :
  forall alpha beta pre post t,
  2 <= length alpha -> index_safe (length alpha) ((pre ++ NaN :: post) ++ (pre ++ NaN :: post)) ->
  length pre <= t < length (pre ++ NaN :: post) ->
  nth_error (flax_from_scratch (FARMA alpha beta) (pre ++ NaN :: post)) t = Some (Fin 0).
Proof. exact @farma_nan_forever. Qed.
Print Assumptions C73_missing_input.

Example C73_example :
  2 <= length [Fin 1; Fin 2] /\ index_safe 2 (([] ++ NaN :: [Fin 1]) ++ ([] ++ NaN :: [Fin 1])) /\
  exists ys, flax_from_scratch (FARMA [Fin 3; Fin 7] []) [Fin 1; Fin 0] = map Fin ys /\ ys = [1; 3]%R.
Proof.
  split; [cbn; lia|]. split; [left; reflexivity|].
  destruct (farma_run [3%R; 7%R] [] [1%R; 0%R]) as (ys & E & [L H]); [left; reflexivity|left; reflexivity|].
  exists ys. split; [exact E|]. destruct ys as [|a [|b [|c ys]]]; try discriminate.
  pose proof (H 0 ltac:(cbn; lia)) as H0. pose proof (H 1 ltac:(cbn; lia)) as H1.
  unfold flax_arma_value, lagged in H0, H1. cbn in H0, H1. f_equal; [lra|f_equal; lra].
Qed.

(** C74: the masked mean of all entries is the haiku one (C28), ... *)
Theorem C74_mean_all :
  forall fm mask x,
  well_shaped mask -> well_shaped x -> shape mask = shape x ->
  fmask_mean fm None mask x = mask_mean fm None mask x.
Proof. exact @fmask_mean_none. Qed.
Print Assumptions C74_mean_all.

(** ... as are those of columns and rows. *)
Theorem C74_mean_axis :
  forall fm axis c ms rows,
  (axis = 0 \/ axis = 1) ->
  rectangular c ms -> rectangular c rows -> length ms = length rows ->
  fmask_mean fm (Some axis) (matrix c ms) (matrix c rows) = mask_mean fm (Some axis) (matrix c ms) (matrix c rows).
Proof. exact @fmask_mean_axis01. Qed.
Print Assumptions C74_mean_axis.

(** C74: the masked standard deviation of all entries, *)
Theorem C74_std_all :
  forall fm eps centered mask x,
  (0 <= eps)%R -> well_shaped mask -> well_shaped x -> shape mask = shape x ->
  fmask_std fm eps None centered mask x =
  Some (Arr [] [flax_std_of fm eps centered (selected (data mask) (data x))]).
Proof. exact @fmask_std_none. Qed.
Print Assumptions C74_std_all.

(** of the columns, *)
Theorem C74_std_axis0 :
  forall fm eps centered c ms rows,
  (0 <= eps)%R -> rectangular c ms -> rectangular c rows -> length ms = length rows ->
  fmask_std fm eps (Some 0) centered (matrix c ms) (matrix c rows) =
  Some (Arr [c] (map (fun j => flax_std_of fm eps centered (selected (col false j ms) (col NaN j rows))) (seq 0 c))).
Proof. exact @fmask_std_axis0. Qed.
Print Assumptions C74_std_axis0.

(** and of the rows (where the haiku module fails, C28). *)
Theorem C74_std_axis1 :
  forall fm eps centered c ms rows,
  (0 <= eps)%R -> rectangular c ms -> rectangular c rows -> length ms = length rows ->
  fmask_std fm eps (Some 1) centered (matrix c ms) (matrix c rows) =
  Some (Arr [length rows] (map2 (fun m r => flax_std_of fm eps centered (selected m r)) ms rows)).
Proof. exact @fmask_std_axis1. Qed.
Print Assumptions C74_std_axis1.

(** C74: on finite selected values it is the value of the haiku module (up to the eps given) ... *)
Theorem C74_std_haiku :
  forall fm eps centered (l : list R),
  l <> [] ->
  flax_std_of fm eps centered (map Fin l) = std_of eps (if centered then second_moment l else var_of l) l.
Proof. exact @flax_std_finite. Qed.
Print Assumptions C74_std_haiku.

(** ... but 0 as soon as one selected value is missing, *)
Theorem C74_std_missing :
  forall fm eps l,
  In NaN l -> flax_std_of fm eps false l = Fin 0.
Proof. exact @flax_std_nan. Qed.
Print Assumptions C74_std_missing.

(** where the haiku module does not return 0. *)
Theorem C74_std_missing_refuted :
   exists y yf,
  mask_std 1000%R 0%R None false (Arr [3] [true; true; true]) (Arr [3] [Fin 1; Fin 5; NaN]) = Some (Arr [] [y]) /\
  fmask_std 1000%R 0%R None false (Arr [3] [true; true; true]) (Arr [3] [Fin 1; Fin 5; NaN]) = Some (Arr [] [yf]) /\
  yf = Fin 0 /\ exists r, y = Fin r /\ (0 < r)%R.
Proof. exact @fmask_std_nan_refuted. Qed.
Print Assumptions C74_std_missing_refuted.

(** C74: one mask entry per row stands for the matrix with constant rows. *)
Theorem C74_row_mask_mean :
  forall fm c m rows,
  rectangular c rows -> length m = length rows ->
  fmask_mean fm (Some 0) (row_mask m) (matrix c rows) =
  fmask_mean fm (Some 0) (matrix c (map (fun b => repeat b c) m)) (matrix c rows).
Proof. exact @fmask_mean_row. Qed.
Print Assumptions C74_row_mask_mean.

Theorem C74_row_mask_std :
  forall fm eps centered c m rows,
  rectangular c rows -> length m = length rows ->
  fmask_std fm eps (Some 0) centered (row_mask m) (matrix c rows) =
  fmask_std fm eps (Some 0) centered (matrix c (map (fun b => repeat b c) m)) (matrix c rows).
Proof. exact @fmask_std_row. Qed.
Print Assumptions C74_row_mask_std.

(** C74: a mask with one entry per column fails with axis=1. *)
Theorem C74_vector_mask_axis1 :
  forall fm eps centered m x,
  fmask_mean fm (Some 1) (row_mask m) x = None /\ fmask_std fm eps (Some 1) centered (row_mask m) x = None.
Proof. exact @fmask_axis1_vector_mask. Qed.
Print Assumptions C74_vector_mask_axis1.

(** C74: MaskNormalize divides the finite entries by the masked standard deviation and is 0 elsewhere, and where that deviation is 0 or undefined. *)
Theorem C74_normalize :
  forall fm eps centered mask x,
  (0 <= eps)%R -> well_shaped mask -> well_shaped x -> shape mask = shape x ->
  exists y, fmask_normalize fm eps None centered mask x = Some y /\ shape y = shape x /\
    length (data y) = length (data x) /\
    forall k a, nth_error (data x) k = Some a ->
      nth_error (data y) k = Some (match a, flax_std_of fm eps centered (selected (data mask) (data x)) with
        | Fin r, Fin s => if Req_b s 0 then Fin 0 else Fin (r / s)
        | _, _ => Fin 0 end).
Proof. exact @fmask_normalize_none. Qed.
Print Assumptions C74_normalize.

Theorem C74_normalize_finite :
  forall fm eps axis centered mask x y,
  fmask_normalize fm eps axis centered mask x = Some y -> Forall (fun v => isfinite v = true) (data y).
Proof. exact @fmask_normalize_finite. Qed.
Print Assumptions C74_normalize_finite.

Example C74_example :
  rectangular 2 [[true; false]; [true; true]] /\ rectangular 2 [[Fin 1; Fin 3]; [Fin 5; NaN]] /\
  selected (col false 0 [[true; false]; [true; true]]) (col NaN 0 [[Fin 1; Fin 3]; [Fin 5; NaN]]) = [Fin 1; Fin 5] /\
  flax_std_of 1000 0 false [Fin 1; Fin 5] = Fin 2 /\ flax_std_of 1000 0 false [] = NaN.
Proof.
  split; [repeat constructor|]. split; [repeat constructor|]. split; [reflexivity|]. split; [|reflexivity].
  change [Fin 1; Fin 5] with (map Fin [1; 5]%R). rewrite flax_std_finite by discriminate. unfold std_of.
  assert (V : var_of [1; 5]%R = (2 * 2)%R) by (unfold var_of, mean_of, total; simpl; lra). rewrite V, Rlt_b_true by lra.
  f_equal. rewrite Rplus_0_l. apply sqrt_square. lra.
Qed.

(** C75: each prediction is the regressor applied to the last inputs, the last errors of the given targets (the current one included) and the input, missing and infinite predictions being replaced by 0. *)
Theorem C75_features :
  forall lags_x lags_y (regressor : list fl -> fl) xys t,
  index_safe lags_x xys -> index_safe lags_y xys -> t < length xys ->
  nth_error (flax_from_scratch (FSNARIMAX lags_x lags_y regressor) xys) t =
    Some (zero_filled (regressor (flax_sn_features lags_x lags_y xys t))).
Proof. exact @fsn_run. Qed.
Print Assumptions C75_features.

(** C75: the prediction is not a forecast: with the regressor "last error + input" it is the current target itself. *)
Theorem C75_target_leak_refuted :
  forall lags_x lags_y xys t x y,
  0 < lags_y -> index_safe lags_x xys -> index_safe lags_y xys ->
  nth_error xys t = Some (Fin x, Some (Fin y)) ->
  nth_error (flax_from_scratch (FSNARIMAX lags_x lags_y
    (fun f => fadd (nth (lags_x + lags_y - 1) f NaN) (nth (lags_x + lags_y) f NaN))) xys) t = Some (Fin y).
Proof. exact @fsn_leaks. Qed.
Print Assumptions C75_target_leak_refuted.

Example C75_example :
  index_safe 1 [(Fin 3, Some (Fin 8))] /\ nth_error [(Fin 3, Some (Fin 8))] 0 = Some (Fin 3, Some (Fin 8)) /\
  flax_sn_features 1 2 [(Fin 3, Some (Fin 8)); (Fin 4, None)] 0 = [Fin 3; Fin 0; fsub (Fin 8) (Fin 3); Fin 3] /\
  flax_sn_features 1 2 [(Fin 3, Some (Fin 8)); (Fin 4, None)] 1 = [Fin 4; Fin 4].
Proof. split; [left; reflexivity|]. auto. Qed.

(** C76: the actions are those of the agent on its own: the previous action is stored but not fed back. *)
Theorem C76_outputs :
  forall (O Rw A S : Type) (zeros_like : O -> A) (agent0 : O * option Rw -> S) (agent : S -> O * option Rw -> A * S) o0 r0 inps,
  flax_from_scratch (FGymFeedback zeros_like agent0 agent) ((o0, r0) :: inps) =
      flax_from_scratch (FlaxModule agent0 agent) ((o0, r0) :: inps).
Proof. exact @fgym_run. Qed.
Print Assumptions C76_outputs.

(** C76: the stored action is the last one of the agent (zeros like the first observation before the first call). *)
Theorem C76_state :
  forall (O Rw A S : Type) (zeros_like : O -> A) (agent0 : O * option Rw -> S) (agent : S -> O * option Rw -> A * S) inps,
  forall st,
    fst (flax_calls (FGymFeedback zeros_like agent0 agent) st inps) =
      fst (flax_calls (FlaxModule agent0 agent) (snd st) inps) /\
    snd (snd (flax_calls (FGymFeedback zeros_like agent0 agent) st inps)) =
      snd (flax_calls (FlaxModule agent0 agent) (snd st) inps) /\
    fst (snd (flax_calls (FGymFeedback zeros_like agent0 agent) st inps)) =
      last (fst (flax_calls (FlaxModule agent0 agent) (snd st) inps)) (fst st).
Proof. exact @fgym_calls. Qed.
Print Assumptions C76_state.

(** C76: the state created for a first input holds zeros like that observation and the agent's own initial state. *)
Theorem C76_initial_state :
  forall (O Rw A S : Type) (zeros_like : O -> A) (agent0 : O * option Rw -> S) (agent : S -> O * option Rw -> A * S) o0 r0,
  fx_vars (FGymFeedback zeros_like agent0 agent) (o0, r0) = (zeros_like o0, agent0 (o0, r0)).
Proof. reflexivity. Qed.
Print Assumptions C76_initial_state.

(** C76: GymFeedbackLoop returns the observation, the action and the reward given (0 if none). *)
Theorem C76_loop :
  forall (O Rw A S : Type) (agent : S -> O * option Rw -> A * S) (zero : Rw) (st : A * S) (o : O) (r : option Rw),
  fgym_loop_call zero agent st (o, r) =
    ((o, fst (agent (snd st) (o, r)), match r with Some r => r | None => zero end), agent (snd st) (o, r)).
Proof. exact @fgym_loop. Qed.
Print Assumptions C76_loop.

Example C76_example :
  flax_from_scratch (FGymFeedback (fun _ => 0) (fun _ => 10) (fun s (i : nat * option nat) => (s + fst i, s + 1))) [(1, None); (2, Some 5)] = [11; 13].
Proof. reflexivity. Qed.
