(** Property theorems C10-C18: small haiku modules.  [run m xs] is unroll(m)(xs) with the final
    state (Model/Modules.v, Model/Unroll.v). *)
From Coq Require Import List Arith ZArith Lia Reals Bool.
From Verif Require Import Model.Tree Model.Unroll Model.Float Model.Modules Spec.SeriesSpec
  Proofs.BufferProofs Proofs.SmallProofs Proofs.SmallExtra.
Import ListNotations.

(** C10: Buffer(maxlen, return_state=True): the j-th entry from the end is the input j steps ago,
    or the fill value. *)
Theorem C10_buffer_sliding_window :
  forall (A : Type) (maxlen : nat) (full_like : A -> A) (x0 : A) (xs : list A) ys sF,
  0 < maxlen ->
  run (Buffer_return_state maxlen full_like) (x0 :: xs) = Some (ys, sF) ->
  length ys = length (x0 :: xs) /\
  forall t, t < length (x0 :: xs) -> exists b st,
    nth_error ys t = Some (b, st) /\ buffer st = b /\
    len_buffer st = Nat.min (t + 1) maxlen /\ i_start st = maxlen - Nat.min (t + 1) maxlen /\
    length b = maxlen /\
    forall j, j < maxlen -> nth_error b (maxlen - 1 - j) =
      if j <=? t then nth_error (x0 :: xs) (t - j) else Some (full_like x0).
Proof. exact @buffer_run. Qed.
Print Assumptions C10_buffer_sliding_window.

(** C10: the same window is returned with return_state=False. *)
Theorem C10_buffer_plain :
  forall (A : Type) (maxlen : nat) (full_like : A -> A) (x0 : A) (xs : list A) ys sF,
  0 < maxlen ->
  run (Buffer maxlen full_like) (x0 :: xs) = Some (ys, sF) ->
  length ys = length (x0 :: xs) /\
  forall t, t < length (x0 :: xs) -> exists b,
    nth_error ys t = Some b /\ length b = maxlen /\
    forall j, j < maxlen -> nth_error b (maxlen - 1 - j) =
      if j <=? t then nth_error (x0 :: xs) (t - j) else Some (full_like x0).
Proof. exact @buffer_run_plain. Qed.
Print Assumptions C10_buffer_plain.

(** C10: buffer[i_start:] are exactly the recorded data. *)
Theorem C10_buffer_recorded_part :
  forall (A : Type) (maxlen : nat) (full_like : A -> A) (x0 : A) (xs : list A) ys sF,
  0 < maxlen ->
  run (Buffer_return_state maxlen full_like) (x0 :: xs) = Some (ys, sF) ->
  forall t b st, nth_error ys t = Some (b, st) ->
  skipn (i_start st) b = window maxlen t (x0 :: xs).
Proof. exact @buffer_recorded. Qed.
Print Assumptions C10_buffer_recorded_part.

Example C10_example :
  run (Buffer_return_state 2 (fun _ => 99)) [5; 6; 7] =
  Some ([([99; 5], BufferState [99; 5] 1 1); ([5; 6], BufferState [5; 6] 2 0);
         ([6; 7], BufferState [6; 7] 2 0)], BufferState [6; 7] 2 0).
Proof. reflexivity. Qed.

(** C11: Lag(k). *)
Theorem C11_lag :
  forall (A : Type) (k : nat) (full_like : A -> A) (x0 : A) (xs : list A) ys sF,
  run (Lag k full_like) (x0 :: xs) = Some (ys, sF) ->
  length ys = length (x0 :: xs) /\
  forall t, t < length (x0 :: xs) ->
    nth_error ys t = Some (if t <? k then Some (full_like x0) else nth_error (x0 :: xs) (t - k)).
Proof. exact @lag_run. Qed.
Print Assumptions C11_lag.

(** C11: Lag(k, return_state=True) returns the whole buffer of k+1 values: the lagged value is only
    its first entry. *)
Theorem C11_lag_return_state_returns_buffer :
  forall (A : Type) (k : nat) (full_like : A -> A) (x0 : A) (xs : list A) ys sF,
  run (Lag_return_state k full_like) (x0 :: xs) = Some (ys, sF) ->
  forall t, t < length (x0 :: xs) -> exists b : list A,
    nth_error ys t = Some b /\ length b = k + 1 /\
    hd_error b = if t <? k then Some (full_like x0) else nth_error (x0 :: xs) (t - k).
Proof. exact @lag_return_state_is_buffer. Qed.
Print Assumptions C11_lag_return_state_returns_buffer.

Example C11_example :
  option_map fst (run (Lag 2 (fun _ => 99)) [5; 6; 7; 8]) =
    Some [Some 99; Some 99; Some 5; Some 6] /\
  option_map fst (run (Lag_return_state 1 (fun _ => 99)) [5; 6]) = Some [[99; 5]; [5; 6]].
Proof. split; reflexivity. Qed.

(** C12: Diff(1); other periods are rejected. *)
Theorem C12_diff :
  forall m (x0 : fl) (xs : list fl) ys sF,
  Diff 1 = Some m ->
  run m (x0 :: xs) = Some (ys, sF) ->
  length ys = length (x0 :: xs) /\ nth_error ys 0 = Some NaN /\
  forall t a b, nth_error (x0 :: xs) t = Some a -> nth_error (x0 :: xs) (t + 1) = Some b ->
    nth_error ys (t + 1) = Some (fsub b a).
Proof. exact diff_run. Qed.
Print Assumptions C12_diff.

Theorem C12_diff_periods : forall periods, Diff periods = None <-> periods <> 1.
Proof. exact diff_periods. Qed.
Print Assumptions C12_diff_periods.

Example C12_example : exists m sF, Diff 1 = Some m /\
  run m [Fin 1; Fin 3; NaN; Fin 5] = Some ([NaN; Fin (3 + - (1)); NaN; NaN], sF).
Proof. do 2 eexists. split; reflexivity. Qed.

(** C13: PctChange. [p] is the last valid value strictly before step t. *)
Theorem C13_pct_change :
  forall m (fm : fill_method) (fillna_zero : bool) (x0 : fl) (xs : list fl) ys sF,
  PctChange 1 fm fillna_zero = Some m ->
  run m (x0 :: xs) = Some (ys, sF) ->
  length ys = length (x0 :: xs) /\
  forall t x p, nth_error (x0 :: xs) t = Some x -> last_valid_is (firstn t (x0 :: xs)) p ->
    nth_error ys t = Some (
      if isnan x then (if fillna_zero then (if isnan p then NaN else Fin 0) else NaN)
      else if isnan p then NaN else fsub (fdiv x p) (Fin 1)).
Proof. exact pct_change_run. Qed.
Print Assumptions C13_pct_change.

(** C13: exactly fill_method "pad"/"ffill" with periods=1 can be called. *)
Theorem C13_pct_change_callable : forall periods fm fz,
  PctChange periods fm fz = None <-> (periods <> 1 \/ fm = OtherMethod).
Proof. exact pct_change_callable. Qed.
Print Assumptions C13_pct_change_callable.

Example C13_example : exists m sF, PctChange 1 Pad true = Some m /\
  run m [Fin 1; NaN; Fin 3] = Some ([NaN; Fin 0; fsub (fdiv (Fin 3) (Fin 1)) (Fin 1)], sF) /\
  last_valid_is (firstn 2 [Fin 1; NaN; Fin 3]) (Fin 1).
Proof.
  do 2 eexists. split; [reflexivity|]. split; [reflexivity|].
  right; split; [congruence|]. exists [], [NaN]; auto.
Qed.

(** C14: RollingMean(h, min_periods): [vs] are the non-NaN values among the last h inputs. *)
Theorem C14_rolling_mean :
  forall (h : nat) (min_periods : Z) (x0 : fl) (xs : list fl) ys sF,
  0 < h ->
  run (RollingMean h min_periods) (x0 :: xs) = Some (ys, sF) ->
  length ys = length (x0 :: xs) /\
  forall t, t < length (x0 :: xs) ->
    let vs := valid_values (window h t (x0 :: xs)) in
    nth_error ys t = Some (
      if ((1 <=? Z.of_nat (length vs)) && (min_periods <=? Z.of_nat (length vs)))%Z
      then fdiv (fsum vs) (Fin (INR (length vs))) else NaN).
Proof. exact rolling_mean_run. Qed.
Print Assumptions C14_rolling_mean.

(** C14: on finite values it is the arithmetic mean. *)
Theorem C14_rolling_mean_finite :
  forall (h : nat) (min_periods : Z) (x0 : fl) (xs : list fl) ys sF t (vs : list R),
  0 < h ->
  run (RollingMean h min_periods) (x0 :: xs) = Some (ys, sF) ->
  t < length (x0 :: xs) ->
  valid_values (window h t (x0 :: xs)) = map Fin vs -> vs <> [] ->
  (min_periods <= Z.of_nat (length vs))%Z ->
  nth_error ys t = Some (Fin (rsum vs / INR (length vs))).
Proof. exact rolling_mean_finite. Qed.
Print Assumptions C14_rolling_mean_finite.

Example C14_example :
  valid_values (window 2 2 [Fin 1; NaN; Fin 3]) = map Fin [3%R] /\
  exists sF ys, run (RollingMean 2 1) [Fin 1; NaN; Fin 3] = Some (ys, sF).
Proof. split; [reflexivity|]. do 2 eexists. reflexivity. Qed.

(** C15: HasChanged on arrays with any element inequality [neq] and dtype default [d]. *)
Theorem C15_has_changed :
  forall (A : Type) (neq : A -> A -> bool) (d : A) (x0 : list A) (xs : list (list A)) ys sF,
  run (HasChanged neq d) (x0 :: xs) = Some (ys, sF) ->
  length ys = length (x0 :: xs) /\
  (forall t cur prev, nth_error (x0 :: xs) (t + 1) = Some cur -> nth_error (x0 :: xs) t = Some prev ->
    exists b, nth_error ys (t + 1) = Some b /\
     (b = true <-> exists i x y, nth_error cur i = Some x /\ nth_error prev i = Some y /\ neq x y = true)) /\
  exists b, nth_error ys 0 = Some b /\
    (b = true <-> exists i x, nth_error x0 i = Some x /\ neq x d = true).
Proof. exact @has_changed_run. Qed.
Print Assumptions C15_has_changed.

(** C15: float elements: NaN differs from anything. *)
Theorem C15_float_inequality : forall a b, fne a b = true <-> (a = NaN \/ b = NaN \/ a <> b).
Proof. exact fne_spec. Qed.
Print Assumptions C15_float_inequality.

(** C15: first step: always a change for non-empty float arrays; for int/uint/bool arrays it is
    reported as no change exactly when all elements are -99999 / 0 / False. *)
Theorem C15_first_step :
  (forall (x0 : list fl) xs ys sF, x0 <> [] ->
     run (HasChanged fne dtype_init_float) (x0 :: xs) = Some (ys, sF) -> nth_error ys 0 = Some true) /\
  (forall x0 xs ys sF, run (HasChanged (fun a b => negb (Z.eqb a b)) dtype_init_int) (x0 :: xs) = Some (ys, sF) ->
     (nth_error ys 0 = Some false <-> Forall (fun z => z = (-99999)%Z) x0)) /\
  (forall x0 xs ys sF, run (HasChanged (fun a b => negb (Z.eqb a b)) dtype_init_uint) (x0 :: xs) = Some (ys, sF) ->
     (nth_error ys 0 = Some false <-> Forall (fun z => z = 0%Z) x0)) /\
  (forall x0 xs ys sF, run (HasChanged (fun a b => negb (Bool.eqb a b)) dtype_init_bool) (x0 :: xs) = Some (ys, sF) ->
     (nth_error ys 0 = Some false <-> Forall (fun z => z = false) x0)).
Proof. exact has_changed_first. Qed.
Print Assumptions C15_first_step.

Example C15_example :
  option_map fst (run (HasChanged (fun a b => negb (Z.eqb a b)) dtype_init_int)
    [[1; 2]; [1; 2]; [1; 3]]%Z) = Some [true; false; true] /\
  option_map fst (run (HasChanged fne dtype_init_float) [[NaN]; [NaN]]) = Some [true; true].
Proof. split; reflexivity. Qed.

(** C16: Ffill. *)
Theorem C16_ffill :
  forall (x0 : fl) (xs : list fl) ys sF,
  run Ffill (x0 :: xs) = Some (ys, sF) ->
  length ys = length (x0 :: xs) /\
  forall t y, nth_error ys t = Some y -> last_valid_is (firstn (t + 1) (x0 :: xs)) y.
Proof. exact ffill_run. Qed.
Print Assumptions C16_ffill.

Theorem C16_ffill_identity :
  forall (x0 : fl) (xs : list fl) ys sF,
  Forall (fun x => x <> NaN) (x0 :: xs) -> run Ffill (x0 :: xs) = Some (ys, sF) -> ys = x0 :: xs.
Proof. exact ffill_id. Qed.
Print Assumptions C16_ffill_identity.

Theorem C16_ffill_idempotent :
  forall (x0 : fl) (xs : list fl) ys sF zs sG,
  run Ffill (x0 :: xs) = Some (ys, sF) -> run Ffill ys = Some (zs, sG) -> zs = ys.
Proof. exact ffill_idempotent. Qed.
Print Assumptions C16_ffill_idempotent.

Example C16_example :
  run Ffill [NaN; Fin 1; NaN; PInf; NaN] = Some ([NaN; Fin 1; Fin 1; PInf; PInf], PInf).
Proof. reflexivity. Qed.

(** C17: FillNanInf on any pytree: structure kept, leaves replaced element by element. *)
Theorem C17_fill_nan_inf :
  forall (v : fl) (t : tree (list fl)),
  tree_leaves (fill_nan_inf v t) =
    map (map (fun x => if isfinite x then x else v)) (tree_leaves t) /\
  tree_def (fill_nan_inf v t) = tree_def t.
Proof. exact fill_nan_inf_leaves. Qed.
Print Assumptions C17_fill_nan_inf.

Theorem C17_fill_nan_inf_finite :
  forall (v : fl) (t : tree (list fl)) (l : list fl) (x : fl),
  isfinite v = true -> In l (tree_leaves (fill_nan_inf v t)) -> In x l -> isfinite x = true.
Proof. exact fill_nan_inf_finite. Qed.
Print Assumptions C17_fill_nan_inf_finite.

Theorem C17_fill_nan_inf_idempotent :
  forall (v : fl) (t : tree (list fl)), fill_nan_inf v (fill_nan_inf v t) = fill_nan_inf v t.
Proof. exact fill_nan_inf_idem. Qed.
Print Assumptions C17_fill_nan_inf_idempotent.

Example C17_example :
  fill_nan_inf (Fin 0) (Node [Leaf [NaN; Fin 1]; Leaf [PInf; NInf]]) =
  Node [Leaf [Fin 0; Fin 1]; Leaf [Fin 0; Fin 0]].
Proof. reflexivity. Qed.

(** C18: Counter. *)
Theorem C18_counter :
  forall n ys sF,
  run Counter (repeat tt (S n)) = Some (ys, sF) ->
  length ys = S n /\
  forall t, t < S n -> nth_error ys t = Some (Z.of_nat (t + 1) mod 2 ^ 32)%Z.
Proof. exact counter_run. Qed.
Print Assumptions C18_counter.

Example C18_example : run Counter [tt; tt; tt] = Some ([1; 2; 3], 3)%Z.
Proof. reflexivity. Qed.
