(** Models of the small haiku modules of /repo/src/wax/modules.
    A haiku module used as a transformed function has no parameters and ignores its key; it is a
    [transformed] pair whose init gives the initial value of the haiku state. *)
From Coq Require Import List ZArith Reals.
From Verif Require Import Model.Tree Model.Unroll Model.Float.
Import ListNotations.

(** hk.transform_with_state of a parameter-free module: [init x0] is the value given by the
    [init=] argument of hk.get_state on the first input; [step] returns the output and the value
    passed to hk.set_state. *)
Definition hk_module {S X Y : Type} (init : X -> S) (step : S -> X -> Y * S)
  : transformed unit unit S X Y :=
  Transformed (fun _ x0 => (tt, init x0)) (fun _ s _ x => step s x).

(** unroll(module)(xs): outputs and final state ([None] on an empty sequence). *)
Definition run {S X Y : Type} (m : transformed unit unit S X Y) (xs : list X)
  : option (list Y * S) := unroll (fun k => (k, k)) m false None None None xs.

(** *** Buffer *)
Section Buffer.
  Context {A : Type}.
  (** modules/buffer.py lines 23-26 *)
  Record buffer_state := BufferState { buffer : list A; len_buffer : nat; i_start : nat }.

  (** modules/buffer.py lines 35-39; [full] is jnp.full(shape, fill_value, dtype) of an entry. *)
  Definition buffer_init (maxlen : nat) (full : A) : buffer_state :=
    BufferState (repeat full maxlen) 0 maxlen.

  (** jnp.roll(buffer, -1, axis=0) *)
  Definition roll1 (l : list A) : list A := match l with [] => [] | a :: r => r ++ [a] end.
  (** buffer.at[-1].set(x) *)
  Definition set_last (l : list A) (x : A) : list A :=
    match l with [] => [] | _ => removelast l ++ [x] end.

  (** modules/buffer.py lines 41-49 *)
  Definition buffer_apply (maxlen : nat) (st : buffer_state) (x : A) : list A * buffer_state :=
    let b := set_last (roll1 (buffer st)) x in
    let len := Nat.min (len_buffer st + 1) maxlen in
    let i := maxlen - len in
    (b, BufferState b len i).

  (** modules/buffer.py lines 79-101, return_state=False *)
  Definition Buffer (maxlen : nat) (full_like : A -> A) :=
    hk_module (fun x0 => buffer_init maxlen (full_like x0)) (buffer_apply maxlen).
  (** modules/buffer.py lines 79-101, return_state=True *)
  Definition Buffer_return_state (maxlen : nat) (full_like : A -> A) :=
    hk_module (fun x0 => buffer_init maxlen (full_like x0))
      (fun s x => let '(b, s') := buffer_apply maxlen s x in ((b, s'), s')).

  (** modules/lag.py lines 31-33, return_state=False: buffer[0]; the buffer has length lag+1 so the
      [None] case does not occur. *)
  Definition lag_step (lag : nat) (st : buffer_state) (x : A) : option A * buffer_state :=
    let '(b, s') := buffer_apply (lag + 1) st x in (hd_error b, s').
  Definition Lag (lag : nat) (full_like : A -> A) :=
    hk_module (fun x0 => buffer_init (lag + 1) (full_like x0)) (lag_step lag).
  (** modules/lag.py lines 25-33 with return_state=True: Buffer returns (buffer, state), and [0]
      selects the buffer. *)
  Definition Lag_return_state (lag : nat) (full_like : A -> A) :=
    hk_module (fun x0 => buffer_init (lag + 1) (full_like x0)) (buffer_apply (lag + 1)).
End Buffer.
Arguments buffer_state : clear implicits.

(** *** Ffill: modules/ffill.py lines 26-37 (one element; [periods] is ignored by the code). *)
Definition ffill_step (valid_value x : fl) : fl * fl :=
  let v := if isnan x then valid_value else x in (v, v).
Definition Ffill := hk_module (fun _ : fl => NaN) ffill_step.

(** *** Diff: modules/diff.py lines 24-42.  The assertion of line 32 is the [None] case. *)
Definition diff_step (st : buffer_state fl) (x : fl) : fl * buffer_state fl :=
  let '(b, s') := buffer_apply 2 st x in (fsub (last b NaN) (hd NaN b), s').
Definition Diff (periods : nat) : option (transformed unit unit (buffer_state fl) fl fl) :=
  if Nat.eqb periods 1 then Some (hk_module (fun _ => buffer_init (periods + 1) NaN) diff_step)
  else None.

(** *** PctChange: modules/pct_change.py lines 38-61, one element. *)
Inductive fill_method := Pad | FfillMethod | OtherMethod.
Record pct_state := PctState { pct_ffill : fl; pct_lag : buffer_state fl }.
Definition pct_change_step (fillna_zero : bool) (st : pct_state) (x : fl) : fl * pct_state :=
  let '(v, ff) := ffill_step (pct_ffill st) x in
  let '(b, lg) := buffer_apply 2 (pct_lag st) v in
  let previous_x := hd NaN b in
  let pct := fsub (fdiv x previous_x) (Fin 1) in
  let out := if fillna_zero then
               (if andb (isnan x) (negb (isnan previous_x)) then Fin 0 else pct)
             else pct in
  (out, PctState ff lg).
(** Construction fails for periods <> 1 (line 51); a call with another fill_method raises TypeError
    (line 57 calls Lag without argument). *)
Definition PctChange (periods : nat) (m : fill_method) (fillna_zero : bool)
  : option (transformed unit unit pct_state fl fl) :=
  if Nat.eqb periods 1 then
    match m with
    | Pad | FfillMethod =>
        Some (hk_module (fun _ => PctState NaN (buffer_init (periods + 1) NaN))
                (pct_change_step fillna_zero))
    | OtherMethod => None
    end
  else None.

(** *** RollingMean: modules/rolling_mean.py lines 37-42, one element. *)
Definition rolling_mean_of (min_periods : Z) (b : list fl) : fl :=
  let sum := fsum (map (fun v => if negb (isnan v) then v else Fin 0) b) in
  let count := length (filter (fun v => negb (isnan v)) b) in
  if Z.geb (Z.of_nat count) min_periods then fdiv sum (Fin (INR count)) else NaN.
Definition rolling_mean_step (horizon : nat) (min_periods : Z) (st : buffer_state fl) (x : fl)
  : fl * buffer_state fl :=
  let '(b, s') := buffer_apply horizon st x in (rolling_mean_of min_periods b, s').
Definition RollingMean (horizon : nat) (min_periods : Z) :=
  hk_module (fun _ => buffer_init horizon NaN) (rolling_mean_step horizon min_periods).

(** *** HasChanged: modules/has_changed.py lines 25-33.  An array is the list of its elements;
    [neq] is jnp.not_equal on elements and [dflt] the DTYPE_INIT_VALUES of its dtype
    (stream.py lines 59-75), an unknown dtype being a KeyError. *)
Section HasChanged.
  Context {A : Type} (neq : A -> A -> bool) (dflt : A).
  Definition any_neq (a b : list A) : bool := existsb (fun '(x, y) => neq x y) (combine a b).
  Definition has_changed_step (prev input : list A) : bool * list A := (any_neq input prev, input).
  Definition HasChanged := hk_module (fun x0 : list A => map (fun _ => dflt) x0) has_changed_step.
End HasChanged.

(** stream.py lines 59-75: DTYPE_INIT_VALUES.  Elements of each dtype are [fl], [Z], [Z], [bool]. *)
Definition dtype_init_float : fl := NaN.
Definition dtype_init_int : Z := (-99999)%Z.
Definition dtype_init_uint : Z := 0%Z.
Definition dtype_init_bool : bool := false.

(** *** FillNanInf: modules/fill_nan_inf.py lines 36-43 on a pytree of arrays (lists). *)
Definition fill_nan_inf (fill_value : fl) (input : tree (list fl)) : tree (list fl) :=
  tree_map (map (nan_to_num fill_value fill_value fill_value)) input.

(** *** Counter: modules/counter.py lines 19-24; uint32 addition wraps. *)
Definition counter_step (count : Z) (_ : unit) : Z * Z :=
  let c := ((count + 1) mod 2 ^ 32)%Z in (c, c).
Definition Counter := hk_module (fun _ : unit => 0%Z) counter_step.
