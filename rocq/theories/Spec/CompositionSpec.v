(** Vocabulary for the example compositions (C104-C108).  A price is an [option R], None for a NaN. *)
From Coq Require Import List ZArith Reals.
From Verif Require Import Model.Unroll Model.Float Model.Compositions Spec.EwmSpec Spec.FlaxSpec Spec.MaskSpec.
Import ListNotations.
Local Open Scope R_scope.

(** A session: params, state = init(rng, x0), then the outputs of y, state = apply(params, state, None, x) for x in xs. *)
Fixpoint applied {K P S X Y : Type} (tf : transformed K P S X Y) (p : P) (s : S) (xs : list X) : list Y :=
  match xs with
  | [] => []
  | x :: r => let '(y, s') := t_apply tf p s None x in y :: applied tf p s' r
  end.
Definition session {K P S X Y : Type} (tf : transformed K P S X Y) (x0 : X) (xs : list X) : list Y :=
  let '(p, s) := t_init tf None x0 in applied tf p s xs.

(** What a session has seen at its output number t: the input of init included. *)
Definition seen {X : Type} (x0 : X) (xs : list X) (t : nat) : list X := x0 :: firstn (t + 1) xs.

(** The exponential moving average of parameter alpha, and of a period: alpha = 2 / (period + 1). *)
Definition ema (a : R) (h : list (option R)) : option R := exp_average false a h.
Definition ema_of_period (n : nat) (h : list (option R)) : option R := ema (2 / (INR n + 1)) h.

(** The prices among the last [w]. *)
Definition recent (w : nat) (h : list (option R)) : list R := valid_obs (skipn (length h - w) h).
Definition deviation (l : list R) : R := sqrt (var_of l).

Definition minus (a b : option R) : option R := match a, b with Some x, Some y => Some (x - y) | _, _ => None end.
(** The MACD line after the prices [h], and at each of them. *)
Definition macd_line (nf ns : nat) (h : list (option R)) : option R := minus (ema_of_period nf h) (ema_of_period ns h).
Definition prefixes {A : Type} (h : list A) : list (list A) := map (fun i => firstn i h) (seq 1 (length h)).
Definition macd_lines (nf ns : nat) (h : list (option R)) : list (option R) := map (macd_line nf ns) (prefixes h).

(** None if one is missing *)
Fixpoint all_known (l : list (option R)) : option (list R) :=
  match l with
  | [] => Some []
  | Some x :: r => match all_known r with Some y => Some (x :: y) | None => None end
  | None :: _ => None
  end.

(** The differences of consecutive values, 0 for the first. *)
Fixpoint changes_from (p : R) (l : list R) : list R := match l with [] => [] | x :: r => (x - p) :: changes_from x r end.
Definition changes (l : list R) : list R := match l with [] => [] | x :: _ => changes_from x l end.

(** What the breakout detector reports at the last of the prices [ps], [first] being the first price of the session:
    computed on the last 20 prices, [first] being repeated if there are less. *)
Definition breakout_window (first : R) (ps : list R) : list R := padded_window 20 first ps.
Definition momentum (first : R) (ps : list R) (p : R) : R := p - mean_of (breakout_window first ps).
Definition return_volatility (first : R) (ps : list R) : R := deviation (changes (breakout_window first ps)).
Definition strength (first : R) (ps : list R) (p : R) : R :=
  Rabs (momentum first ps p) / (return_volatility first ps + 1 / 10 ^ 8).

(** The Bollinger bands after the prices [h], the last one being [o]. *)
Definition bands_at (w : nat) (k : R) (h : list (option R)) (o : option R) (b : bands) : Prop :=
  b_price b = of_option o /\
  match ema_of_period w h with
  | None => b = Bands (of_option o) NaN NaN NaN (Fin (1 / 2)) NaN
  | Some c =>
      let d := k * deviation (recent w h) in
      b_center b = Fin c /\ b_upper b = Fin (c + d) /\ b_lower b = Fin (c - d) /\ b_width b = Fin (2 * d) /\
      (1 / 10 ^ 8 < 2 * d ->
         b_position b = match o with Some p => Fin ((p - (c - d)) / (2 * d)) | None => NaN end) /\
      (2 * d <= 1 / 10 ^ 8 -> b_position b = Fin (1 / 2))
  end.

(** A float scaled by a factor. *)
Definition fscale (s : R) (x : fl) : fl := match x with Fin r => Fin (s * r) | y => y end.

(** The breakout detector after the (price, volume) pairs [h], (p, v) being the last. *)
Definition report (first : R) (h : list (R * R)) (p v : R) : breakout :=
  let s := strength first (map fst h) p in
  Breakout (Fin p) (Fin v) (Fin (momentum first (map fst h) p)) (Fin (return_volatility first (map fst h)))
    (Fin s) (Rlt_b 2 s).
Definition fpair (x : R * R) : fl * fl := (Fin (fst x), Fin (snd x)).
(** the report of the last event of [h], if any *)
Definition held (first : R) (h : list (R * R)) (y : breakout) : Prop :=
  (exists h1 p v h2, h = h1 ++ (p, v) :: h2 /\ 1000 < v /\ Forall (fun x => snd x <= 1000) h2 /\
     y = report first (h1 ++ [(p, v)]) p v) \/
  (Forall (fun x => snd x <= 1000) h /\ y = Breakout NaN NaN NaN NaN NaN true).

(** The standard deviation of a window of prices, NaN if one is missing. *)
Definition volatility_of (l : list (option R)) : fl :=
  match all_known l with Some r => Fin (deviation r) | None => NaN end.
(** the alpha chosen at init *)
Definition regime_alpha (thr : R) (o0 : option R) : R :=
  match o0 with Some _ => if Rlt_b thr 0 then 3 / 10 else 5 / 100 | None => 5 / 100 end.

(** the averages of a nonempty list of prices *)
Definition avg (a : R) (ps : list R) : R := match ema a (map Some ps) with Some r => r | None => 0 end.
Definition last20 (ps : list R) : list R := skipn (length ps - 20) ps.
