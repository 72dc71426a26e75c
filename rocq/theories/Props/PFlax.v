(** Property theorems C49-C51: the flax unroll and the flax modules with a haiku counterpart.
    [flax_from_scratch m xs]: the outputs of the module called on [xs] from the initial values of its variables;
    [same_outputs m h xs]: these are the outputs of the unrolled haiku module [h]. *)
From Coq Require Import List Arith ZArith Lia Reals Lra.
From Verif Require Import Model.Unroll Model.Float Model.Modules Model.Ewm Model.FlaxModules
  Spec.FlaxSpec Proofs.FlaxProofs.
Import ListNotations.

(** C49: each call of the flax Buffer returns the last maxlen inputs, oldest first, padded with the fill value, for 2^31-1 calls (for ever if maxlen is a power of two) ... *)
Theorem C49_window :
  forall (A : Type) (m : nat) (full_like : A -> A) (x0 : A) (xs : list A) (t : nat),
  0 < m -> index_safe m (x0 :: xs) -> t < length (x0 :: xs) ->
    nth_error (flax_from_scratch (FBuffer m full_like) (x0 :: xs)) t =
    Some (padded_window m (full_like x0) (firstn (t + 1) (x0 :: xs))).
Proof. exact @fbuffer_window. Qed.
Print Assumptions C49_window.

(** ... as the haiku Buffer does. *)
Theorem C49_haiku :
  forall (A : Type) (m : nat) (full_like : A -> A) (xs : list A),
  0 < m -> xs <> [] -> index_safe m xs ->
    same_outputs (FBuffer m full_like) (Buffer m full_like) xs.
Proof. exact @fbuffer_same. Qed.
Print Assumptions C49_haiku.

(** C49 fails at the call number 2^31 when maxlen is not a power of two: the int32 write index wraps and the returned window is rotated by (-2^32) mod maxlen. *)
Theorem C49_wrap_refuted :
  forall (A : Type) (m : nat) (full_like : A -> A) (x0 : A) (xs : list A) (x : A),
  0 < m ->
    (Z.of_nat (length (x0 :: xs)) = 2 ^ 31 - 1)%Z ->
    last (flax_from_scratch (FBuffer m full_like) ((x0 :: xs) ++ [x])) [] =
      rotated (Z.to_nat ((- 2 ^ 32) mod Z.of_nat m)) (padded_window m (full_like x0) ((x0 :: xs) ++ [x])).
Proof. exact @ring_wraps. Qed.
Print Assumptions C49_wrap_refuted.

(** With maxlen = 3 that rotation is by 2: the newest value comes first. *)
Example C49_example :
  Z.to_nat ((- 2 ^ 32) mod Z.of_nat 3) = 2 /\ rotated 2 [1; 2; 3] = [3; 1; 2] /\
  index_safe 3 [7; 8] /\ index_safe 4 (@nil nat) /\
  (exists xs : list nat, Z.of_nat (length xs) = 2 ^ 31 - 1)%Z /\
  flax_from_scratch (FBuffer 3 (fun _ => 0)) [7; 8; 9; 10] = [[0; 0; 7]; [0; 7; 8]; [7; 8; 9]; [8; 9; 10]].
Proof.
  split; [reflexivity|]. split; [reflexivity|]. split; [left; reflexivity|].
  split; [right; exists (2 ^ 30)%Z; reflexivity|].
  split; [exists (repeat 0 (Z.to_nat (2 ^ 31 - 1))); rewrite repeat_length, Z2Nat.id by lia; reflexivity|reflexivity].
Qed.

(** C50: Lag (within the limit of C49). *)
Theorem C50_lag :
  forall (A : Type) (lag : nat) (full_like : A -> A) (xs : list A),
  xs <> [] -> index_safe (lag + 1) xs ->
    same_outputs (FLag lag full_like) (Lag lag full_like) xs.
Proof. exact @flag_same. Qed.
Print Assumptions C50_lag.

(** C50: Diff(periods=1) (the constructors fail otherwise). *)
Theorem C50_diff :
  forall xs m h,
  xs <> [] -> FDiff 1 = Some m -> Diff 1 = Some h -> same_outputs m h xs.
Proof. exact @fdiff_same. Qed.
Print Assumptions C50_diff.

(** C50: PctChange with forward filling. *)
Theorem C50_pct_change :
  forall fm z xs m h,
  fm = Pad \/ fm = FfillMethod -> xs <> [] ->
  FPctChange 1 true z = Some m -> PctChange 1 fm z = Some h -> same_outputs m h xs.
Proof. exact @fpct_same. Qed.
Print Assumptions C50_pct_change.

(** C50: RollingMean. *)
Theorem C50_rolling_mean :
  forall horizon mp xs,
  0 < horizon -> xs <> [] -> index_safe horizon xs ->
  same_outputs (FRollingMean horizon mp) (RollingMean horizon mp) xs.
Proof. exact @frolling_same. Qed.
Print Assumptions C50_rolling_mean.

(** C50: Ffill. *)
Theorem C50_ffill :
  forall xs,
  xs <> [] -> same_outputs FFfill Ffill xs.
Proof. exact @fffill_same. Qed.
Print Assumptions C50_ffill.

(** C50: HasChanged. *)
Theorem C50_has_changed :
  forall (A : Type) (neq : A -> A -> bool) dflt xs,
  xs <> [] ->
  same_outputs (FHasChanged neq dflt) (HasChanged neq dflt) xs.
Proof. exact @fhas_changed_same. Qed.
Print Assumptions C50_has_changed.

(** C50: Counter. *)
Theorem C50_counter :
  forall xs,
  xs <> [] -> same_outputs FCounter Counter xs.
Proof. exact @fcounter_same. Qed.
Print Assumptions C50_counter.

(** C50: EWMA (result, com_eff and nobs), for an initial value which is not infinite. *)
Theorem C50_ewma :
  forall fm cfg xs,
  (0 <= com cfg)%R -> not_inf (initial_value cfg) -> xs <> [] ->
  same_outputs (FEWMA fm cfg) (EWMA_info fm cfg) xs.
Proof. exact @fewma_same. Qed.
Print Assumptions C50_ewma.

(** C50 fails for an infinite initial value: the haiku EWMA turns it into the largest float at a missing input, the flax one keeps it. *)
Theorem C50_ewma_infinite_refuted :
  forall fm cfg,
  initial_value cfg = PInf -> min_periods cfg = 0%Z ->
  map fst (flax_from_scratch (FEWMA fm cfg) [NaN]) = [PInf] /\
  exists sF, run (EWMA fm cfg) [NaN] = Some ([Fin fm], sF).
Proof. exact @fewma_inf. Qed.
Print Assumptions C50_ewma_infinite_refuted.

(** C50: EWMVar. *)
Theorem C50_ewmvar :
  forall com_ adj xs,
  xs <> [] -> same_outputs (FEWMVar com_ adj) (EWMVar com_ adj) xs.
Proof. exact @fewmvar_same. Qed.
Print Assumptions C50_ewmvar.

(** C50: EWMCov with the same min_periods (the defaults differ) ... *)
Theorem C50_ewmcov :
  forall fm cfg ac xs,
  (0 <= com cfg)%R -> not_inf (initial_value cfg) -> xs <> [] ->
  same_outputs (FEWMCov fm cfg ac) (EWMCov fm cfg ac) xs.
Proof. exact @fewmcov_same. Qed.
Print Assumptions C50_ewmcov.

(** ... the detour of com through alpha being the identity. *)
Theorem C50_ewmcov_com :
  forall c,
  (1 + c <> 0)%R -> fewmcov_com (Some c) None = Some c.
Proof. exact @fewmcov_com_eq. Qed.
Print Assumptions C50_ewmcov_com.

Example C50_example :
  exists xs : list fl, xs <> [] /\ index_safe 3 xs /\
    not_inf (initial_value (EwmaCfg 1 0 AdjTrue false NaN)) /\ (0 <= com (EwmaCfg 1 0 AdjTrue false NaN))%R.
Proof. exists [Fin 1]. split; [discriminate|]. split; [left; reflexivity|]. split; [exact I|cbn; lra]. Qed.

(** C51 fails: the outputs of the flax unroll are those of the module on x0 :: x0 :: xs without the first one. *)
Theorem C51_first_input_twice_refuted :
  forall (S X Y : Type) (m : flax_module S X Y) x0 xs,
  exists sF, flax_unroll (fun k => (k, k)) (flax_tf m) false None None None (x0 :: xs) =
    Some (tl (flax_from_scratch m (x0 :: x0 :: xs)), sF).
Proof. exact @flax_unroll_doubles. Qed.
Print Assumptions C51_first_input_twice_refuted.

(** ... which shows, for example, on these modules: a Counter starts at 2, Lag(1) returns the first input instead of the
    fill value, HasChanged does not see the first input. *)
Example C51_example :
  (exists s, flax_unroll (fun k => (k, k)) (flax_tf FCounter) false None None None [tt; tt] = Some ([2; 3]%Z, s)) /\
  (exists s, flax_unroll (fun k => (k, k)) (flax_tf (FLag 1 (fun _ => 0))) false None None None [5; 6] =
     Some ([Some 5; Some 5], s)) /\
  (exists s, flax_unroll (fun k => (k, k)) (flax_tf (FHasChanged (fun a b => negb (Nat.eqb a b)) 0)) false None None None
     [[5]; [6]] = Some ([false; true], s)) /\
  flax_from_scratch FCounter [tt; tt] = [1; 2]%Z /\ flax_from_scratch (FLag 1 (fun _ => 0)) [5; 6] = [Some 0; Some 5].
Proof.
  repeat split; try (eexists; reflexivity); reflexivity.
Qed.

(** C51: with skip_first=True the outputs are those from the initial state at the inputs 1, 2, ... *)
Theorem C51_skip_first :
  forall (S X Y : Type) (m : flax_module S X Y) x0 xs,
  exists sF, flax_unroll (fun k => (k, k)) (flax_tf m) true None None None (x0 :: xs) =
    Some (tl (flax_from_scratch m (x0 :: xs)), sF).
Proof. exact @flax_unroll_skip_first. Qed.
Print Assumptions C51_skip_first.

(** C51: with params and state given, the unroll is the sequence of calls from that state (an empty sequence included) ... *)
Theorem C51_given_state :
  forall (S X Y : Type) (m : flax_module S X Y) s xs,
  flax_unroll (fun k => (k, k)) (flax_tf m) false None (Some tt) (Some s) xs = Some (flax_calls m s xs).
Proof. exact @flax_unroll_given. Qed.
Print Assumptions C51_given_state.

(** ... so a returned final state continues the sequence. *)
Theorem C51_continues :
  forall (S X Y : Type) (m : flax_module S X Y) x0 xs xs' ys sF,
  flax_unroll (fun k => (k, k)) (flax_tf m) false None None None (x0 :: xs) = Some (ys, sF) ->
  exists ys' sF', flax_unroll (fun k => (k, k)) (flax_tf m) false None (Some tt) (Some sF) xs' = Some (ys', sF') /\
    flax_unroll (fun k => (k, k)) (flax_tf m) false None None None ((x0 :: xs) ++ xs') = Some (ys ++ ys', sF').
Proof. exact @flax_unroll_continues. Qed.
Print Assumptions C51_continues.

(** C51: parameters or state given alone: the other one is the one of init. *)
Theorem C51_unroll_given_in_part :
  forall (K P S X Y : Type) (split : K -> K * K) (tf : transformed K P S X Y) skip rng (p : P) (s : S) x0 xs,
  flax_unroll split tf skip rng (Some p) None (x0 :: xs) =
    flax_unroll split tf skip rng (Some p) (Some (snd (t_init tf rng x0))) (x0 :: xs) /\
  flax_unroll split tf skip rng None (Some s) (x0 :: xs) =
    flax_unroll split tf skip rng (Some (fst (t_init tf rng x0))) (Some s) (x0 :: xs) /\
  flax_unroll split tf skip rng None None (x0 :: xs) =
    flax_unroll split tf skip rng (Some (fst (t_init tf rng x0))) (Some (snd (t_init tf rng x0))) (x0 :: xs).
Proof. intros. unfold flax_unroll, unroll_init. destruct (t_init tf rng x0). auto. Qed.
Print Assumptions C51_unroll_given_in_part.

