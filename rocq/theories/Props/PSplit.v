(** Property theorems C126: a dataset streamed by its time axes.  Vocabulary: Spec/SplitSpec.v. *)
From Coq Require Import String ZArith List Bool Arith.
From Verif Require Import Model.Stream Model.Split Spec.StreamSpec Spec.SplitSpec Proofs.SplitProofs Proofs.SplitProofs2.
Import ListNotations.
Local Open Scope list_scope.

(** C126: the split raises exactly when there is no time axis or a variable has two of them. *)
Theorem C126_split_defined :
  forall (V : Type) (d : @sdata V), NoDup (map fst (sd_coords d)) ->
  ((exists ps, split_dataset_from_time_dims d = Some ps) <-> (exists k ts, axis d k ts) /\ one_axis_each d).
Proof. exact @split_defined. Qed.
Print Assumptions C126_split_defined.

(** C126: one dataset per time axis, with its times and exactly the variables along it, in order. *)
Theorem C126_split :
  forall (V : Type) (d : @sdata V) k p ps, NoDup (map fst (sd_coords d)) -> split_dataset_from_time_dims d = Some ps ->
  (In (k, p) ps <-> axis d k (fst p) /\ snd p = vars_along d k).
Proof. exact @split_spec. Qed.
Print Assumptions C126_split.
Theorem C126_split_keys :
  forall (V : Type) (d : @sdata V) ps, NoDup (map fst (sd_coords d)) -> split_dataset_from_time_dims d = Some ps -> NoDup (map fst ps).
Proof. exact @split_keys. Qed.
Print Assumptions C126_split_keys.

(** C126: the stream of one of these datasets yields, for each time, the entries of its variables at that position
    (the first observation once more in front). *)
Theorem C126_stream :
  forall (V : Type) (p : @part V) g, start_part_stream false p = Some g ->
  exists t0 ts o r, fst p = t0 :: ts /\ g = o :: o :: r /\ List.length (o :: r) = List.length (fst p) /\
    forall i x, nth_error (o :: r) i = Some x -> nth_error (fst p) i = Some (fst x) /\ entries_at (snd p) i (snd x).
Proof. exact @part_stream_inv. Qed.
Print Assumptions C126_stream.

(** C126: with trace=True, their positions instead. *)
Theorem C126_stream_trace :
  forall (V : Type) (p : @part V) t0 ts, fst p = t0 :: ts ->
  start_part_stream true p = Some ((t0, map (fun v => (sv_name v, Pos 0)) (snd p)) ::
    map (fun it => (snd it, map (fun v => (sv_name v, Pos (fst it))) (snd p))) (combine (seq 0 (List.length (fst p))) (fst p))).
Proof. exact @part_stream_trace. Qed.
Print Assumptions C126_stream_trace.

(** C126: merging the streams of a dataset whose time axes come first never raises (no empty axis, no buffer of length 0) ... *)
Theorem C126_merged_defined :
  forall (V : Type) local cfg dflt (d : @sdata V),
  NoDup (map fst (sd_coords d)) -> one_axis_each d -> time_first d -> (exists ts, axis d local ts) ->
  (forall k ts, axis d k ts -> ts <> [] /\ ax_maxlen (cfg k) <> Some 0) ->
  exists items, merge_dataset false local cfg dflt d = Some items.
Proof. exact @merged_defined. Qed.
Print Assumptions C126_merged_defined.
(** ... its streams are defined ... *)
Theorem C126_axis_stream :
  forall (V : Type) (d : @sdata V) k ts, time_first d -> axis d k ts -> ts <> [] ->
  exists g, start_part_stream false (ts, vars_along d k) = Some g.
Proof. exact @axis_stream_total. Qed.
Print Assumptions C126_axis_stream.

(** ... gives one item per local time, with the entries of the local variables at that time; *)
Theorem C126_merged_local :
  forall (V : Type) local cfg dflt (d : @sdata V) items ts,
  NoDup (map fst (sd_coords d)) -> merge_dataset false local cfg dflt d = Some items -> axis d local ts ->
  List.length items = List.length ts /\
  forall j t o outs, nth_error items j = Some ((t, o), outs) -> nth_error ts j = Some t /\ entries_at (vars_along d local) j o.
Proof. exact @merged_local. Qed.
Print Assumptions C126_merged_local.

(** C126: for another axis with ffill, the entries of all its variables at its latest time before the local time
    (seen at the frequency of the axis); *)
Theorem C126_merged_ffill :
  forall (V : Type) local cfg dflt (d : @sdata V) items k ts lts j t o outs,
  NoDup (map fst (sd_coords d)) -> merge_dataset false local cfg dflt d = Some items ->
  (exists g, start_part_stream false (ts, vars_along d k) = Some g) ->
  axis d local lts -> axis d k ts -> k <> local -> in_order lts -> in_order ts -> monotone_on lts (ax_embed (cfg k)) ->
  ax_ffill (cfg k) = true -> ax_maxlen (cfg k) = None ->
  nth_error items j = Some ((t, o), outs) ->
  exists c, value_of k outs (One c) /\ shows (fun s => (s < ax_embed (cfg k) t)%Z) ts (vars_along d k) dflt c.
Proof. exact @merged_ffill. Qed.
Print Assumptions C126_merged_ffill.

(** C126: without ffill, at its latest time since the previous local time; *)
Theorem C126_merged_no_ffill :
  forall (V : Type) local cfg dflt (d : @sdata V) items k ts lts j t' o' outs' t o outs,
  NoDup (map fst (sd_coords d)) -> merge_dataset false local cfg dflt d = Some items ->
  (exists g, start_part_stream false (ts, vars_along d k) = Some g) ->
  axis d local lts -> axis d k ts -> k <> local -> in_order lts -> in_order ts -> monotone_on lts (ax_embed (cfg k)) ->
  ax_ffill (cfg k) = false -> ax_maxlen (cfg k) = None ->
  nth_error items j = Some ((t', o'), outs') -> nth_error items (S j) = Some ((t, o), outs) ->
  exists c, value_of k outs (One c) /\
    shows (fun s => (ax_embed (cfg k) t' <= s < ax_embed (cfg k) t)%Z) ts (vars_along d k) dflt c.
Proof. exact @merged_no_ffill. Qed.
Print Assumptions C126_merged_no_ffill.

(** C126: with a buffer, the window of the last n observations before the local time, the very first one counted twice. *)
Theorem C126_merged_window :
  forall (V : Type) local cfg dflt (d : @sdata V) items k ts lts j t o outs n,
  NoDup (map fst (sd_coords d)) -> merge_dataset false local cfg dflt d = Some items ->
  (exists g, start_part_stream false (ts, vars_along d k) = Some g) ->
  axis d local lts -> axis d k ts -> k <> local -> in_order lts -> in_order ts -> monotone_on lts (ax_embed (cfg k)) ->
  ax_ffill (cfg k) = true -> ax_maxlen (cfg k) = Some n ->
  nth_error items j = Some ((t, o), outs) ->
  exists l, map fst l = filter (fun s => Z.ltb s (ax_embed (cfg k) t)) ts /\
    (forall i x, nth_error l i = Some x -> nth_error ts i = Some (fst x) /\ entries_at (vars_along d k) i (snd x)) /\
    value_of k outs (Win (lastn n (repeat (None, map (fun v => (sv_name v, dflt v)) (vars_along d k)) n ++
                                   map real (firstn 1 l ++ l)))).
Proof. exact @merged_window. Qed.
Print Assumptions C126_merged_window.

Module SplitExample.
  Local Open Scope string_scope.
  (** hourly prices of two assets, a daily volume, a constant *)
  Definition ex : @sdata (list Z) := SData [("hour", Some [10; 20; 30]%Z); ("asset", None); ("day", Some [0; 15]%Z)]
    [SVar "price" ["hour"; "asset"] [[1; 2]; [3; 4]; [5; 6]]%Z; SVar "lot" ["asset"] [[7]; [8]]%Z; SVar "volume" ["day"] [[100]; [200]]%Z].
  Definition ex_cfg (_ : string) := AxisCfg (fun t => t) true None.
  Definition ex_dflt (_ : @svar (list Z)) := @Slice (list Z) [].
End SplitExample.
Import SplitExample.
Local Open Scope string_scope.
Local Open Scope list_scope.

Example C126_example :
  merge_dataset false "hour" ex_cfg ex_dflt ex = Some
    [((10, [("price", Slice [1; 2])]), [("day", One (Some 0, [("volume", Slice [100])]))]);
     ((20, [("price", Slice [3; 4])]), [("day", One (Some 15, [("volume", Slice [200])]))]);
     ((30, [("price", Slice [5; 6])]), [("day", One (Some 15, [("volume", Slice [200])]))])]%Z /\
  one_axis_each ex /\ time_first ex.
Proof.
  split; [reflexivity|]. unfold one_axis_each, time_first, axis. cbn. split.
  - intros v k k' ts ts' Hv Hk Hk' Hd Hd'. destruct Hv as [<-|[<-|[<-|[]]]]; cbn in Hd, Hd';
      repeat match goal with
        | H : _ \/ _ |- _ => destruct H
        | H : False |- _ => destruct H
        end; try congruence.
  - intros v k ts Hv Hk Hd. destruct Hv as [<-|[<-|[<-|[]]]]; cbn in Hd |- *;
      repeat match goal with
        | H : _ \/ _ |- _ => destruct H
        | H : False |- _ => destruct H
        end; try congruence;
      match goal with H : (_, _) = (_, _) |- _ => injection H as <- <- end; split; reflexivity.
Qed.

(** C126: "an observation holds the values at its time" is false when the time axis is not the first dimension of a
    variable: nothing is raised, and the observation at the first time holds all the times of the first entry along the
    other dimension, the last time included. *)
Theorem C126_time_not_first_refuted :
  exists (d : Z -> @sdata (list Z)) (obs : Z -> list (Z * list (string * @item (list Z)))),
    (forall x, one_axis_each (d x) /\ axis (d x) "time" [1; 2]%Z) /\
    (forall x, sd_vars (d x) = [SVar "price" ["asset"; "time"] [[10; x]; [30; 40]]%Z]%string) /\
    (forall x, start_part_stream false ([1; 2]%Z, vars_along (d x) "time") = Some (obs x)) /\
    forall x, nth_error (obs x) 0 = Some (1%Z, [("price"%string, Slice [10; x]%Z)]).
Proof.
  exists (fun x => SData [("time"%string, Some [1; 2]%Z)] [SVar "price" ["asset"; "time"]%string [[10; x]; [30; 40]]%Z]).
  eexists (fun x => _). split; [|split; [|split]]; try reflexivity.
  intros x. split; [|left; reflexivity]. intros v k k' ts ts' _ Hk Hk' _ _. unfold axis in *. cbn in Hk, Hk'.
  destruct Hk as [Hk|[]], Hk' as [Hk'|[]]. congruence.
Qed.
Print Assumptions C126_time_not_first_refuted.
