(** Property theorems C40-C45: synchronisation of streams (stream.py).  [merge local secs] is the list of
    the items of Stream.merge: an item is the local observation and the outputs of the secondary streams;
    [merge] reads the first item of every generator, hence the local times are those of [tl local]. *)
From Coq Require Import String ZArith List Bool Lia.
From Verif Require Import Model.Encode Model.Stream Spec.StreamSpec Proofs.StreamProofs Proofs.StreamTrace.
Import ListNotations.

(** C40: changing what is not before the local times of [past] (secondary observations, later local times) does not change the items of [past]. *)
Theorem C40_causality :
  forall (V : Type) (first first' : (@obs V)) past future future' secs secs' items items',
  merge (first :: past ++ future) secs = Some items ->
    merge (first' :: past ++ future') secs' = Some items' ->
    same_past (map fst past) secs secs' ->
    firstn (length past) items = firstn (length past) items'.
Proof. exact @merge_causal. Qed.
Print Assumptions C40_causality.

(** C40: an observation in an output is one of the stream, strictly before the embedded value of the local time or of an earlier one (no order is assumed on times). *)
Theorem C40_only_past_observations :
  forall (V : Type) (local : list (@obs V)) secs items j o outs i cfg g out t v,
  merge local secs = Some items ->
    nth_error items j = Some (o, outs) -> nth_error secs i = Some (cfg, g) ->
    nth_error outs i = Some out -> In (Some t, v) (cells out) ->
    In (t, v) g /\ exists T, In T (map fst (firstn (S j) (tl local))) /\ (t < embed cfg T)%Z.
Proof. exact @merge_shows_past. Qed.
Print Assumptions C40_only_past_observations.

(** C40: at the frequency "d", strictly before the embedded time is: on an earlier day. *)
Theorem C40_daily_embedding :
  forall t o,
  (- 106751 * day <= t < 2 ^ 63)%Z -> (o < floor_day t)%Z ->
  (o < t)%Z /\ (o / day < t / day)%Z.
Proof. exact @floor_day_le. Qed.
Print Assumptions C40_daily_embedding.

Example C40_example :
  let local := [(0, 0); (10, 1); (20, 2); (30, 3)]%Z in
  let cfg := SecCfg (fun T => T) true None 99%Z in
  let g := [(5, 50); (15, 51)]%Z in
  merge local [(cfg, g ++ [(25, 52)]%Z)] = Some
    [((10, 1), [One (Some 5, 50)]); ((20, 2), [One (Some 15, 51)]); ((30, 3), [One (Some 25, 52)])]%Z /\
  same_past [10; 20]%Z [(cfg, g ++ [(25, 52)]%Z)] [(cfg, g ++ [(20, 7)]%Z)].
Proof.
  cbn. split; [reflexivity|]. constructor; [|constructor]. split; [reflexivity|].
  exists [(5, 50); (15, 51)]%Z, [(25, 52)]%Z, [(20, 7)]%Z. split; [reflexivity|]. split; [reflexivity|].
  cbn. intros T o [<-|[<-|[]]] [<-|[<-|[]]]; cbn; lia.
Qed.

(** C41: the latest observation strictly before the (embedded) local time, else the default; also after the end of the stream. *)
Theorem C41_ffill_latest_past_observation :
  forall (V : Type) (local : list (@obs V)) secs items j o outs i cfg g,
  merge local secs = Some items ->
    nth_error items j = Some (o, outs) -> nth_error secs i = Some (cfg, g) ->
    chronological (tl local) -> chronological g -> monotone_on (map fst (tl local)) (embed cfg) ->
    ffill cfg = true -> maxlen cfg = None ->
    nth_error outs i =
      Some (One (last (map real (strictly_before (embed cfg (fst o)) g)) (None, default cfg))).
Proof. exact @merge_ffill. Qed.
Print Assumptions C41_ffill_latest_past_observation.

(** C41: the hypothesis on the embedding holds of the identity and of the frequency "d". *)
Theorem C41_daily_embedding_monotone :
  forall Ts,
  (forall T, In T Ts -> (- 106751 * day <= T < 2 ^ 63)%Z) ->
  monotone_on Ts floor_day.
Proof. exact @floor_day_monotone. Qed.
Print Assumptions C41_daily_embedding_monotone.

Example C41_example :
  let local := [(0, 0); (10, 1); (20, 2); (30, 3); (40, 4)]%Z in
  merge local [(SecCfg (fun T => T) true None 99, [(12, 50); (15, 51); (30, 52)])]%Z = Some
    [((10, 1), [One (None, 99)]); ((20, 2), [One (Some 15, 51)]); ((30, 3), [One (Some 15, 51)]);
     ((40, 4), [One (Some 30, 52)])]%Z.
Proof. reflexivity. Qed.
Example C41_daily_example :
  monotone_on [1577836800000000005; 1577923200000000000]%Z floor_day.
Proof. apply floor_day_monotone. intros T [<-|[<-|[]]]; unfold day; lia. Qed.

(** C42: without ffill: the latest observation since the previous local time, else the default. *)
Theorem C42_new_observations_only :
  forall (V : Type) (local : list (@obs V)) secs items k p o pouts outs i cfg g,
  merge local secs = Some items ->
    nth_error items k = Some (p, pouts) ->
    nth_error items (S k) = Some (o, outs) -> nth_error secs i = Some (cfg, g) ->
    chronological (tl local) -> chronological g -> monotone_on (map fst (tl local)) (embed cfg) ->
    ffill cfg = false -> maxlen cfg = None ->
    nth_error outs i =
      Some (One (last (map real (between (embed cfg (fst p)) (embed cfg (fst o)) g)) (None, default cfg))).
Proof. exact @merge_no_ffill. Qed.
Print Assumptions C42_new_observations_only.

(** C42: at the first local time: since ever. *)
Theorem C42_first_step :
  forall (V : Type) (local : list (@obs V)) secs items o outs i cfg g,
  merge local secs = Some items ->
    nth_error items 0 = Some (o, outs) -> nth_error secs i = Some (cfg, g) ->
    chronological g -> ffill cfg = false -> maxlen cfg = None ->
    nth_error outs i =
      Some (One (last (map real (strictly_before (embed cfg (fst o)) g)) (None, default cfg))).
Proof. exact @merge_no_ffill_first. Qed.
Print Assumptions C42_first_step.

Example C42_example :
  let local := [(0, 0); (10, 1); (20, 2); (30, 3); (40, 4)]%Z in
  merge local [(SecCfg (fun T => T) false None 99, [(12, 50); (15, 51); (30, 52)])]%Z = Some
    [((10, 1), [One (None, 99)]); ((20, 2), [One (Some 15, 51)]); ((30, 3), [One (None, 99)]);
     ((40, 4), [One (Some 30, 52)])]%Z.
Proof. reflexivity. Qed.

(** C43: a forward-filled buffer holds the last n available observations of the generator in order, padded in front by the default. *)
Theorem C43_window_ffill :
  forall (V : Type) (local : list (@obs V)) secs items j o outs i cfg g n,
  merge local secs = Some items ->
    nth_error items j = Some (o, outs) -> nth_error secs i = Some (cfg, g) ->
    chronological (tl local) -> chronological g -> monotone_on (map fst (tl local)) (embed cfg) ->
    ffill cfg = true -> maxlen cfg = Some n ->
    nth_error outs i =
      Some (Win (padded_window n (None, default cfg) (strictly_before (embed cfg (fst o)) g))).
Proof. exact @merge_window_ffill. Qed.
Print Assumptions C43_window_ffill.

(** C43: without ffill the window shows when there is a new observation, otherwise all of it reverts to the default. *)
Theorem C43_window_no_ffill :
  forall (V : Type) (local : list (@obs V)) secs items k p o pouts outs i cfg g n,
  merge local secs = Some items ->
    nth_error items k = Some (p, pouts) ->
    nth_error items (S k) = Some (o, outs) -> nth_error secs i = Some (cfg, g) ->
    chronological (tl local) -> chronological g -> monotone_on (map fst (tl local)) (embed cfg) ->
    ffill cfg = false -> maxlen cfg = Some n ->
    nth_error outs i = Some (Win (
      if between (embed cfg (fst p)) (embed cfg (fst o)) g
      then repeat (None, default cfg) n
      else padded_window n (None, default cfg) (strictly_before (embed cfg (fst o)) g))).
Proof. exact @merge_window_no_ffill. Qed.
Print Assumptions C43_window_no_ffill.

Theorem C43_window_no_ffill_first :
  forall (V : Type) (local : list (@obs V)) secs items o outs i cfg g n,
  merge local secs = Some items ->
    nth_error items 0 = Some (o, outs) -> nth_error secs i = Some (cfg, g) ->
    chronological g -> ffill cfg = false -> maxlen cfg = Some n ->
    nth_error outs i =
      Some (Win (padded_window n (None, default cfg) (strictly_before (embed cfg (fst o)) g))).
Proof. exact @merge_window_no_ffill_first. Qed.
Print Assumptions C43_window_no_ffill_first.

(** C43: the generator of a chronological dataset is chronological. *)
Theorem C43_dataset_generator_chronological :
  forall (V : Type) (data g : list (@obs V)),
  start_dataset_stream data = Some g ->
    chronological data -> chronological g.
Proof. exact @dataset_chronological. Qed.
Print Assumptions C43_dataset_generator_chronological.

(** C43: but the generator of a dataset yields the first observation twice: as long as fewer than n observations are available the window holds it twice (refuting the claim for these windows); it is right once n are available. *)
Theorem C43_dataset_first_observation_duplicated :
  forall (V : Type) (data g : list (@obs V)) o r T n fill,
  data = o :: r -> start_dataset_stream data = Some g ->
    (fst o < T)%Z ->
    padded_window n fill (strictly_before T g) =
    if n <=? length (strictly_before T data) then lastn n (map real (strictly_before T data))
    else repeat fill (n - S (length (strictly_before T data))) ++ real o :: map real (strictly_before T data).
Proof. exact @dataset_window. Qed.
Print Assumptions C43_dataset_first_observation_duplicated.

Example C43_example :
  let local := [(0, 0); (10, 1); (20, 2)]%Z in
  let data := [(5, 50); (15, 51); (16, 52); (17, 53)]%Z in
  exists g, start_dataset_stream data = Some g /\
  merge local [(SecCfg (fun T => T) true (Some 3) 99%Z, g)] = Some
    [((10, 1), [Win [(None, 99); (Some 5, 50); (Some 5, 50)]]);
     ((20, 2), [Win [(Some 15, 51); (Some 16, 52); (Some 17, 53)]])]%Z.
Proof. eexists. split; reflexivity. Qed.

(** C44: the outputs of the traced merge, accessed, are those of the plain merge, for every stream, step, buffer, frequency. *)
Theorem C44_traced_indices :
  forall (V : Type) (d : V) data gz g e ff ml k (localz : list (@obs Z)) (local : list (@obs V))
    secsz secs itemsz items j oz outsz o outs i,
  (k < 0)%Z ->
  start_dataset_stream (trace_obs data) = Some gz -> start_dataset_stream data = Some g ->
  nth_error secsz i = Some (SecCfg e ff ml k, gz) -> nth_error secs i = Some (SecCfg e ff ml d, g) ->
  map fst localz = map fst local -> merge localz secsz = Some itemsz -> merge local secs = Some items ->
  nth_error itemsz j = Some (oz, outsz) -> nth_error items j = Some (o, outs) ->
  exists outz out, nth_error outsz i = Some outz /\ nth_error outs i = Some out /\
    map fst (cells outz) = map fst (cells out) /\
    access_out d (map snd data) outz = out_values out.
Proof. exact @trace_access. Qed.
Print Assumptions C44_traced_indices.

(** C44: the same for the local stream. *)
Theorem C44_traced_local_indices :
  forall (V : Type) (d : V) (ldata : list (@obs V)) gz secsz itemsz j oz outsz,
  start_dataset_stream (trace_obs ldata) = Some gz -> merge gz secsz = Some itemsz ->
  nth_error itemsz j = Some (oz, outsz) ->
  exists v, nth_error ldata j = Some (fst oz, v) /\ access d (map snd ldata) (snd oz) = v.
Proof. exact @trace_local. Qed.
Print Assumptions C44_traced_local_indices.

(** C44: if buffer_dtype_init_values gives integers a default k >= 0, then, where there is no observation, the access gives the datum of position k. *)
Theorem C44_nonnegative_default_refuted :
  forall (V : Type) (d : V) (data : list (@obs V)) gz e ff k T v (localz : list (@obs Z)) secsz itemsz j oz outsz i,
  nth_error data k = Some (T, v) ->
  start_dataset_stream (trace_obs data) = Some gz ->
  nth_error secsz i = Some (SecCfg e ff None (Z.of_nat k), gz) -> merge localz secsz = Some itemsz ->
  nth_error itemsz j = Some (oz, outsz) ->
  (forall To o, In To (firstn (S j) (tl localz)) -> In o data -> (e (fst To) <= fst o)%Z) ->
  exists outz, nth_error outsz i = Some outz /\ access_out d (map snd data) outz = [v].
Proof. exact @access_positive_default. Qed.
Print Assumptions C44_nonnegative_default_refuted.

(** C44: scalars without time dimension are constant. *)
Theorem C44_constant_scalars :
  forall (V : Type) (d x : V) step,
  access_constant_scalar d x step = x.
Proof. exact @constant_scalar. Qed.
Print Assumptions C44_constant_scalars.

(** C44: vectors without time dimension are not: at step s the component i is the component min(s*i, m-1) of the data. *)
Theorem C44_constant_vectors_refuted :
  forall (V : Type) (d : V) x step i,
  i < length x ->
  nth_error (access_constant_vector d x step) i = nth_error x (Nat.min (step * i) (length x - 1)).
Proof. exact @constant_vector. Qed.
Print Assumptions C44_constant_vectors_refuted.

Example C44_example :
  let data := [(5, true); (15, false)]%Z in
  exists gz g, start_dataset_stream (trace_obs data) = Some gz /\ start_dataset_stream data = Some g /\
   merge [(0, 0); (5, 0); (6, 0)]%Z [(SecCfg (fun T => T) true (Some 3) index_default, gz)] = Some
     [((5, 0), [Win [(None, -99999); (None, -99999); (None, -99999)]]);
      ((6, 0), [Win [(None, -99999); (Some 5, 0); (Some 5, 0)]])]%Z.
Proof. do 2 eexists. repeat split; reflexivity. Qed.
Example C44_constant_example :
  map (access_constant_vector 0 [7; 8; 9])%nat [0; 1; 2]%nat = [[7; 7; 7]; [7; 8; 9]; [7; 9; 9]]%nat.
Proof. reflexivity. Qed.

(** C45: the local observations of the items are those of the local stream (the first read by the initialisation apart), in order. *)
Theorem C45_one_item_per_local_time :
  forall (V : Type) (local : list (@obs V)) secs items,
  merge local secs = Some items -> map fst items = tl local.
Proof. exact @merge_local. Qed.
Print Assumptions C45_one_item_per_local_time.

Theorem C45_one_output_per_stream :
  forall (V : Type) (local : list (@obs V)) secs items j o outs,
  merge local secs = Some items ->
    nth_error items j = Some (o, outs) -> length outs = length secs.
Proof. exact @merge_outs. Qed.
Print Assumptions C45_one_output_per_stream.

(** C45: the merge fails only on an empty generator or a buffer of length 0. *)
Theorem C45_merge_defined :
  forall (V : Type) (local : list (@obs V)) secs,
  (exists items, merge local secs = Some items) <->
    local <> [] /\ forall cfg g, In (cfg, g) secs -> g <> [] /\ maxlen cfg <> Some 0.
Proof. exact @merge_defined. Qed.
Print Assumptions C45_merge_defined.

(** C45: with datasets the local stream is the whole dataset. *)
Theorem C45_dataset_items :
  forall (V : Type) (data g : list (@obs V)) secs items, start_dataset_stream data = Some g ->
    merge g secs = Some items -> map fst items = data.
Proof.
  intros V data g secs items Hg Hm. rewrite (merge_local _ _ _ Hm). unfold start_dataset_stream in Hg.
  destruct data; [discriminate|]. now injection Hg as <-.
Qed.
Print Assumptions C45_dataset_items.

(** C45: unroll_stream collects the values of each leaf. *)
Theorem C45_unroll_stream :
  forall (A : Type) (items : list (list A)) k res,
  items <> [] -> Forall (fun it => length it = k) items -> unroll_stream false items = Some res ->
  length res = k /\ forall i ys, nth_error res i = Some ys ->
    map Some ys = map (fun it => nth_error it i) items.
Proof. exact @unroll_stream_collects. Qed.
Print Assumptions C45_unroll_stream.

Theorem C45_unroll_stream_runs :
  forall (A : Type) (items : list (list A)) k,
  items <> [] -> Forall (fun it => length it = k) items -> exists res, unroll_stream false items = Some res.
Proof. exact @unroll_stream_runs. Qed.
Print Assumptions C45_unroll_stream_runs.

(** C45: unroll_stream with skip_first is right for items of one leaf ... *)
Theorem C45_unroll_stream_skip_first_one_leaf :
  forall (A : Type) (first : A) (r : list A),
  r <> [] ->
  unroll_stream true (map (fun x => [x]) (first :: r)) = Some [r].
Proof. exact @unroll_stream_skip_one. Qed.
Print Assumptions C45_unroll_stream_skip_first_one_leaf.

(** ... with k >= 2 leaves every leaf of the result has k values per item. *)
Theorem C45_unroll_stream_skip_first_refuted :
  forall (A : Type) (first : list A) (r : list (list A)) k res,
  2 <= k -> r <> [] ->
  Forall (fun it => length it = k) (first :: r) ->
  unroll_stream true (first :: r) = Some res ->
  forall i ys, nth_error res i = Some ys -> length ys = k * length r.
Proof. exact @unroll_stream_skip_wrong. Qed.
Print Assumptions C45_unroll_stream_skip_first_refuted.

Example C45_example :
  unroll_stream false [[1; 10]; [2; 20]; [3; 30]] = Some [[1; 2; 3]; [10; 20; 30]] /\
  unroll_stream true [[1; 10]; [2; 20]; [3; 30]] = Some [[2; 20; 3; 30]; [2; 20; 3; 30]].
Proof. split; reflexivity. Qed.

(** C45: the local time, when not given, is the only time dimension. *)
Theorem C45_local_time :
  forall (d : string) (ds : list string), get_local_time "" ds = Some d <-> ds = [d].
Proof.
  intros d ds. unfold get_local_time. cbn. destruct ds as [|a [|b r]]; split; intros H; try discriminate; congruence.
Qed.
Print Assumptions C45_local_time.
