(** Property theorems C57, C58, C69, C70, C71: the compressed buffers.
    [flax_from_scratch m xs]: the outputs of the module called on [xs] from the initial values of its variables;
    [padded_window n fill xs]: the last n elements of xs, preceded by fill values if there are fewer;
    [index_safe n xs]: no more calls than the limit of C49. *)
From Coq Require Import String List Bool Arith ZArith Lia Permutation Sorted Reals Lra.
From Verif Require Import Model.Float Model.Ewm Model.FlaxModules Model.Compressed Spec.FlaxSpec Spec.CompressedSpec
  Proofs.CompressedProofs Proofs.CompressedProofs2 Proofs.CompressedProofs3.
Import ListNotations.

(** C57: with downsampling by f the buffer holds the last max(1, maxlen/f) of the inputs 0, f, 2f, ...; it is returned oldest first on the calls that store an input, and rotated by the number of stored inputs on the others. *)
Theorem C57_downsample :
  forall (fm : R) (ti : fl -> Z) (maxlen f : nat) (fill : fl),
  0 < f -> forall x0 xs t,
  index_safe (Nat.max 1 (maxlen / f)) (x0 :: xs) -> t < length (x0 :: xs) ->
    let stored := sampled f (firstn (t + 1) (x0 :: xs)) in
    exists w, nth_error (flax_from_scratch (CompressedBuffer fm ti maxlen (SDownsample f) fill) (x0 :: xs)) t = Some (OVec w) /\
      (t mod f = 0 -> w = padded_window (Nat.max 1 (maxlen / f)) fill stored) /\
      rotated (if Nat.eqb (t mod f) 0 then 0 else length stored mod (Nat.max 1 (maxlen / f))) w = padded_window (Nat.max 1 (maxlen / f)) fill stored.
Proof. exact @down_spec. Qed.
Print Assumptions C57_downsample.

(** C57: the j-th stored input is the input j*f. *)
Theorem C57_sampled :
  forall (A : Type) f (xs : list A) j,
  0 < f -> nth_error (sampled f xs) j = nth_error xs (j * f).
Proof. exact @sampled_nth. Qed.
Print Assumptions C57_sampled.

(** C57: without compression it is the window of the last maxlen inputs. *)
Theorem C57_none :
  forall fm ti maxlen fill x0 xs t,
  0 < maxlen -> index_safe maxlen (x0 :: xs) -> t < length (x0 :: xs) ->
  nth_error (flax_from_scratch (CompressedBuffer fm ti maxlen SNone fill) (x0 :: xs)) t =
  Some (OVec (padded_window maxlen fill (firstn (t + 1) (x0 :: xs)))).
Proof. exact @none_spec. Qed.
Print Assumptions C57_none.

(** C57: with EWMA compression the outputs are those of EWMA(alpha) with default parameters; maxlen has no effect. *)
Theorem C57_ewma :
  forall fm ti maxlen a fill x0 xs,
  flax_from_scratch (CompressedBuffer fm ti maxlen (SEwma a) fill) (x0 :: xs) =
  map (fun o => OScalar (fst o)) (flax_from_scratch (FEWMA fm (EwmaCfg (1 / a - 1)%R 0 AdjTrue false NaN)) (x0 :: xs)).
Proof. exact @ewma_spec. Qed.
Print Assumptions C57_ewma.

Example C57_example :
  let fl3 := map (fun z => Fin (IZR z)) in
  flax_from_scratch (CompressedBuffer 0 (fun _ => 0%Z) 4 (SDownsample 2) (Fin 0)) (fl3 [1; 2; 3; 4; 5; 6]%Z) =
    [OVec (fl3 [0; 1]%Z); OVec (fl3 [1; 0]%Z); OVec (fl3 [1; 3]%Z); OVec (fl3 [1; 3]%Z); OVec (fl3 [3; 5]%Z); OVec (fl3 [5; 3]%Z)] /\
  index_safe (Nat.max 1 (4 / 2)) (fl3 [1; 2; 3; 4; 5; 6]%Z).
Proof. split; [reflexivity|left; reflexivity]. Qed.

(** C58: the recent level is the window of all inputs; the medium and long levels give, on every 5th and 50th call, the output of their CompressedBuffer fed with the inputs 0, 5, 10, ... (0, 50, 100, ...) only; on the other calls they give that same output again for EWMA compression, and 0.0 for any other compression. *)
Theorem C58_levels :
  forall (fm : R) (ti : fl -> Z) (rl ml ll : nat) (med lng : strategy) (fill : fl) x0 xs t x,
  0 < rl -> index_safe rl (x0 :: xs) -> nth_error (x0 :: xs) t = Some x ->
    exists o, nth_error (flax_from_scratch (HierarchicalBuffer fm ti rl ml ll med lng fill) (x0 :: xs)) t = Some o /\
      o_input o = x /\ o_recent o = padded_window rl fill (firstn (t + 1) (x0 :: xs)) /\
      (exists y ys l, sampled 5 (firstn (t + 1) (x0 :: xs)) = y :: ys /\
         last (map Some (flax_from_scratch (CompressedBuffer fm ti ml med fill) (y :: ys))) None = Some l /\
         o_medium o = if Nat.eqb (t mod 5) 0 then l else match med with SEwma _ => l | _ => OScalar (Fin 0) end) /\
      (exists y ys l, sampled 50 (firstn (t + 1) (x0 :: xs)) = y :: ys /\
         last (map Some (flax_from_scratch (CompressedBuffer fm ti ll lng fill) (y :: ys))) None = Some l /\
         o_long o = if Nat.eqb (t mod 50) 0 then l else match lng with SEwma _ => l | _ => OScalar (Fin 0) end).
Proof. exact @hb_spec. Qed.
Print Assumptions C58_levels.

(** So for the other compressions the level is only available on every 5th call (C58 fails in between). *)
Example C58_stale_level_refuted :
  map o_medium (flax_from_scratch (HierarchicalBuffer 0 (fun _ => 0%Z) 2 2 2 SNone SNone (Fin 0))
    (map (fun z => Fin (IZR z)) [7; 8]%Z)) = [OVec [Fin 0; Fin 7]; OScalar (Fin 0)].
Proof. reflexivity. Qed.

(** C69: the quantile estimates are computed on the calls 0, 10, 20, ... from the non-missing values of the window of the last min(maxlen, 1000) inputs, if there are any, and repeated otherwise. *)
Theorem C69_estimates :
  forall (fm : R) (ti : fl -> Z) (maxlen : nat) (fill : fl) (ps : list R),
  0 < maxlen -> forall x0 xs t,
  index_safe (Nat.min maxlen (Z.to_nat 1000)) (x0 :: xs) -> t < length (x0 :: xs) ->
    let window := padded_window (Nat.min maxlen (Z.to_nat 1000)) fill (firstn (t + 1) (x0 :: xs)) in
    let out := fun k => nth_error (flax_from_scratch (CompressedBuffer fm ti maxlen (SQuantile ps) fill) (x0 :: xs)) k in
    (t mod 10 = 0 -> valid window <> [] -> out t = Some (OVec (map (quantile_at (fsort (valid window))) ps))) /\
    (t <> 0 -> t mod 10 <> 0 \/ valid window = [] -> out t = out (t - 1)) /\
    (t = 0 -> valid window = [] -> out t = Some (OVec (map (fun _ => fill) ps))).
Proof. exact @quantile_spec. Qed.
Print Assumptions C69_estimates.

(** C69: when these values are finite the estimates are their quantiles (linear interpolation between order statistics) ... *)
Theorem C69_quantiles :
  forall fm ti maxlen fill ps x0 xs t vs,
  0 < maxlen ->
  index_safe (Nat.min maxlen (Z.to_nat 1000)) (x0 :: xs) -> t < length (x0 :: xs) -> t mod 10 = 0 ->
  valid (padded_window (Nat.min maxlen (Z.to_nat 1000)) fill (firstn (t + 1) (x0 :: xs))) = map Fin vs -> vs <> [] ->
  Forall (fun p => 0 <= p <= 1)%R ps ->
  exists qs, nth_error (flax_from_scratch (CompressedBuffer fm ti maxlen (SQuantile ps) fill) (x0 :: xs)) t =
    Some (OVec (map Fin qs)) /\ Forall2 (is_quantile vs) ps qs.
Proof. exact @quantile_finite. Qed.
Print Assumptions C69_quantiles.

(** ... which lie between values of the window ... *)
Theorem C69_between :
  forall vs p q,
  is_quantile vs p q ->
  exists lo hi, In lo vs /\ In hi vs /\ (lo <= q <= hi)%R.
Proof. exact @is_quantile_between. Qed.
Print Assumptions C69_between.

(** ... and increase with the percentile. *)
Theorem C69_monotone :
  forall vs p q p' q',
  is_quantile vs p q -> is_quantile vs p' q' -> (p <= p')%R -> (q <= q')%R.
Proof. exact @is_quantile_monotone. Qed.
Print Assumptions C69_monotone.

(** The fill value (0.0 by default) counts as an observation until the window is full: the median of a single 5 is 0. *)
Example C69_fill_value_counts :
  exists q, flax_from_scratch (CompressedBuffer 0 (fun _ => 0%Z) 3 (SQuantile [1 / 2]%R) (Fin 0)) [Fin 5] = [OVec [Fin q]] /\
    is_quantile [0; 0; 5]%R (1 / 2) q /\ q = 0%R.
Proof.
  destruct (quantile_finite 0 (fun _ => 0%Z) 3 (Fin 0) [1 / 2]%R (Fin 5) [] 0 [0; 0; 5]%R) as (qs & E & F);
    [lia|left; reflexivity|cbn; lia|reflexivity|reflexivity|easy|repeat constructor; lra|].
  inversion F as [|p q ps qs' Hq F']; subst. inversion F'; subst. exists q.
  split; [|split; [exact Hq|]].
  - destruct (flax_from_scratch _ [Fin 5]) as [|a [|b l]] eqn:G; [discriminate E|cbn in E; injection E as ->; reflexivity|discriminate G].
  - assert (S0 : is_quantile [0; 0; 5]%R (1 / 2) 0).
    { exists [0; 0; 5]%R, 1, 0%R. split; [apply Permutation_refl|]. split; [repeat constructor; lra|].
      split; [lra|]. split; [cbn; lra|]. split; [cbn; lia|]. split; [now left|]. cbn. lra. }
    pose proof (is_quantile_monotone _ _ _ _ _ S0 Hq (Rle_refl _)).
    pose proof (is_quantile_monotone _ _ _ _ _ Hq S0 (Rle_refl _)). lra.
Qed.

(** C70: the entry j of the vector returned with sketching is the smallest, over the hash functions, of the numbers of inputs so far that the function puts in bucket j. *)
Theorem C70_sketch_counts :
  forall (fm : R) (ti : fl -> Z) (maxlen h nb : nat) (fill : fl),
  0 < nb -> forall x0 xs t,
  0 < h -> t < length (x0 :: xs) ->
    exists counts, nth_error (flax_from_scratch (CompressedBuffer fm ti maxlen (SSketching h nb) fill) (x0 :: xs)) t = Some (OCounts counts) /\ length counts = nb /\
      forall j, j < nb ->
        (exists i, i < h /\ nth j counts 0 = hits nb ti i j (firstn (t + 1) (x0 :: xs))) /\
        (forall i, i < h -> nth j counts 0 <= hits nb ti i j (firstn (t + 1) (x0 :: xs))).
Proof. exact @sketch_spec. Qed.
Print Assumptions C70_sketch_counts.

(** C70: the table behind it never underestimates: for each hash function the count of the bucket of x is at least the number of occurrences of x. *)
Theorem C70_table_overestimates :
  forall (ti : fl -> Z) (nb : nat) i x xs,
  occurrences ti x xs <= hits nb ti i (bucket nb i (ti x)) xs.
Proof. exact @hits_count. Qed.
Print Assumptions C70_table_overestimates.

(** C70 fails for what is returned: the minimum is taken over a same column and not over the buckets of a value.  With the default 4 x 1024 table all entries are 0 after any number of inputs of code 0, which none of them counts. *)
Theorem C70_not_a_frequency_refuted :
  forall fm ti maxlen fill x0 xs t,
  (forall x, In x (x0 :: xs) -> ti x = 0%Z) -> t < length (x0 :: xs) ->
  exists counts, nth_error (flax_from_scratch (CompressedBuffer fm ti maxlen (SSketching 4 (Z.to_nat 1024)) fill) (x0 :: xs)) t =
    Some (OCounts counts) /\ forall j, nth j counts 0 = 0.
Proof. exact @sketch_zero. Qed.
Print Assumptions C70_not_a_frequency_refuted.

Example C70_example :
  flax_from_scratch (CompressedBuffer 0 (fun _ => 0%Z) 9 (SSketching 2 2) (Fin 0)) [Fin 5; Fin 6] = [OCounts [0; 1]; OCounts [0; 2]] /\
  flax_from_scratch (CompressedBuffer 0 (fun _ => 0%Z) 9 (SSketching 2 4) (Fin 0)) [Fin 5; Fin 6] = [OCounts [0; 0; 0; 0]; OCounts [0; 0; 0; 0]] /\
  occurrences (fun _ => 0%Z) (Fin 5) [Fin 5; Fin 6] = 2.
Proof. split; [reflexivity|]. split; reflexivity. Qed.

(** C71: the number of values a CompressedBuffer keeps never changes ... *)
Theorem C71_memory_constant :
  forall fm ti maxlen s fill x0 xs,
  0 < maxlen -> (forall h nb, s = SSketching h nb -> 0 < nb) ->
  let module := CompressedBuffer fm ti maxlen s fill in
  cells (snd (flax_calls module (fx_vars module x0) xs)) = cells (fx_vars module x0).
Proof. exact (fun fm ti maxlen s fill x0 xs => memory_constant fm ti maxlen s fill xs). Qed.
Print Assumptions C71_memory_constant.

(** ... and get_memory_usage reports 8 bytes for each, plus the counter or hash parameters, except that a downsampled buffer with factor > maxlen, which keeps one value, is reported as keeping none. *)
Theorem C71_memory_report :
  forall fm ti (maxlen : nat) (s : strategy) (fill : fl) x0,
  0 < maxlen ->
  let stored := 8 * cells (fx_vars (CompressedBuffer fm ti maxlen s fill) x0) in
  match s with
  | SEwma _ | SQuantile _ => memory_usage s maxlen = stored + 4
  | SDownsample f => 0 < f -> memory_usage s maxlen = (if f <=? maxlen then stored + 4 else stored - 4)
  | SSketching h _ => memory_usage s maxlen = stored + 8 * h
  | SNone => memory_usage s maxlen = stored
  end.
Proof. exact (fun fm ti maxlen s fill x0 => memory_report maxlen s fill). Qed.
Print Assumptions C71_memory_report.

(** C71: get_total_memory_usage of a HierarchicalBuffer is the sum over its levels, sketching excepted ... *)
Theorem C71_total :
  forall rl ml ll m l sm sl,
  medium_strategy m = Some sm -> long_strategy l = Some sl ->
  m <> "sketching"%string -> l <> "sketching"%string ->
  total_memory_usage rl ml ll m l = rl * 8 + memory_usage sm ml + memory_usage sl ll.
Proof. exact @memory_total. Qed.
Print Assumptions C71_total.

(** ... for which the size of an uncompressed buffer is reported instead of that of the table. *)
Example C71_sketching_refuted :
  total_memory_usage 1 1 1 "sketching" "none" = 24 /\
  exists s, medium_strategy "sketching" = Some s /\ Z.of_nat (memory_usage s 1) = 32800%Z /\
  memory_usage (SDownsample 2) 5 = 20 /\ memory_usage (SDownsample 9) 5 = 4 /\
  cells (cb_init (SDownsample 9) 5 (Fin 0)) = 1.
Proof.
  split; [reflexivity|]. exists (SSketching 4 (Z.to_nat 1024)). split; [reflexivity|].
  split; [cbn [memory_usage get_or p_num_hashes p_num_buckets]; rewrite Nat2Z.inj_add, !Nat2Z.inj_mul, Z2Nat.id by lia; reflexivity|repeat split; reflexivity].
Qed.

(** C96: only the five documented compressions are accepted ... *)
Theorem C96_names :
  forall fm ti (maxlen : nat) (name : string) (params : option cparams) (fill : fl),
  compressed_buffer fm ti maxlen name params fill <> None <->
  In name ["ewma"; "quantile"; "downsample"; "sketching"; "none"]%string.
Proof. exact @buffer_known. Qed.
Print Assumptions C96_names.

(** ... by a HierarchicalBuffer too. *)
Theorem C96_level_names :
  forall fm ti (rl ml ll : nat) (medium long : string) (fill : fl),
  hierarchical_buffer fm ti rl ml ll medium long fill <> None <->
  In medium ["ewma"; "quantile"; "downsample"; "sketching"; "none"]%string /\
  In long ["ewma"; "quantile"; "downsample"; "sketching"; "none"]%string.
Proof. exact @hierarchical_known. Qed.
Print Assumptions C96_level_names.

(** C96: without compression_params, or with an empty dict, the documented defaults are used. *)
Theorem C96_defaults :
  forall fm ti (maxlen : nat) (fill : fl) (params : option cparams),
  params = None \/ params = Some (CParams None None None None None false) ->
  let buffer := fun name => compressed_buffer fm ti maxlen name params fill in
  let built := fun s => Some (CompressedBuffer fm ti maxlen s fill) in
  buffer "ewma"%string = built (SEwma (1 / 10)%R) /\
  buffer "quantile"%string = built (SQuantile [10 / 100; 25 / 100; 50 / 100; 75 / 100; 90 / 100]%R) /\
  buffer "downsample"%string = built (SDownsample 2) /\
  buffer "sketching"%string = built (SSketching 4 (Z.to_nat 1024)) /\
  buffer "none"%string = built SNone.
Proof. exact @default_settings. Qed.
Print Assumptions C96_defaults.

(** C96: a setting given is the one used, whatever the other keys. *)
Theorem C96_settings :
  forall fm ti (maxlen : nat) (fill : fl) (p : cparams),
  let buffer := fun name => compressed_buffer fm ti maxlen name (Some p) fill in
  let built := fun s => Some (CompressedBuffer fm ti maxlen s fill) in
  (forall a, p_alpha p = Some a -> buffer "ewma"%string = built (SEwma a)) /\
  (forall ps, p_percentiles p = Some ps -> buffer "quantile"%string = built (SQuantile ps)) /\
  (forall f, p_factor p = Some f -> buffer "downsample"%string = built (SDownsample f)) /\
  (forall h b, p_num_hashes p = Some h -> p_num_buckets p = Some b -> buffer "sketching"%string = built (SSketching h b)) /\
  (forall h, p_num_hashes p = Some h -> p_num_buckets p = None -> buffer "sketching"%string = built (SSketching h (Z.to_nat 1024))) /\
  (forall b, p_num_buckets p = Some b -> p_num_hashes p = None -> buffer "sketching"%string = built (SSketching 4 b)) /\
  buffer "none"%string = built SNone.
Proof. exact @settings. Qed.
Print Assumptions C96_settings.

(** C96: with EWMA levels a HierarchicalBuffer returns, on every call, the EWMA with alpha = 0.1 of the inputs 0, 5, 10, ... and the one with alpha = 0.01 of the inputs 0, 50, 100, ... *)
Theorem C96_ewma_levels :
  forall fm ti (rl ml ll : nat) (fill : fl),
  exists module, hierarchical_buffer fm ti rl ml ll "ewma" "ewma" fill = Some module /\
  forall x0 xs t x, 0 < rl -> index_safe rl (x0 :: xs) -> nth_error (x0 :: xs) t = Some x ->
  exists o m l, nth_error (flax_from_scratch module (x0 :: xs)) t = Some o /\
    o_input o = x /\ o_recent o = padded_window rl fill (firstn (t + 1) (x0 :: xs)) /\
    o_medium o = OScalar m /\ o_long o = OScalar l /\
    last (map Some (map fst (flax_from_scratch (FEWMA fm (EwmaCfg (1 / (1 / 10) - 1)%R 0 AdjTrue false NaN)) (sampled 5 (firstn (t + 1) (x0 :: xs)))))) None = Some m /\
    last (map Some (map fst (flax_from_scratch (FEWMA fm (EwmaCfg (1 / (1 / 100) - 1)%R 0 AdjTrue false NaN)) (sampled 50 (firstn (t + 1) (x0 :: xs)))))) None = Some l.
Proof. exact @hierarchical_ewma. Qed.
Print Assumptions C96_ewma_levels.

(** C96 fails for a non-empty dict without the key of a quantile buffer: it gets three percentiles, not the documented five. *)
Example C96_fallback_refuted :
  strategy_of "quantile" (Some (CParams None None None None None true)) = Some (SQuantile [25 / 100; 50 / 100; 75 / 100]%R) /\
  strategy_of "quantile" None <> strategy_of "quantile" (Some (CParams None None None None None true)) /\
  strategy_of "ewma" (Some (CParams None None None None None true)) = strategy_of "ewma" None.
Proof. repeat split; try reflexivity. discriminate. Qed.
