(** Model of /repo/src/wax/flax/modules/compressed_buffer.py on scalar inputs (run eagerly: the Python counters are
    unbounded integers and the tests on them are Python tests). *)
From Coq Require Import String List Bool Arith ZArith Reals.
From Verif Require Import Model.Unroll Model.Float Model.Modules Model.Ewm Model.FlaxModules.
Import ListNotations.

(** compression and compression_params, lines 95-123: the parameters after defaulting.  An unknown name raises
    ValueError (see [strategy_of]). *)
Inductive strategy :=
| SEwma (alpha : R)
| SQuantile (percentiles : list R)
| SDownsample (factor : nat)
| SSketching (num_hashes num_buckets : nat)
| SNone.

(** The variables created by setup (lines 125-186). *)
Inductive cb_state :=
| CEwma (ewma : ewma_state) (compressed : fl) (count : nat)
| CQuantile (buffer : ring_state fl) (estimates : list fl) (update_count : nat)
| CDownsample (buffer : ring_state fl) (sample_counter : nat)
| CSketch (sketch : list (list nat))
| CNone (buffer : ring_state fl).

(** What a call returns: a scalar, a vector, or counts. *)
Inductive cb_out := OScalar (v : fl) | OVec (l : list fl) | OCounts (l : list nat).

(** lines 125-136: EWMA(alpha=alpha), all other parameters at their defaults *)
Definition cb_cfg (alpha : R) : ewma_cfg := EwmaCfg (1 / alpha - 1)%R 0 AdjTrue false NaN.

(** lines 158-159 *)
Definition down_maxlen (maxlen factor : nat) : nat := Nat.max 1 (maxlen / factor).

Definition cb_init (s : strategy) (maxlen : nat) (fill : fl) : cb_state :=
  match s with
  | SEwma a => CEwma (ewma_init (cb_cfg a)) (Fin 0) 0
  | SQuantile ps => CQuantile (ring_init (Nat.min maxlen (Z.to_nat 1000)) fill) (map (fun _ => fill) ps) 0
  | SDownsample f => CDownsample (ring_init (down_maxlen maxlen f) fill) 0
  | SSketching h b => CSketch (repeat (repeat 0 b) h)
  | SNone => CNone (ring_init maxlen fill)
  end.

(** jnp.sort *)
Fixpoint insert (x : fl) (l : list fl) : list fl :=
  match l with [] => [x] | y :: r => if fle x y then x :: l else y :: insert x r end.
Definition fsort (l : list fl) : list fl := fold_right insert [] l.
(** jnp.floor and jnp.ceil to int32 *)
Definition floorZ (r : R) : Z := Int_part r.
Definition ceilZ (r : R) : Z := (- Int_part (- r))%Z.
(** lines 226-240: linear interpolation in the sorted values *)
Definition quantile_at (sorted : list fl) (p : R) : fl :=
  let index := (p * (INR (length sorted) - 1))%R in
  let lower := nth (Z.to_nat (floorZ index)) sorted NaN in
  let upper := nth (Z.to_nat (ceilZ index)) sorted NaN in
  let weight := Fin (index - IZR (floorZ index))%R in
  fadd lower (fmul weight (fsub upper lower)).

(** lines 177-182: the parameters of the hash functions; an index past the end is clamped *)
Definition hash_params : list (Z * Z) := [(31, 17); (37, 23); (41, 29); (43, 31)]%Z.
Definition hash_row (i : nat) : Z * Z := nth (Nat.min i 3) hash_params (0, 0)%Z.
(** line 275, int32 arithmetic *)
Definition bucket (num_buckets : nat) (i : nat) (x_int : Z) : nat :=
  let '(a, b) := hash_row i in
  Z.to_nat (wrap32 (wrap32 (a * x_int) + b) mod Z.of_nat num_buckets).
(** sketch.at[i, bucket].add(1); counts are exact (float32 counts stop at 2^24) *)
Definition add_one (row : list nat) (j : nat) : list nat := set_at row j (nth j row 0 + 1).
(** jnp.min(sketch, axis=0) *)
Fixpoint col_min (sketch : list (list nat)) : list nat :=
  match sketch with
  | [] => []
  | [row] => row
  | row :: r => map2 Nat.min row (col_min r)
  end.

Section CB.
  (** [fmax]: see Model/Ewm.v; [to_int x] is jnp.int32(x * 1000) (line 270). *)
  Variable fmax_ : R.
  Variable to_int : fl -> Z.
  Variable maxlen : nat.

  (** __call__ (lines 188-199) and the update functions (lines 201-285) *)
  Definition cb_call (s : strategy) (st : cb_state) (x : fl) : cb_out * cb_state :=
    match s, st with
    | SEwma a, CEwma e _ count =>                                                (* 201-212 *)
        let '((v, _), e') := fewma_call fmax_ (cb_cfg a) e x in
        (OScalar v, CEwma e' v (count + 1))
    | SQuantile ps, CQuantile b est uc =>                                        (* 214-245 *)
        let '(buffered, b') := ring_call (Nat.min maxlen (Z.to_nat 1000)) b x in
        let valid := filter (fun v => negb (isnan v)) buffered in
        let est' :=
          if Nat.eqb (uc mod 10) 0
          then (if 0 <? length valid then map (quantile_at (fsort valid)) ps else est)
          else est in
        (OVec est', CQuantile b' est' (uc + 1))
    | SDownsample f, CDownsample b counter =>                                    (* 247-261 *)
        if Nat.eqb (counter mod f) 0
        then let '(d, b') := ring_call (down_maxlen maxlen f) b x in (OVec d, CDownsample b' (counter + 1))
        else (OVec (ring b), CDownsample b (counter + 1))
    | SSketching h nb, CSketch sk =>                                             (* 263-281 *)
        let sk' := map (fun p => add_one (snd p) (bucket nb (fst p) (to_int x))) (combine (seq 0 h) sk) in
        (OCounts (col_min sk'), CSketch sk')
    | SNone, CNone b =>                                                          (* 283-285 *)
        let '(d, b') := ring_call maxlen b x in (OVec d, CNone b')
    | _, _ => (OVec [], st)
    end.
  Definition CompressedBuffer (s : strategy) (fill : fl) : flax_module cb_state fl cb_out :=
    FlaxModule (fun _ => cb_init s maxlen fill) (cb_call s).
End CB.

(** get_memory_usage, lines 287-333: the total *)
Definition memory_usage (s : strategy) (maxlen : nat) : nat :=
  match s with
  | SEwma _ => 12
  | SQuantile ps => Nat.min maxlen (Z.to_nat 1000) * 8 + length ps * 8 + 4
  | SDownsample f => (maxlen / f) * 8 + 4
  | SSketching h b => h * b * 8 + h * 2 * 4
  | SNone => maxlen * 8
  end.
(** *** HierarchicalBuffer, lines 336-427. *)
Record hb_state := HBState { hb_recent : ring_state fl; hb_medium : cb_state; hb_long : cb_state;
                             medium_counter : nat; long_counter : nat }.
Record hb_out := HBOut { o_recent : list fl; o_medium : cb_out; o_long : cb_out; o_input : fl }.
(** the stored output of a level that is not updated (lines 403-406 and 415-418) *)
Definition peek (st : cb_state) : cb_out :=
  match st with CEwma _ compressed _ => OScalar compressed | _ => OScalar (Fin 0) end.
Section HB.
  Variable fmax_ : R.
  Variable to_int : fl -> Z.
  Variables recent_maxlen medium_maxlen long_maxlen : nat.
  Variables medium long : strategy.
  Definition hb_call (st : hb_state) (x : fl) : hb_out * hb_state :=
    let '(recent_data, r') := ring_call recent_maxlen (hb_recent st) x in        (* 393 *)
    let '(medium_data, m') :=                                                    (* 396-406 *)
      if Nat.eqb (medium_counter st mod 5) 0 then cb_call fmax_ to_int medium_maxlen medium (hb_medium st) x
      else (peek (hb_medium st), hb_medium st) in
    let '(long_data, l') :=                                                      (* 409-418 *)
      if Nat.eqb (long_counter st mod 50) 0 then cb_call fmax_ to_int long_maxlen long (hb_long st) x
      else (peek (hb_long st), hb_long st) in
    (HBOut recent_data medium_data long_data x,
     HBState r' m' l' (medium_counter st + 1) (long_counter st + 1)).
  Definition HierarchicalBuffer (fill : fl) : flax_module hb_state fl hb_out :=
    FlaxModule (fun _ => HBState (ring_init recent_maxlen fill) (cb_init medium medium_maxlen fill)
                           (cb_init long long_maxlen fill) 0 0) hb_call.
End HB.
(** get_total_memory_usage, lines 426-461: the total *)
Definition level_usage (name : string) (maxlen : nat) : nat :=
  if String.eqb name "ewma" then 12
  else if String.eqb name "quantile" then Nat.min maxlen (Z.to_nat 1000) * 8 + 5 * 8 + 4
  else if String.eqb name "downsample" then (maxlen / 2) * 8 + 4
  else maxlen * 8.
Definition total_memory_usage (recent_maxlen medium_maxlen long_maxlen : nat) (medium long : string) : nat :=
  recent_maxlen * 8 + level_usage medium medium_maxlen + level_usage long long_maxlen.
(** compression_params: None, or a dict of which the keys below are read; [other_keys]: it has further keys. *)
Record cparams := CParams { p_alpha : option R; p_percentiles : option (list R); p_factor : option nat;
                            p_num_hashes : option nat; p_num_buckets : option nat; other_keys : bool }.
Definition no_params : cparams := CParams None None None None None false.
(** an empty dict is false (line 109) *)
Definition truthy_params (p : cparams) : bool :=
  match p with CParams None None None None None false => false | _ => true end.
Definition get_or {A : Type} (o : option A) (d : A) : A := match o with Some x => x | None => d end.
(** default_params, lines 98-104; None for a name that is not a key, which raises ValueError (lines 107-108) *)
Definition default_params (name : string) : option cparams :=
  if String.eqb name "ewma" then Some (CParams (Some (1 / 10)%R) None None None None false)
  else if String.eqb name "quantile" then
    Some (CParams None (Some (map (fun z => (IZR z / 100)%R) [10; 25; 50; 75; 90]%Z)) None None None false)
  else if String.eqb name "downsample" then Some (CParams None None (Some 2) None None false)
  else if String.eqb name "sketching" then Some (CParams None None None (Some 4) (Some (Z.to_nat 1024)) false)
  else if String.eqb name "none" then Some no_params
  else None.
(** setup, lines 95-123, with the fallback values of the _setup functions (lines 127, 141, 157, 169-170) *)
Definition strategy_of (name : string) (compression_params : option cparams) : option strategy :=
  match default_params name with
  | None => None
  | Some d =>
      let params := match compression_params with
                    | Some p => if truthy_params p then p else d
                    | None => d
                    end in
      if String.eqb name "ewma" then Some (SEwma (get_or (p_alpha params) (1 / 10)%R))
      else if String.eqb name "quantile" then
        Some (SQuantile (get_or (p_percentiles params) (map (fun z => (IZR z / 100)%R) [25; 50; 75]%Z)))
      else if String.eqb name "downsample" then Some (SDownsample (get_or (p_factor params) 2))
      else if String.eqb name "sketching" then
        Some (SSketching (get_or (p_num_hashes params) 4) (get_or (p_num_buckets params) (Z.to_nat 1024)))
      else if String.eqb name "none" then Some SNone
      else None
  end.
(** CompressedBuffer(maxlen, compression, compression_params, fill_value); None: setup raises.  The keys are read by
    get_memory_usage in the same way (lines 287-333). *)
Definition compressed_buffer (fmax_ : R) (to_int : fl -> Z) (maxlen : nat) (compression : string)
    (compression_params : option cparams) (fill : fl) : option (flax_module cb_state fl cb_out) :=
  match strategy_of compression compression_params with
  | Some s => Some (CompressedBuffer fmax_ to_int maxlen s fill)
  | None => None
  end.
(** the levels of a HierarchicalBuffer, setup lines 361-380: alpha 0.1 and 0.01, None for the others *)
Definition level_params (name : string) (alpha : R) : option cparams :=
  if String.eqb name "ewma" then Some (CParams (Some alpha) None None None None false) else None.
Definition medium_strategy (name : string) : option strategy := strategy_of name (level_params name (1 / 10)%R).
Definition long_strategy (name : string) : option strategy := strategy_of name (level_params name (1 / 100)%R).
Definition hierarchical_buffer (fmax_ : R) (to_int : fl -> Z) (recent_maxlen medium_maxlen long_maxlen : nat)
    (medium long : string) (fill : fl) : option (flax_module hb_state fl hb_out) :=
  match medium_strategy medium, long_strategy long with
  | Some sm, Some sl => Some (HierarchicalBuffer fmax_ to_int recent_maxlen medium_maxlen long_maxlen sm sl fill)
  | _, _ => None
  end.
