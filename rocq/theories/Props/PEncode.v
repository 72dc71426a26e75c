(** Property theorems C36-C39: codecs (encode.py).  Integers are Z; [None] is a raised exception. *)
From Coq Require Import String ZArith List Bool Lia.
From Verif Require Import Model.Encode Proofs.EncodeProofs.
Import ListNotations.
Local Open Scope Z_scope.

(** C36: decoding gives back the integer, and the words fit uint32. *)
Theorem C36_roundtrip :
  forall seed c,
  encode_int64 seed = Some c ->
  decode_int64 c = seed /\ 0 <= fst c < 2 ^ 32 /\ 0 <= snd c < 2 ^ 32.
Proof. exact @int64_roundtrip. Qed.
Print Assumptions C36_roundtrip.

(** C36: every 64-bit integer has an encoding ... *)
Theorem C36_total :
  forall seed,
  - 2 ^ 63 <= seed < 2 ^ 63 -> exists c, encode_int64 seed = Some c.
Proof. exact @int64_total. Qed.
Print Assumptions C36_total.

(** ... and no other. *)
Theorem C36_overflow :
  forall seed,
  encode_int64 seed = None <-> ~ (- 2 ^ 63 <= seed < 2 ^ 63).
Proof. exact @encode_int64_none. Qed.
Print Assumptions C36_overflow.

(** C36: every pair of words is the encoding of what it decodes to. *)
Theorem C36_surjective :
  forall h l,
  0 <= h < 2 ^ 32 -> 0 <= l < 2 ^ 32 ->
  encode_int64 (decode_int64 (h, l)) = Some (h, l).
Proof. exact @int64_surjective. Qed.
Print Assumptions C36_surjective.

Theorem C36_injective :
  forall a b c,
  encode_int64 a = Some c -> encode_int64 b = Some c -> a = b.
Proof. exact @int64_injective. Qed.
Print Assumptions C36_injective.

(** C36: timestamps (other than NaT) ... *)
Theorem C36_timestamp_roundtrip :
  forall ns c,
  ns <> nat_value -> encode_timestamp (Some ns) = Some c ->
  decode_timestamp c = Some ns.
Proof. exact @timestamp_roundtrip. Qed.
Print Assumptions C36_timestamp_roundtrip.

(** ... and datetimes round-trip. *)
Theorem C36_datetime_roundtrip :
  forall us c,
  encode_datetime us = Some c -> decode_datetime c = us.
Proof. exact @datetime_roundtrip. Qed.
Print Assumptions C36_datetime_roundtrip.

Example C36_example :
  encode_int64 (-1) = Some (4294967295, 4294967295) /\ decode_int64 (4294967295, 4294967295) = -1 /\
  encode_int64 1577836800000000000 = Some (367368757,3112828928).
Proof. repeat split; reflexivity. Qed.

(** C37: on dates of the same side of 1970, less is the order of the dates. *)
Theorem C37_less_same_sign :
  forall a b ca cb,
  encode_int64 a = Some ca -> encode_int64 b = Some cb ->
  (0 <= a <-> 0 <= b) -> (less ca cb = true <-> a < b).
Proof. exact @less_same_sign. Qed.
Print Assumptions C37_less_same_sign.

(** C37: in general it is the order of the unsigned 64-bit values ... *)
Theorem C37_less_unsigned :
  forall a b ca cb,
  encode_int64 a = Some ca -> encode_int64 b = Some cb ->
  (less ca cb = true <-> a mod 2 ^ 64 < b mod 2 ^ 64).
Proof. exact @less_unsigned. Qed.
Print Assumptions C37_less_unsigned.

(** ... hence always wrong between a date before 1970 and a date after. *)
Theorem C37_less_mixed_sign_refuted :
  forall a b ca cb,
  encode_int64 a = Some ca -> encode_int64 b = Some cb ->
  a < 0 <= b -> less ca cb = false /\ less cb ca = true.
Proof. exact @less_mixed_sign. Qed.
Print Assumptions C37_less_mixed_sign_refuted.

Example C37_example :
  exists ca cb, encode_int64 (-1) = Some ca /\ encode_int64 5 = Some cb /\ less ca cb = false /\
    less cb ca = true.
Proof. do 2 eexists. repeat split; reflexivity. Qed.

(** C38: the floor is a whole day, at most one day before (for every time whose floor is representable). *)
Theorem C38_floor :
  forall t f,
  - 106751 * day <= t < 2 ^ 63 -> floor_datetime true t = Some f ->
  (day | f) /\ f <= t < f + day.
Proof. exact @floor_datetime_spec. Qed.
Print Assumptions C38_floor.

Theorem C38_floor_unique :
  forall t f f',
  - 106751 * day <= t < 2 ^ 63 -> floor_datetime true t = Some f ->
  (day | f') -> f' <= t < f' + day -> f' = f.
Proof. exact @floor_datetime_unique. Qed.
Print Assumptions C38_floor_unique.

Theorem C38_floor_idempotent :
  forall t f,
  - 106751 * day <= t < 2 ^ 63 -> floor_datetime true t = Some f ->
  floor_datetime true f = Some f.
Proof. exact @floor_datetime_idempotent. Qed.
Print Assumptions C38_floor_idempotent.

Theorem C38_floor_monotone :
  forall t t' f f',
  - 106751 * day <= t < 2 ^ 63 -> - 106751 * day <= t' < 2 ^ 63 ->
  floor_datetime true t = Some f -> floor_datetime true t' = Some f' -> t <= t' -> f <= f'.
Proof. exact @floor_datetime_monotone. Qed.
Print Assumptions C38_floor_monotone.

(** C38: below, NaT included ([nat_value] is -2^63), the product wraps to the year 2262. *)
Theorem C38_floor_overflow_refuted :
  forall t,
  - 2 ^ 63 <= t < - 106751 * day ->
  floor_datetime true t = Some 9223371273709551616.
Proof. exact @floor_datetime_overflow. Qed.
Print Assumptions C38_floor_overflow_refuted.

(** C38: flooring datekeys commutes with encoding. *)
Theorem C38_floor_commutes_with_encoding :
  forall t c,
  - 2 ^ 63 <= t < 2 ^ 63 -> encode_int64 t = Some c ->
  exists f, floor_datetime true t = Some f /\ floor_jax_datekey c = encode_datetime64 f.
Proof. exact @floor_jax_commutes. Qed.
Print Assumptions C38_floor_commutes_with_encoding.

(** C38: other frequencies are rejected. *)
Theorem C38_only_days : forall t, floor_datetime false t = None.
Proof. reflexivity. Qed.
Print Assumptions C38_only_days.

Example C38_example :
  floor_datetime true 1577836800000000005 = Some 1577836800000000000 /\
  floor_datetime true (-1) = Some (- day) /\ floor_datetime true nat_value = Some 9223371273709551616.
Proof. repeat split; reflexivity. Qed.

(** C39: datetime64_encoder. *)
Theorem C39_datetime64_encoder :
  forall values,
  values <> [] -> Forall (fun ns => - 2 ^ 63 <= ns < 2 ^ 63) values ->
  exists codes, enc datetime64_encoder values = Some codes /\ List.length codes = List.length values /\
    dec datetime64_encoder codes = Some values.
Proof. exact @datetime64_encoder_roundtrip. Qed.
Print Assumptions C39_datetime64_encoder.

(** C39: labels: known labels round-trip, unknown ones raise. *)
Theorem C39_labels_roundtrip :
  forall (L : Type) (leb eqb : L -> L -> bool)
    (eqb_spec : forall a b, eqb a b = true <-> a = b)
    (leb_trans : forall a b c, leb a b = true -> leb b c = true -> leb a c = true)
    (leb_antisym : forall a b, leb a b = true -> leb b a = true -> a = b)
    (leb_total : forall a b, leb a b = true \/ leb b a = true)
    values labels,
  (Forall (fun a => In a values) labels ->
      exists codes, transform eqb (classes leb eqb values) labels = Some codes /\
        inverse_transform (classes leb eqb values) codes = Some labels) /\
    (~ Forall (fun a => In a values) labels -> transform eqb (classes leb eqb values) labels = None).
Proof. intros; apply transform_spec; auto. Qed.
Print Assumptions C39_labels_roundtrip.

(** C39: codes are ordered like the labels. *)
Theorem C39_labels_order :
  forall (L : Type) (leb eqb : L -> L -> bool)
    (eqb_spec : forall a b, eqb a b = true <-> a = b)
    (leb_trans : forall a b c, leb a b = true -> leb b c = true -> leb a c = true)
    (leb_antisym : forall a b, leb a b = true -> leb b a = true -> a = b)
    (leb_total : forall a b, leb a b = true \/ leb b a = true)
    values a b i j,
  transform eqb (classes leb eqb values) [a; b] = Some [i; j] -> ((i < j)%nat <-> leb a b = true /\ a <> b).
Proof.
  intros L leb eqb e1 e2 e3 e4 values a b i j H. unfold transform in H. cbn in H.
  destruct (index_of eqb a (classes leb eqb values) 0) as [i'|] eqn:Ei; [|discriminate].
  destruct (index_of eqb b (classes leb eqb values) 0) as [j'|] eqn:Ej; [|discriminate].
  injection H as -> ->. eapply label_codes; eauto.
Qed.
Print Assumptions C39_labels_order.

(** C39: string_encoder on arrays of the shape it was fitted on, or on 1-d arrays. *)
Theorem C39_string_encoder_roundtrip :
  forall (L : Type) (leb eqb : L -> L -> bool)
    (eqb_spec : forall a b, eqb a b = true <-> a = b)
    (leb_trans : forall a b c, leb a b = true -> leb b c = true -> leb a c = true)
    (leb_antisym : forall a b, leb a b = true -> leb b a = true -> a = b)
    (leb_total : forall a b, leb a b = true \/ leb b a = true)
    (values v : larr L),
  Forall (fun a => In a (lentries L values)) (lentries L v) ->
    List.length (lentries L v) = lsize (lshape L v) ->
    (lshape L v = lshape L values \/
     List.length (lshape L values) = 1%nat /\ List.length (lshape L v) = 1%nat) ->
    (1 <= List.length (lshape L v))%nat ->
    exists c, enc (string_encoder leb eqb values) v = Some c /\ dec (string_encoder leb eqb values) c = Some v.
Proof. intros; apply string_encoder_roundtrip; auto. Qed.
Print Assumptions C39_string_encoder_roundtrip.

(** C39: an encoder fitted on a matrix decodes everything to the fitted shape, not to the shape encoded. *)
Theorem C39_string_encoder_shape_refuted :
  forall (L : Type) (leb eqb : L -> L -> bool) (values v : larr L) c,
  (1 < List.length (lshape L values))%nat -> dec (string_encoder leb eqb values) c = Some v ->
  lshape L v = lshape L values.
Proof. exact @string_encoder_shape. Qed.
Print Assumptions C39_string_encoder_shape_refuted.

(** C39: a dataset round-trips if its variables do; names, order and variables without encoder are kept. *)
Theorem C39_dataset_roundtrip :
  forall (A : Type) (encoders : list (string * encoder A A)) (ds coded : list (string * A)),
  (forall k v e c, In (k, v) ds -> lookup k encoders = Some e -> enc e v = Some c -> dec e c = Some v) ->
  encode_dataset encoders ds = Some coded ->
  decode_dataset encoders coded = Some ds /\ map fst coded = map fst ds /\
  forall k v, lookup k encoders = None -> (In (k, v) coded <-> In (k, v) ds).
Proof. exact @dataset_roundtrip. Qed.
Print Assumptions C39_dataset_roundtrip.

Example C39_example :
  let e := string_encoder Z.leb Z.eqb (LArr Z [2; 2]%nat [7; 3; 7; 5]) in
  enc e (LArr Z [2; 2]%nat [5; 5; 3; 7]) = Some (LArr nat [4]%nat [1; 1; 0; 2]%nat) /\
  dec e (LArr nat [4]%nat [1; 1; 0; 2]%nat) = Some (LArr Z [2; 2]%nat [5; 5; 3; 7]) /\
  enc e (LArr Z [1]%nat [4]) = None.
Proof. repeat split; reflexivity. Qed.
