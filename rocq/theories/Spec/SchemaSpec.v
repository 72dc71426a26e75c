(** Vocabulary for datasets with texts and dates. *)
From Coq Require Import String ZArith List Bool.
From Verif Require Import Model.Encode Model.Accessors Model.Schema Spec.AccessorSpec.
Import ListNotations.
Local Open Scope list_scope.

(** The code of a text among the texts of an array: how many distinct texts come before it. *)
Definition text_code (texts : list string) (s : string) : Z :=
  Z.of_nat (List.length (nodup string_dec (filter (fun y => String.ltb y s) texts))).

(** The two words of a date: nanoseconds since 1970 modulo 2^64, high word first. *)
Definition date_words (ns : Z) : list elem := [Word (ns mod 2 ^ 64 / 2 ^ 32); Word (ns mod 2 ^ 32)].

Definition is_text (v : npvar) : Prop := exists l, np_values v = Texts l.
Definition is_date (v : npvar) : Prop := exists l, np_values v = Dates l.
Definition encodable (v : npvar) : bool := match np_values v with Texts _ | Dates _ => true | _ => false end.

(** An array of numpy: as many entries as its shape says; dates are 64-bit integers. *)
Definition well_formed (v : npvar) : Prop :=
  match np_values v with
  | Numbers l => List.length l = lsize (np_shape v)
  | Texts l => List.length l = lsize (np_shape v)
  | Dates l => List.length l = lsize (np_shape v) /\ Forall (fun ns => - 2 ^ 63 <= ns < 2 ^ 63)%Z l
  | Objects => True
  end /\ List.length (np_dims v) = List.length (np_shape v).

(** There is a one-dimensional datetime64 coordinate [d], of values [ts]. *)
Definition axis (coords : list npvar) (d : string) (ts : list Z) : Prop :=
  exists c, In c coords /\ np_name c = d /\ np_values c = Dates ts.

(** [local] is the local time: given by local_time, or the only time axis. *)
Definition is_local (cfg : stream_cfg) (coords : list npvar) (local : string) : Prop :=
  (local_time cfg = local /\ local <> ""%string) \/
  (local_time cfg = ""%string /\ forall d ts, axis coords d ts -> d = local).

(** The first dimension of [v] is the time axis [d]; no dimension of [v] is one. *)
Definition along (coords : list npvar) (v : npvar) (d : string) : Prop :=
  hd_error (np_dims v) = Some d /\ exists ts, axis coords d ts.
Definition timeless (coords : list npvar) (v : npvar) : Prop := forall d ts, In d (np_dims v) -> ~ axis coords d ts.
(** The variables which modules can read: texts along a time axis or without time, with a dimension; dates of one
    dimension, a time axis without buffer; numbers along a time axis without buffer, or of one dimension at most. *)
Definition can_read (cfg : stream_cfg) (local : string) (coords : list npvar) (v : npvar) : Prop :=
  match np_values v with
  | Texts _ => np_shape v <> [] /\ ((exists d, along coords v d) \/ timeless coords v)
  | Dates l => l <> [] /\ List.length (np_dims v) = 1 /\
      exists d, along coords v d /\ (d = local \/ buffer_maxlen cfg d = None)
  | Numbers _ =>
      (exists d, along coords v d /\ (d = local \/ buffer_maxlen cfg d = None \/ List.length (np_dims v) = 1)) \/
      (timeless coords v /\ List.length (np_dims v) <= 1)
  | Objects => False
  end.
