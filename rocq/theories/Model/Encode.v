(** Model of /repo/src/wax/encode.py.  Integers are Z with explicit 64-bit wrap-around; a code (array of
    shape (2,), dtype uint32) is a pair of words; [None] is a raised exception. *)
From Coq Require Import ZArith List Bool String.
Import ListNotations.
Local Open Scope Z_scope.

(** numpy int64 arithmetic wraps *)
Definition wrap64 (z : Z) : Z := (z + 2 ^ 63) mod 2 ^ 64 - 2 ^ 63.
Definition in_int64 (z : Z) : bool := andb (Z.leb (- 2 ^ 63) z) (Z.ltb z (2 ^ 63)).

(** encode.py lines 30-63.  onp.int64(seed) raises OverflowError outside of int64 (line 58). *)
Definition encode_int64 (seed : Z) : option (Z * Z) :=
  if in_int64 seed then
    Some (Z.land (Z.shiftr seed 32) 4294967295, Z.land seed 4294967295)
  else None.

(** encode.py lines 66-77: the shift of an int64 wraps *)
Definition decode_int64 (code : Z * Z) : Z :=
  let high := wrap64 (Z.shiftl (fst code) 32) in
  wrap64 (high + snd code).

(** encode.py lines 80-87: a pandas Timestamp is its value in nanoseconds, NaT ([None]) is not a
    Timestamp; pd.to_datetime of the minimal int64 is NaT *)
Definition nat_value : Z := - 2 ^ 63.
Definition encode_timestamp (date : option Z) : option (Z * Z) :=
  match date with None => None | Some ns => encode_int64 ns end.
Definition decode_timestamp (code : Z * Z) : option Z :=
  let v := decode_int64 code in if Z.eqb v nat_value then None else Some v.

(** encode.py lines 90-97: a datetime.datetime is its number of microseconds; the conversion to
    datetime64[ns] multiplies by 1000.  Simplification: out of range conversions are [None]. *)
Definition encode_datetime (us : Z) : option (Z * Z) := encode_int64 (us * 1000).
(** to_pydatetime drops the nanoseconds *)
Definition decode_datetime (code : Z * Z) : Z := decode_int64 code / 1000.

(** encode.py lines 100-108, datetime64[ns] (NaT is the minimal int64) *)
Definition encode_datetime64 (ns : Z) : option (Z * Z) := encode_int64 ns.
Definition decode_datetime64 (code : Z * Z) : Z := decode_int64 code.

(** encode.py line 152: a day in nanoseconds *)
Definition day : Z := 24 * 60 * 60 * 1000000000.

(** encode.py lines 130-157; [freq_is_d]: other frequencies raise AssertionError *)
Definition floor_datetime (freq_is_d : bool) (ns : Z) : option Z :=
  if freq_is_d then Some (wrap64 (wrap64 (ns / day) * day)) else None.

(** encode.py lines 201-212, on words (compared as unsigned integers) *)
Definition less (t1 t2 : Z * Z) : bool :=
  let '(h1, l1) := t1 in
  let '(h2, l2) := t2 in
  if Z.ltb h1 h2 then true
  else if Z.ltb h2 h1 then false
  else if Z.ltb l1 l2 then true else false.

(** encode.py lines 215-229: date is a Python int, day an int64: int64 arithmetic *)
Definition floor_jax_datekey (datekey : Z * Z) : option (Z * Z) :=
  let date := decode_int64 datekey in
  encode_int64 (wrap64 (wrap64 (date / day) * day)).

Fixpoint mapM {A B : Type} (f : A -> option B) (l : list A) : option (list B) :=
  match l with
  | [] => Some []
  | a :: r => match f a, mapM f r with Some b, Some bs => Some (b :: bs) | _, _ => None end
  end.

(** encode.py lines 113-115 *)
Record encoder (A B : Type) := Encoder { enc : A -> option B; dec : B -> option A }.
Arguments Encoder {A B}. Arguments enc {A B}. Arguments dec {A B}.

(** encode.py lines 191-198; onp.stack raises on an empty list *)
Definition stacked {A B : Type} (f : A -> option B) (l : list A) : option (list B) :=
  match l with [] => None | _ => mapM f l end.
Definition datetime64_encoder : encoder (list Z) (list (Z * Z)) :=
  Encoder (stacked encode_datetime64) (stacked (fun c => Some (decode_datetime64 c))).

(** *** string_encoder: encode.py lines 168-188; sklearn's LabelEncoder: the classes are the sorted
    distinct labels, transform gives their positions, unseen labels and unknown codes raise.
    [leb] is the order of the labels. *)
Section Labels.
  Context {L : Type} (leb : L -> L -> bool) (eqb : L -> L -> bool).
  Fixpoint insert (a : L) (l : list L) : list L :=
    match l with
    | [] => [a]
    | b :: r => if eqb a b then l else if leb a b then a :: l else b :: insert a r
    end.
  Definition classes (values : list L) : list L := fold_right insert [] values.
  Fixpoint index_of (a : L) (cs : list L) (i : nat) : option nat :=
    match cs with
    | [] => None
    | c :: r => if eqb a c then Some i else index_of a r (S i)
    end.
  Definition transform (cs : list L) (labels : list L) : option (list nat) :=
    mapM (fun a => index_of a cs 0) labels.
  Definition inverse_transform (cs : list L) (codes : list nat) : option (list L) :=
    mapM (fun i => nth_error cs i) codes.
  (** an array of labels: shape and entries in row-major order *)
  Record larr (A : Type) := LArr { lshape : list nat; lentries : list A }.
  Definition lsize (s : list nat) : nat := fold_right Nat.mul 1%nat s.
  (** lines 168-188: [ravel] iff the fitted values have more than one dimension; then decode reshapes
      to the shape of the fitted values (ValueError if the sizes differ).  fit, transform and inverse_transform
      want arrays of one dimension (column_or_1d); the column vectors of shape (n, 1) which sklearn accepts with a
      warning count as two-dimensional here and raise.  When fit raises (a value without dimension) there is no
      encoder: both functions of the model raise. *)
  Definition string_encoder (values : larr L) : encoder (larr L) (larr nat) :=
    let ravel := Nat.ltb 1 (List.length (lshape L values)) in
    let fitted := Nat.ltb 0 (List.length (lshape L values)) in
    let cs := classes (lentries L values) in
    Encoder
      (fun v =>
         if fitted && (ravel || Nat.eqb (List.length (lshape L v)) 1) then
           option_map (LArr nat [List.length (lentries L v)]) (transform cs (lentries L v))
         else None)
      (fun c =>
         if fitted && Nat.eqb (List.length (lshape nat c)) 1 then
           match inverse_transform cs (lentries nat c) with
           | None => None
           | Some v =>
               if ravel then
                 if Nat.eqb (List.length v) (lsize (lshape L values)) then Some (LArr L (lshape L values) v) else None
               else Some (LArr L (lshape nat c) v)
           end
         else None).
End Labels.

(** *** encode_dataset / decode_dataset: encode.py lines 232-255.  A dataset is a dictionary of variables;
    encoded and plain variables live in the same type. *)
Section Dataset.
  Context {A : Type}.
  Definition lookup {B : Type} (k : string) (d : list (string * B)) : option B :=
    option_map snd (find (fun kv => String.eqb k (fst kv)) d).
  Definition code_dataset (coder : encoder A A -> A -> option A) (encoders : list (string * encoder A A))
    (dataset : list (string * A)) : option (list (string * A)) :=
    mapM (fun kv => match lookup (fst kv) encoders with
                    | Some e => option_map (pair (fst kv)) (coder e (snd kv))
                    | None => Some kv
                    end) dataset.
  Definition encode_dataset := code_dataset enc.
  Definition decode_dataset := code_dataset dec.
End Dataset.
