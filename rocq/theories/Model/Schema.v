(** Datasets with texts and dates: Stream.get_dataset_schema, the encoding of the variables in Stream.prepare
    (/repo/src/wax/stream.py lines 447-531) and what a module then reads.

    An array is its shape and its entries in row-major order.  Texts are compared as Coq strings (numpy compares
    code points, which is the order of the UTF-8 bytes).  Simplifications: every exception is [None]; all the
    numbers of a dataset are of one floating dtype; the names of the variables and of the coordinates are
    distinct (xarray enforces it), so that the dictionary of line 467-468 is their concatenation. *)
From Coq Require Import String ZArith List Bool Arith Reals.
From Verif Require Import Model.Float Model.Encode Model.Unroll Model.Stream Model.Format Model.Accessors.
Import ListNotations.
Local Open Scope list_scope.

(** The values of an array by dtype: floats, texts (numpy's str_), datetime64[ns], and Python objects. *)
Inductive npvalues := Numbers (l : list fl) | Texts (l : list string) | Dates (l : list Z) | Objects.
(** A variable or a coordinate of a Dataset. *)
Record npvar := NpVar { np_name : string; np_dims : list string; np_shape : list nat; np_values : npvalues }.

(** stream.py lines 52-58 DEFAULT_TYPES_ENCODERS: what is stored for a name *)
Inductive var_encoder := TextEncoder (e : encoder (larr string) (larr nat)) | DateEncoder.

(** lines 470-474, one array: [Some None] when its dtype has no encoder.  string_encoder fits a LabelEncoder, which
    raises on an array without dimension (encode.py line 176). *)
Definition make_encoder (v : npvar) : option (option var_encoder) :=
  match np_values v with
  | Texts l =>
      if List.length (np_shape v) =? 0 then None
      else Some (Some (TextEncoder (string_encoder String.leb String.eqb (LArr string (np_shape v) l))))
  | Dates _ => Some (Some DateEncoder)
  | _ => Some None
  end.

(** encode.py lines 191-193 on a whole array: the rows are encoded one by one, and encode_int64 wants scalars
    (line 48): arrays of another dimension than 1 raise. *)
Definition encode_dates (v : npvar) (l : list Z) : option (list (Z * Z)) :=
  match np_shape v with [_] => enc datetime64_encoder l | _ => None end.

(** lines 475-477: the round trip must give equal entries; NaT is not equal to itself *)
Definition check_encoder (e : var_encoder) (v : npvar) : bool :=
  match e, np_values v with
  | TextEncoder e, Texts l =>
      match enc e (LArr string (np_shape v) l) with
      | Some c => match dec e c with
                  | Some v' => forallb (fun ab => String.eqb (fst ab) (snd ab)) (combine (lentries string v') l)
                  | None => false
                  end
      | None => false
      end
  | DateEncoder, Dates l =>
      match encode_dates v l with
      | Some c => match dec datetime64_encoder c with
                  | Some l' => forallb (fun ab => andb (Z.eqb (fst ab) (snd ab)) (negb (Z.eqb (fst ab) nat_value))) (combine l' l)
                  | None => false
                  end
      | None => false
      end
  | _, _ => true
  end.

(** lines 447-479 *)
Definition get_dataset_schema (check : bool) (vars coords : list npvar) : option (list (string * var_encoder)) :=
  option_map (@List.concat _)
    (mapM (fun v => match make_encoder v with
                    | None => None
                    | Some None => Some []
                    | Some (Some e) => if implb check (check_encoder e v) then Some [(np_name v, e)] else None
                    end) (vars ++ coords)).

(** An element of an encoded variable: a float, an integer code, or a word (uint32) of a date. *)
Inductive elem := Num (x : fl) | Int (z : Z) | Word (z : Z).

(** the rows of an array, [atleast_1d] *)
Fixpoint chunks {A : Type} (n w : nat) (l : list A) : list (list A) :=
  match n with O => [] | S k => firstn w l :: chunks k w (skipn w l) end.
Definition rows_of {A : Type} (shape : list nat) (l : list A) : list (list A) :=
  match shape with [] => [l] | n :: s => chunks n (lsize s) l end.

(** lines 510-512 and encode.py lines 232-242, one variable: the array that is indexed.  [dv_dims] only counts
    axes here: the codes of texts have one axis whatever the variable (encode.py line 180), those of dates one more
    than the variable.  [dv_default] is DTYPE_INIT_VALUES (lines 59-76) of the encoded dtype: int64 or int32 for the
    codes of texts, uint32 for the words of dates.  Objects, and texts without encoder, cannot be put on a device. *)
Definition encoded_var (encoders : list (string * var_encoder)) (v : npvar) : option (dvar elem) :=
  match Model.Accessors.lookup (np_name v) encoders, np_values v with
  | Some (TextEncoder e), Texts l =>
      match enc e (LArr string (np_shape v) l) with
      | Some c => let codes := lentries nat c in
                  Some (DVar (np_name v) (firstn 1 (np_dims v)) (List.length codes) (List.length codes)
                          (map (fun k => [Int (Z.of_nat k)]) codes) (Int (-99999)))
      | None => None
      end
  | Some DateEncoder, Dates l =>
      match encode_dates v l with
      | Some ws => Some (DVar (np_name v) (np_dims v ++ ["word"%string]) (2 * List.length ws) 2
                           (map (fun w => [Word (fst w); Word (snd w)]) ws) (Word 0))
      | None => None
      end
  | None, Numbers l =>
      Some (DVar (np_name v) (np_dims v) (List.length l) (last (np_shape v) 1)
              (rows_of (np_shape v) (map Num l)) (Num NaN))
  | _, _ => None
  end.
(** What get_dataset_index (lines 187-233) sees of a variable: its dimensions and its size, before encoding. *)
Definition unencoded (v : npvar) : dvar elem :=
  DVar (np_name v) (np_dims v) (lsize (np_shape v)) 1 [] (Int 0).

(** The coordinates as Model/Accessors.v has them.  A datetime64 coordinate is a time axis under its own name
    whatever its dims (lines 171-174); [len] of one without dimension, and the labelling of the positions by one of
    several (lines 130-134), raise. *)
Definition dates_of (v : npvalues) : option (list Z) := match v with Dates l => Some l | _ => None end.
Definition coord_of (v : npvar) : coord npvalues := Coord (np_name v) (np_dims v) (np_shape v) (np_values v).
Definition time_coords_ok (coords : list npvar) : bool :=
  forallb (fun c => match np_values c with Dates _ => List.length (np_shape c) =? 1 | _ => true end) coords.

(** lines 485-531 prepare with the encoders of the schema (accessors.py line 65): the views of the steps *)
Definition prepare_raw (cfg : stream_cfg) (vars coords : list npvar) : option (list (list (string * seen elem))) :=
  match get_dataset_schema false vars coords with
  | None => None
  | Some encoders =>
      if time_coords_ok coords then
        match time_index dates_of cfg (map coord_of coords) with
        | None => None
        | Some (local, ti) =>
            match Model.Accessors.lookup local ti with
            | None => None
            | Some steps =>
                let n := List.length steps in
                match mapM (var_index ti n) (map unencoded vars), mapM (encoded_var encoders) vars with
                | Some indices, Some data => mapM (view_at data indices) (seq 0 n)
                | _, _ => None
                end
            end
        end
      else None
  end.
