(** assert_tree_all_close, /repo/src/wax/testing.py, and get_unique_dtype, dict_map of /repo/src/wax/utils.py.
    A flattened tree is the text of its treedef and its leaves.  A leaf is a number (with the name of its type) or an
    array: its class (jax or numpy), its dtype, its shape and its entries in row-major order.  Integers are taken
    as finite floats.  [false] is an exception.  Simplifications: other kinds of leaves (texts, None is no leaf) are
    left out; real arithmetic in the comparison. *)
From Coq Require Import String Ascii List Bool Arith Reals.
From Verif Require Import Model.Float.
Import ListNotations.
Local Open Scope list_scope.

Inductive tleaf :=
| TNum (type : string) (v : fl)
| TArr (class dtype : string) (shape : list nat) (data : list fl).

(** str.replace(old, "") : removes the non-overlapping occurrences, from the left *)
Fixpoint remove_prefix (old s : string) : option string :=
  match old, s with
  | EmptyString, _ => Some s
  | String a o, String b r => if Ascii.eqb a b then remove_prefix o r else None
  | _, _ => None
  end.
Fixpoint erase_fuel (fuel : nat) (old s : string) : string :=
  match fuel with
  | O => s
  | S n => match remove_prefix old s with
           | Some r => erase_fuel n old r
           | None => match s with EmptyString => EmptyString | String c r => String c (erase_fuel n old r) end
           end
  end.
Definition erase (old s : string) : string := erase_fuel (String.length s) old s.

(** numpy broadcasting of shapes of one rank, then of any rank; [None] raises *)
Fixpoint broadcast_same (s t : list nat) : option (list nat) :=
  match s, t with
  | [], [] => Some []
  | a :: s, b :: t =>
      match broadcast_same s t with
      | None => None
      | Some r => if a =? b then Some (a :: r) else if a =? 1 then Some (b :: r) else if b =? 1 then Some (a :: r) else None
      end
  | _, _ => None
  end.
Definition pad (n : nat) (s : list nat) : list nat := repeat 1 (n - length s) ++ s.
Definition broadcast (s t : list nat) : option (list nat) :=
  let n := Nat.max (length s) (length t) in broadcast_same (pad n s) (pad n t).

(** the entries of an array of shape [s] repeated to the shape [t] (same rank, each length kept or 1) *)
Fixpoint chunks {A : Type} (k n : nat) (l : list A) : list (list A) :=
  match n with O => [] | S n => firstn k l :: chunks k n (skipn k l) end.
Definition size (s : list nat) : nat := fold_right Nat.mul 1 s.
Fixpoint expand {A : Type} (s t : list nat) (l : list A) : list A :=
  match s, t with
  | a :: s, b :: t =>
      let rows := map (expand s t) (chunks (size s) a l) in
      if a =? b then concat rows else concat (repeat (concat rows) b)
  | _, _ => l
  end.

(** (p(x, y)).all() with broadcasting *)
Definition all_pairs (p : fl -> fl -> bool) (sx : list nat) (x : list fl) (sy : list nat) (y : list fl) : bool :=
  match broadcast sx sy with
  | None => false
  | Some t => forallb (fun ab => p (fst ab) (snd ab))
                (combine (expand (pad (length t) sx) t x) (expand (pad (length t) sy) t y))
  end.

(** onp.isclose: |a - b| <= atol + rtol |b| on finite values, equality on infinite ones, NaN close to nothing *)
Definition isclose (a b : fl) : bool :=
  match a, b with
  | Fin x, Fin y => if Rlt_b (1 / 10 ^ 8 + 1 / 10 ^ 5 * Rabs y) (Rabs (x - y)) then false else true
  | _, _ => feq a b
  end.

(** testing.py lines 36-50: one pair of leaves.  Line 46 tests the list of the leaves instead of the leaf, which is
    never an array: line 49 is always used *)
Definition leaf_close (a b : tleaf) : bool :=
  match a, b with
  | TNum ta x, TNum tb y => String.eqb ta tb && feq x y
  | TArr ca da sa xa, TArr cb db sb xb =>
      String.eqb ca cb && String.eqb da db &&
      (if String.eqb da "int32" || String.eqb da "uint32" then all_pairs feq sa xa sb xb else all_pairs isclose sa xa sb xb)
  | _, _ => false
  end.

(** lines 25-50 *)
Definition assert_tree_all_close (check_treedef : bool) (x y : string * list tleaf) : bool :=
  (if check_treedef then String.eqb (erase "wax." (fst x)) (erase "wax." (erase "_test" (fst y))) else true) &&
  (length (snd x) =? length (snd y)) &&
  forallb (fun ab => leaf_close (fst ab) (snd ab)) (combine (snd x) (snd y)).

(** utils.py lines 19-20 *)
Definition dict_map {A B : Type} (f : A -> B) (col : list (string * A)) : list (string * B) :=
  map (fun kv => (fst kv, f (snd kv))) col.

(** utils.py lines 23-34: the dtypes of the leaves; AssertionError unless there is exactly one *)
Definition get_unique_dtype (dtypes : list string) : option string :=
  match nodup string_dec dtypes with [t] => Some t | _ => None end.
