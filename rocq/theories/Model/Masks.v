(** Models of /repo/src/wax/modules/apply_mask.py, mask_mean.py, mask_std.py, mask_normalize.py.
    An array is its shape and its entries in row-major order. *)
From Coq Require Import List Arith Reals.
From Verif Require Import Model.Tree Model.Float Model.Ewm.
Import ListNotations.

Record arr (A : Type) : Type := Arr { shape : list nat; data : list A }.
Arguments Arr {A}. Arguments shape {A}. Arguments data {A}.

Definition size (s : list nat) : nat := fold_right Nat.mul 1 s.

(** apply_mask.py lines 47-62, one leaf: broadcasting of the mask (49-58), shape check (60-61),
    jnp.where (62).  [None]: ValueError, or IndexError of x.shape. *)
Definition broadcast_mask (axis : option nat) (mask : arr bool) (xshape : list nat)
  : option (arr bool) :=
  match axis with
  | None => Some mask
  | Some 0 => match xshape with
              | _ :: c :: _ => Some (Arr [length (data mask); c]
                                       (flat_map (fun b => repeat b c) (data mask)))
              | _ => None
              end
  | Some 1 => match xshape with
              | r :: _ => Some (Arr [r; length (data mask)] (concat (repeat (data mask) r)))
              | [] => None
              end
  | Some _ => None
  end.

Definition apply_mask (axis : option nat) (mask_value : fl) (mask : arr bool) (x : arr fl)
  : option (arr fl) :=
  match broadcast_mask axis mask (shape x) with
  | None => None
  | Some m =>
      if list_eq_dec Nat.eq_dec (shape x) (shape m)
      then Some (Arr (shape x)
             (map2 (fun (b : bool) v => if b then v else mask_value) (data m) (data x)))
      else None
  end.

(** tree_map of a function that may raise (apply_mask.py line 64, mask_mean.py line 54). *)
Fixpoint tree_mapM {L M : Type} (f : L -> option M) (t : tree L) : option (tree M) :=
  match t with
  | Leaf l => option_map Leaf (f l)
  | Node c =>
      let fix go (cs : list (tree L)) : option (list (tree M)) :=
        match cs with
        | [] => Some []
        | c0 :: cs' => match tree_mapM f c0, go cs' with
                       | Some a, Some b => Some (a :: b)
                       | _, _ => None
                       end
        end in
      option_map Node (go c)
  end.

(** apply_mask.py line 64 *)
Definition ApplyMask (axis : option nat) (mask_value : fl) (mask : arr bool)
  (input : tree (arr fl)) : option (tree (arr fl)) :=
  tree_mapM (apply_mask axis mask_value mask) input.

(** x.sum(axis): shape of the result and, for each entry of the result, the positions summed.
    Only arrays of dimension at most 2 (any dimension for axis=None); [None] otherwise. *)
Definition axis_cells (axis : option nat) (s : list nat) : option (list nat * list (list nat)) :=
  match axis, s with
  | None, _ => Some ([], [seq 0 (size s)])
  | Some 0, [n] => Some ([], [seq 0 n])
  | Some 0, [r; c] => Some ([c], map (fun j => map (fun i => i * c + j) (seq 0 r)) (seq 0 c))
  | Some 1, [r; c] => Some ([r], map (fun i => map (fun j => i * c + j) (seq 0 c)) (seq 0 r))
  | _, _ => None
  end.

Definition sum_axis (axis : option nat) (x : arr fl) : option (arr fl) :=
  match axis_cells axis (shape x) with
  | None => None
  | Some (s, cells) =>
      Some (Arr s (map (fun cell => fsum (map (fun k => nth k (data x) (Fin 0)) cell)) cells))
  end.
(** mask.sum(axis) as floats (the integer count is divided by a float) *)
Definition count_axis (axis : option nat) (m : arr bool) : option (arr fl) :=
  match axis_cells axis (shape m) with
  | None => None
  | Some (s, cells) =>
      Some (Arr s (map (fun cell =>
        Fin (INR (length (filter (fun k => nth k (data m) false) cell)))) cells))
  end.

Definition arr_map {A B : Type} (f : A -> B) (x : arr A) : arr B := Arr (shape x) (map f (data x)).

(** jnp.nan_to_num with the defaults; [fm] is the largest float *)
Definition fill_nans (fm : R) (x : arr fl) : arr fl :=
  arr_map (nan_to_num (Fin 0) (Fin fm) (Fin (- fm))) x.

(** numpy broadcasting of [x op m] where [m] is a result of sum(axis) (shape [] or [n]). *)
Definition broadcast2 (f : fl -> fl -> fl) (x m : arr fl) : option (arr fl) :=
  match shape m, shape x with
  | [], s => Some (Arr s (map (fun v => f v (nth 0 (data m) NaN)) (data x)))
  | [n], [r; c] =>
      if Nat.eqb n c
      then Some (Arr [r; c] (map (fun i => f (nth i (data x) NaN) (nth (i mod c) (data m) NaN))
                               (seq 0 (r * c))))
      else if Nat.eqb n 1
      then Some (Arr [r; c] (map (fun v => f v (nth 0 (data m) NaN)) (data x)))
      else if Nat.eqb c 1
      then Some (Arr [r; n] (flat_map (fun v => map (f v) (data m)) (data x)))
      else None
  | _, _ => None
  end.

Definition bind {A B : Type} (o : option A) (f : A -> option B) : option B :=
  match o with Some a => f a | None => None end.

(** mask_mean.py lines 43-52, one leaf. *)
Definition mask_mean (fm : R) (axis : option nat) (mask : arr bool) (x : arr fl)
  : option (arr fl) :=
  bind (apply_mask None (Fin 0) mask x) (fun x =>
  let x := fill_nans fm x in
  bind (count_axis axis mask) (fun count =>
  bind (sum_axis axis x) (fun s =>
  Some (Arr (shape s) (map2 fdiv (data s) (data count)))))).

(** mask_std.py lines 46-66, one leaf; [eps] is finfo(dtype).resolution ** 2. *)
Definition mask_std (fm eps : R) (axis : option nat) (assume_centered : bool) (mask : arr bool)
  (x : arr fl) : option (arr fl) :=
  bind (apply_mask None (Fin 0) mask x) (fun x =>
  let x := fill_nans fm x in
  bind (count_axis axis mask) (fun count =>
  bind (sum_axis axis x) (fun s =>
  let mean := Arr (shape s) (map2 fdiv (data s) (data count)) in
  bind (if assume_centered then Some x else broadcast2 fsub x mean) (fun diff =>
  bind (apply_mask None (Fin 0) mask diff) (fun diff =>
  bind (sum_axis axis (arr_map (fun v => fmul v v) diff)) (fun ss =>
  let var := map2 fdiv (data ss) (data count) in
  Some (Arr (shape ss)
    (map (fun v => if flt (Fin 0) v then fsqrt (fadd (Fin eps) v) else Fin 0) var)))))))).

(** mask_normalize.py lines 46-49, one leaf (FillNanInf with its default fill value 0). *)
Definition mask_normalize (fm eps : R) (axis : option nat) (assume_centered : bool)
  (mask : arr bool) (x : arr fl) : option (arr fl) :=
  bind (mask_std fm eps axis assume_centered mask x) (fun x_std =>
  bind (broadcast2 fdiv x x_std) (fun q =>
  Some (arr_map (nan_to_num (Fin 0) (Fin 0) (Fin 0)) q))).
