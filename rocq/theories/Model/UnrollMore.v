(** Model of the rest of /repo/src/wax/unroll.py: pairs already unrolled, nested unrolling, the deprecated wrappers,
    static_scan without inputs, data_unroll. *)
From Coq Require Import List.
From Verif Require Import Model.Tree Model.Unroll.
Import ListNotations.

(** unroll.py lines 34-36: UnrollTransformedWithState, a pair of functions on sequences; init raises on an empty
    sequence. *)
Record unrolled (K P S X Y : Type) : Type := Unrolled {
  u_init : option K -> X -> option (P * S);
  u_apply : P -> S -> option K -> X -> Y * S }.
Arguments Unrolled {K P S X Y}.
Arguments u_init {K P S X Y}.
Arguments u_apply {K P S X Y}.

(** a pair (init, apply) seen as an [unrolled] one whose init never raises *)
Definition total_pair {K P S X Y : Type} (tf : transformed K P S X Y) : unrolled K P S X Y :=
  Unrolled (fun rng x => Some (t_init tf rng x)) (t_apply tf).

(** unroll.py lines 44-95: unroll_transform_with_state with dynamic=True.  A pair which is not callable, and an
    UnrollTransformedWithState is one, is used as it is (lines 59-62): its inputs are slices along the first axis,
    which may again be sequences. *)
Definition unroll_transform {K P S X Y : Type} (split : K -> K * K) (f : unrolled K P S X Y) (skip_first : bool)
  : unrolled K P S (list X) (list Y) :=
  Unrolled
    (* lines 65-69 *)
    (fun rng xs => match xs with [] => None | x0 :: _ => u_init f rng x0 end)
    (* lines 71-93 *)
    (fun params state rng xs =>
       let xs' := if skip_first then tl xs else xs in
       let '((final_state, _), ys) :=
         lax_scan (fun scan_state inputs =>
                     let '(state, rng) := scan_state in
                     let '(rng', sub_rng) := match rng with
                                             | Some k => let '(a, b) := split k in (Some a, Some b)
                                             | None => (None, None)
                                             end in
                     let '(outputs, state') := u_apply f params state sub_rng inputs in
                     ((state', rng'), outputs)) (state, rng) xs' in
       (ys, final_state)).

(** What can be passed to [unroll]: a function or an ordinary pair, or a pair already unrolled. *)
Inductive unroll_arg (K P S X Y : Type) : Type :=
| Plain (tf : transformed K P S X Y)
| Already (u : unrolled K P S (list X) (list Y)).
Arguments Plain {K P S X Y}.
Arguments Already {K P S X Y}.

(** unroll.py lines 98-138: unroll, with return_final_state=True.  Line 125: skip_first (and dynamic) are only
    passed on when the argument is not already unrolled. *)
Definition unroll_any {K P S X Y : Type} (split : K -> K * K) (f : unroll_arg K P S X Y) (skip_first : bool)
  (rng : option K) (params : option P) (state : option S) (xs : list X) : option (list Y * S) :=
  let fn := match f with
            | Plain tf => unroll_transform split (total_pair tf) skip_first
            | Already u => u
            end in
  match u_init fn rng xs with
  | None => None
  | Some (p0, s0) =>
      let p := match params with None => p0 | Some p => p end in
      let s := match state with None => s0 | Some s => s end in
      Some (u_apply fn p s rng xs)
  end.

(** unroll.py lines 141-155: init_params_state *)
Definition init_params_state {K P S X Y : Type} (split : K -> K * K) (tf : transformed K P S X Y)
  (rng : option K) (xs : list X) : option (P * S) :=
  u_init (unroll_transform split (total_pair tf) false) rng xs.

(** unroll.py lines 158-192: dynamic_unroll (params and state may be None) *)
Definition dynamic_unroll {K P S X Y : Type} (split : K -> K * K) (tf : transformed K P S X Y)
  (params : option P) (state : option S) (rng : option K) (skip_first : bool) (xs : list X) : option (list Y * S) :=
  let tfun := unroll_transform split (total_pair tf) skip_first in
  match u_init tfun rng xs with
  | None => None
  | Some (fun_init_params, fun_init_state) =>
      let params := match params with None => fun_init_params | Some p => p end in
      let state := match state with None => fun_init_state | Some s => s end in
      Some (u_apply tfun params state rng xs)
  end.

(** unroll.py lines 195-231: static_unroll; its unrolling on leaves is that of Model/Unroll.v (dynamic=False). *)
Definition static_unroll {K P S A B : Type} (split : K -> K * K) (tf : transformed K P S (tree A) (tree B))
  (params : option P) (state : option S) (rng : option K) (skip_first : bool) (xs : tree (list A))
  : option (tree (list B) * S) :=
  unroll_static split tf skip_first rng params state xs.

(** unroll.py lines 247-261: static_scan with xs=None: the inputs are the Python list [None] * length, and None is
    a pytree without leaf. *)
Definition static_scan_no_xs {C B : Type} (f : C -> tree unit -> C * tree B) (init : C) (length : nat)
  : option (C * tree (list B)) :=
  static_scan f init (Node (repeat (Node []) length)).

(** unroll.py lines 377-391: data_unroll; the loop keeps one list per leaf and the structure of the last
    observation; stacking a leaf list is the identity on the list of its rows.  [None]: without any observation
    the loop over None raises; the progress bar is not modelled. *)
Fixpoint data_loop {A I : Type} (xs : option (tree unit * list (list A))) (gen : list (tree A * I))
  : option (tree unit * list (list A)) :=
  match gen with
  | [] => xs
  | (obs, _info) :: r =>
      let x := tree_leaves obs in
      let treedef := tree_def obs in
      let acc := match xs with None => map (fun _ => []) x | Some (_, l) => l end in
      data_loop (Some (treedef, append_leaves acc x)) r
  end.
Definition data_unroll {A I : Type} (data_gen : list (tree A * I)) : option (tree (list A)) :=
  match data_loop None data_gen with
  | None => None
  | Some (treedef, xs) => tree_unflatten treedef xs
  end.
