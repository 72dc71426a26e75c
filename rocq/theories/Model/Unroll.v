(** Model of /repo/src/wax/unroll.py.
    A time slice of the arguments [(args, kwargs)] is one value of type [X]; a sequence of
    arguments is the list of its slices along the first axis.  Only the leaf-level Python code
    (static_scan, gym_static_unroll) uses explicit pytrees. *)
From Coq Require Import List.
From Verif Require Import Model.Tree.
Import ListNotations.

(** haiku.TransformedWithState: a pair of pure functions.
    [K] keys, [P] params, [S] state, [X] inputs, [Y] outputs. *)
Record transformed (K P S X Y : Type) : Type := Transformed {
  t_init : option K -> X -> P * S;
  t_apply : P -> S -> option K -> X -> Y * S }.
Arguments Transformed {K P S X Y}.
Arguments t_init {K P S X Y}.
Arguments t_apply {K P S X Y}.

(** jax.lax.scan: documented Python equivalent. *)
Fixpoint lax_scan {C X Y : Type} (f : C -> X -> C * Y) (c : C) (xs : list X) : C * list Y :=
  match xs with
  | [] => (c, [])
  | x :: r =>
      let '(c1, y) := f c x in
      let '(c2, ys) := lax_scan f c1 r in (c2, y :: ys)
  end.

Section Unroll.
  Context {K P S X Y : Type}.
  (** jax.random.split: an arbitrary function of the key. *)
  Variable split : K -> K * K.
  Variable tf : transformed K P S X Y.

  (** unroll.py lines 65-69: init_fn; indexing an empty sequence raises. *)
  Definition unroll_init (rng : option K) (xs : list X) : option (P * S) :=
    match xs with
    | [] => None
    | x0 :: _ => Some (t_init tf rng x0)
    end.

  (** unroll.py lines 72-80: scan_f. *)
  Definition scan_f (params : P) (scan_state : S * option K) (inputs : X)
    : (S * option K) * Y :=
    let '(state, rng) := scan_state in
    let '(rng', sub_rng) :=
      match rng with
      | Some k => let '(a, b) := split k in (Some a, Some b)
      | None => (None, None)
      end in
    let '(outputs, state') := t_apply tf params state sub_rng inputs in
    ((state', rng'), outputs).

  (** unroll.py lines 71-93: apply_fn with dynamic=True. *)
  Definition unroll_apply (skip_first : bool) (params : P) (state : S) (rng : option K)
    (xs : list X) : list Y * S :=
    let xs' := if skip_first then tl xs else xs in
    let '((final_state, _), ys) := lax_scan (scan_f params) (state, rng) xs' in
    (ys, final_state).

  (** unroll.py lines 128-138: apply_fn of [unroll] with return_final_state=True.
      [params]/[state] are the optional overrides. *)
  Definition unroll (skip_first : bool) (rng : option K) (params : option P) (state : option S)
    (xs : list X) : option (list Y * S) :=
    match unroll_init rng xs with
    | None => None
    | Some (p0, s0) =>
        let p := match params with None => p0 | Some p => p end in
        let s := match state with None => s0 | Some s => s end in
        Some (unroll_apply skip_first p s rng xs)
    end.

  (** unroll.py lines 355-369: body_fun iterated by fori_loop; the key is passed unchanged to each
      call (line 359) and stored unchanged in the loop state (line 364).
      [output_sequence] (preallocated with NaN, line 348) is written at index i by [at[i].set]. *)
  Fixpoint set_nth (i : nat) (y : Y) (l : list Y) : list Y :=
    match l, i with
    | [], _ => []
    | _ :: r, O => y :: r
    | a :: r, Datatypes.S i' => a :: set_nth i' y r
    end.

  Definition fori_body (params : P) (rng : option K) (xs : list X)
    (i : nat) (st : S * list Y) : S * list Y :=
    match nth_error xs i with
    | None => st
    | Some x => let '(y, s') := t_apply tf params (fst st) rng x in (s', set_nth i y (snd st))
    end.

  Fixpoint fori_loop {C : Type} (lo n : nat) (body : nat -> C -> C) (c : C) : C :=
    match n with
    | O => c
    | Datatypes.S n' => fori_loop (Datatypes.S lo) n' body (body lo c)
    end.

  (** unroll.py lines 313-374: dynamic_unroll_fori_loop.  [nan_out] is the filling output
      (jnp.full_like of the template with NaN).  Fails (indexing) when no step is left. *)
  Definition dynamic_unroll_fori_loop (nan_out : Y) (skip_first : bool) (rng : option K)
    (params : option P) (state : option S) (xs : list X) : option (list Y * S) :=
    match unroll_init rng xs with
    | None => None
    | Some (p0, s0) =>
        let p := match params with None => p0 | Some p => p end in
        let s := match state with None => s0 | Some s => s end in
        let xs' := if skip_first then tl xs else xs in
        match xs' with
        | [] => None
        | _ :: _ =>
            let T := length xs' in
            let '(sF, ys) := fori_loop 0 T (fori_body p rng xs') (s, repeat nan_out T) in
            Some (ys, sF)
        end
    end.
End Unroll.

(** unroll.py lines 234-244: iter_first_axis, T is the length of the first leaf and every leaf is
    indexed by t: [None] is the IndexError of a shorter leaf (or of an input without leaf).
    Progress bars are not modelled. *)
Fixpoint mapM {A B : Type} (f : A -> option B) (l : list A) : option (list B) :=
  match l with
  | [] => Some []
  | a :: r => match f a, mapM f r with
              | Some b, Some bs => Some (b :: bs)
              | _, _ => None
              end
  end.

Definition iter_first_axis {A : Type} (xs : tree (list A)) : option (list (tree A)) :=
  let xs_flat := tree_leaves xs in
  let td := tree_def xs in
  match xs_flat with
  | [] => None
  | l0 :: _ =>
      mapM (fun t => match mapM (fun x => nth_error x t) xs_flat with
                     | Some leaves => tree_unflatten td leaves
                     | None => None
                     end) (seq 0 (length l0))
  end.

Section StaticScan.
  Context {C A B : Type}.
  (** unroll.py lines 270-271: zip(ys, y, strict=False) append. *)
  Fixpoint append_leaves (ys : list (list B)) (y : list B) : list (list B) :=
    match ys, y with
    | l :: ys', b :: y' => (l ++ [b]) :: append_leaves ys' y'
    | l, _ => l
    end.

  (** unroll.py lines 262-271: the loop; [ys] is None before the first output, [treedef] is
      overwritten at each iteration. *)
  Fixpoint static_loop (f : C -> tree A -> C * tree B) (carry : C)
    (ys : option (tree unit * list (list B))) (xs : list (tree A))
    : C * option (tree unit * list (list B)) :=
    match xs with
    | [] => (carry, ys)
    | x :: r =>
        let '(carry', y) := f carry x in
        let y_flat := tree_leaves y in
        let td := tree_def y in
        let ys0 := match ys with None => map (fun _ => []) y_flat | Some (_, l) => l end in
        static_loop f carry' (Some (td, append_leaves ys0 y_flat)) r
    end.

  (** unroll.py lines 247-275: static_scan (with [xs] given); stacking a leaf list is the identity
      on the list of its rows.  [None]: exception (no step executed: map over None). *)
  Definition static_scan (f : C -> tree A -> C * tree B) (init : C) (xs : tree (list A))
    : option (C * tree (list B)) :=
    match iter_first_axis xs with
    | None => None
    | Some slices =>
        match static_loop f init None slices with
        | (_, None) => None
        | (c, Some (td, ys)) =>
            match tree_unflatten td ys with
            | None => None
            | Some t => Some (c, t)
            end
        end
    end.
End StaticScan.

(** unroll.py lines 44-95 and 98-138 with dynamic=False: init on the first slice (line 67), skip_first
    drops the first entry of each leaf (line 85), then static_scan. *)
Definition unroll_static {K P S A B : Type} (split : K -> K * K)
  (tf : transformed K P S (tree A) (tree B)) (skip_first : bool) (rng : option K)
  (params : option P) (state : option S) (xs : tree (list A)) : option (tree (list B) * S) :=
  match mapM (fun x => nth_error x 0) (tree_leaves xs) with
  | None => None
  | Some leaves0 =>
      match tree_unflatten (tree_def xs) leaves0 with
      | None => None
      | Some x0 =>
          let '(p0, s0) := t_init tf rng x0 in
          let p := match params with None => p0 | Some p => p end in
          let s := match state with None => s0 | Some s => s end in
          let xs' := if skip_first then tree_map (@tl A) xs else xs in
          match static_scan (scan_f split tf p) (s, rng) xs' with
          | None => None
          | Some ((sF, _), ys) => Some (ys, sF)
          end
      end
  end.

(** unroll.py lines 401-435: gym_static_unroll.  The data generator is the list of its
    observations; [seq] is the infinite generator of keys.  Outputs are kept as a list of output
    values (leaf-wise stacking as in static_scan).  [None] stands for the exceptions raised on an
    empty generator, or when nothing initialised [ys]. *)
Section GymStatic.
  Context {K P S X Y : Type}.
  Variable tf : transformed K P S X Y.
  Variable seq : nat -> K.

  (** unroll.py lines 425-431: the loop over the generator. *)
  Fixpoint gym_loop (params : P) (state : S) (n : nat) (ys : option (list Y)) (obs : list X)
    : option (list Y) * S :=
    match obs with
    | [] => (ys, state)
    | o :: r =>
        let '(y, state') := t_apply tf params state (Some (seq n)) o in
        let ys0 := match ys with None => [] | Some l => l end in
        gym_loop params state' (Datatypes.S n) (Some (ys0 ++ [y])) r
    end.

  Definition gym_static_unroll (skip_first : bool) (params : option P) (state : option S)
    (obs : list X) : option (list Y * S) :=
    match obs with
    | [] => None
    | o :: r =>
        let '(p0, s0) := t_init tf (Some (seq 0)) o in
        let p := match params with None => p0 | Some p => p end in
        let s := match state with None => s0 | Some s => s end in
        let '(ys0, s1, n) :=
          if skip_first then (None, s, 1)
          else let '(y, s1) := t_apply tf p s (Some (seq 1)) o in
               (* line 421: ys is created with empty leaves, y itself is not appended *)
               (Some [], s1, 2) in
        match gym_loop p s1 n ys0 r with
        | (None, _) => None
        | (Some [], _) => None (* line 433: jnp.stack of an empty list raises ValueError *)
        | (Some ys, sF) => Some (ys, sF)
        end
    end.
End GymStatic.
