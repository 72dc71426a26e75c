(** Model of /repo/src/wax/stateful.py (vmap_lift_with_state, unroll_lift_with_state),
    /repo/src/wax/modules/vmap.py (VMap, add_batch) and /repo/src/wax/transform.py. *)
From Coq Require Import List.
From Verif Require Import Model.Tree Model.Unroll.
Import ListNotations.

Section Batch.
  Context {K P S X Y : Type}.
  Variable split : K -> K * K.
  (** jax.random.split(rng, num=n) *)
  Variable splitn : nat -> K -> list K.
  Variable tf : transformed K P S X Y.

  (** hk.next_rng_key(): first key of the PRNG sequence of the enclosing transformed call;
      ValueError ([None]) if the function was called without rng. *)
  Definition next_rng_key (rng : option K) : option K := option_map (fun k => snd (split k)) rng.

  (** stateful.py lines 29-39 and 46-61 while hk.running_init() (haiku returns the initial
      params and state, one per lane).  [None]: ValueError (also lines 23-24). *)
  Definition vmap_init (split_rng init_rng : bool) (rng : option K) (xs : list X)
    : option (list (P * S)) :=
    if split_rng then
      if init_rng then
        match next_rng_key rng with
        | None => None
        | Some k => Some (map (fun '(ki, x) => t_init tf (Some ki) x)
                            (combine (splitn (length xs) k) xs))
        end
      else None
    else if init_rng then
      match next_rng_key rng with
      | None => None
      | Some k => Some (map (fun x => t_init tf (Some k) x) xs)
      end
    else Some (map (fun x => t_init tf None x) xs).

  (** jax.vmap of tfun.apply over params, state, (rng) and inputs: every mapped axis must have the
      same size, otherwise ValueError ([None]). *)
  Fixpoint vmap_apply_lanes (ps : list P) (ss : list S) (ks : list (option K)) (xs : list X)
    : option (list (Y * S)) :=
    match ps, ss, ks, xs with
    | [], [], [], [] => Some []
    | p :: ps', s :: ss', k :: ks', x :: xs' =>
        match vmap_apply_lanes ps' ss' ks' xs' with
        | None => None
        | Some r => Some (t_apply tf p s k x :: r)
        end
    | _, _, _, _ => None
    end.

  (** stateful.py lines 41-45 (split_rng=False: key None in each lane) and 63-69
      (split_rng=True: one key per lane); the lifted state is updated (line 71). *)
  Definition vmap_apply (split_rng : bool) (ps : list P) (ss : list S) (rng : option K)
    (xs : list X) : option (list Y * list S) :=
    let res :=
      if split_rng then
        match next_rng_key rng with
        | None => None
        | Some k => vmap_apply_lanes ps ss (map Some (splitn (length xs) k)) xs
        end
      else vmap_apply_lanes ps ss (map (fun _ => None) xs) xs in
    option_map (fun r => (map fst r, map snd r)) res.

  (** vmap.py lines 42-56: add_batch with take_mean=False, called with a key: the split version, falling back
      to the non-split version on ValueError.  Not modelled: a call without key after an initialisation with one
      (line 48 raises after haiku has used the name vmap_lift, and the fallback looks for its variables under a
      second name). *)
  Definition add_batch_apply (ps : list P) (ss : list S) (k : K) (xs : list X)
    : option (list Y * list S) :=
    match vmap_apply true ps ss (Some k) xs with
    | Some r => Some r
    | None => vmap_apply false ps ss (Some k) xs
    end.

  (** unroll.py scan_f around a lifted module (key split at each step). *)
  Fixpoint batch_scan (split_rng : bool) (ps : list P) (ss : list S) (rng : option K)
    (xss : list (list X)) : option (list (list Y) * list S) :=
    match xss with
    | [] => Some ([], ss)
    | xs :: r =>
        let rng' := option_map (fun k => fst (split k)) rng in
        let sub := option_map (fun k => snd (split k)) rng in
        match vmap_apply split_rng ps ss sub xs with
        | None => None
        | Some (ys, ss') =>
            match batch_scan split_rng ps ss' rng' r with
            | None => None
            | Some (yss, sF) => Some (ys :: yss, sF)
            end
        end
    end.

  (** stateful.py lines 77-106: unroll_lift_with_state inside a transformed function.  [inner] is the
      lifted (params, state) of the enclosing haiku context, [next n] the n-th key drawn from the
      enclosing context (hk.maybe_next_rng_key inside hk.scan), used only with split_rng.
      The lifted state is updated with the final one (line 102). *)
  Fixpoint unroll_lift_scan (split_rng : bool) (next : nat -> option K) (n : nat) (p : P) (s : S)
    (xs : list X) : list Y * S :=
    match xs with
    | [] => ([], s)
    | x :: r =>
        let '(y, s') := t_apply tf p s (if split_rng then next n else None) x in
        let '(ys, sF) := unroll_lift_scan split_rng next (Datatypes.S n) p s' r in
        (y :: ys, sF)
    end.

  Definition unroll_lift_apply (skip_first split_rng : bool) (next : nat -> option K)
    (p : P) (s : S) (xs : list X) : list Y * S :=
    unroll_lift_scan split_rng next 0 p s (if skip_first then tl xs else xs).

  (** transform.py lines 30-33: BatchState. *)
  Record batch_state := BatchState { fun_params : P; fun_state : S; rng_key : option K }.

  (** transform.py lines 44-47: scan_f (the key is never split). *)
  Definition batch_scan_f (prev : batch_state) (x : X) : batch_state * Y :=
    let '(y, s') := t_apply tf (fun_params prev) (fun_state prev) (rng_key prev) x in
    (BatchState (fun_params prev) s' (rng_key prev), y).

  (** transform.py lines 49-52: init; IndexError on an empty batch. *)
  Definition transform_batch_init (key : option K) (xs : list X) : option batch_state :=
    match xs with
    | [] => None
    | x0 :: _ => let '(p, s) := t_init tf key x0 in Some (BatchState p s key)
    end.

  (** transform.py lines 54-62: apply; the argument [key] is not used. *)
  Definition transform_batch_apply (skip_first : bool) (state : batch_state) (key : option K)
    (xs : list X) : list Y * batch_state :=
    let '(sF, ys) := lax_scan batch_scan_f state (if skip_first then tl xs else xs) in (ys, sF).

  (** transform.py lines 82-90: static apply; line 85 installs the given key.  Simplification: the
      leaf-wise stacking of static_scan is that of Model.Unroll.static_scan (C04); here outputs are
      kept as a list; [None] is the exception raised when no step is left. *)
  Definition transform_batch_apply_static (skip_first : bool) (state : batch_state)
    (key : option K) (xs : list X) : option (list Y * batch_state) :=
    match (if skip_first then tl xs else xs) with
    | [] => None
    | xs' => let '(sF, ys) := lax_scan batch_scan_f
                 (BatchState (fun_params state) (fun_state state) key) xs' in Some (ys, sF)
    end.
End Batch.
