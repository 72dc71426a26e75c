(** Property theorems C93: the other entry points of unroll.py. *)
From Coq Require Import List Arith Lia.
From Verif Require Import Model.Tree Model.Unroll Model.UnrollMore Spec.TreeSpec Proofs.UnrollMoreProofs.
Import ListNotations.

(** C93: [unroll] on a function or an ordinary pair is the unroll of C01-C06, and the deprecated functions give the
    same results (their arguments in another order). *)
Theorem C93_unroll_of_a_function :
  forall (K P S X Y : Type) (split : K -> K * K) (tf : transformed K P S X Y) skip rng params state (xs : list X),
  unroll_any split (Plain tf) skip rng params state xs = unroll split tf skip rng params state xs.
Proof. exact @unroll_any_plain. Qed.
Print Assumptions C93_unroll_of_a_function.
Theorem C93_deprecated_functions :
  forall (K P S X Y : Type) (split : K -> K * K) (tf : transformed K P S X Y) skip rng params state (xs : list X),
  init_params_state split tf rng xs = unroll_init tf rng xs /\
  dynamic_unroll split tf params state rng skip xs = unroll split tf skip rng params state xs.
Proof. exact @deprecated_same. Qed.
Print Assumptions C93_deprecated_functions.

(** C93: a pair made by unroll_transform_with_state keeps its own skip_first: the one given to [unroll] is
    ignored. *)
Theorem C93_already_unrolled_keeps_skip_first :
  forall (K P S X Y : Type) (split : K -> K * K) (tf : transformed K P S X Y) split' skip skip' rng params state (xs : list X),
  unroll_any split' (Already (unroll_transform split (total_pair tf) skip)) skip' rng params state xs =
  unroll split tf skip rng params state xs.
Proof. exact @unroll_any_already. Qed.
Print Assumptions C93_already_unrolled_keeps_skip_first.

(** C93: unrolling twice reads a sequence of sequences as their concatenation: same outputs (cut in the same way),
    same final state; each level skips its own first element.  Without a key ... *)
Theorem C93_nested_unroll_is_flat :
  forall (K P S X Y : Type) (split : K -> K * K) (tf : transformed K P S X Y) (skip_in skip_out : bool) params state
    (x0 : X) r rest,
  let xss := (x0 :: r) :: rest in
  let chunks := map (fun c => if skip_in then tl c else c) (if skip_out then tl xss else xss) in
  exists yss sF,
    unroll_any split (Already (unroll_transform split (unroll_transform split (total_pair tf) skip_in) skip_out)) false
      None params state xss = Some (yss, sF) /\
    map (@length Y) yss = map (@length X) chunks /\
    unroll split tf true None params state (x0 :: concat chunks) = Some (concat yss, sF).
Proof. exact @nested_flat. Qed.
Print Assumptions C93_nested_unroll_is_flat.
(** ... and with a key, every inner sequence is an ordinary unroll from the state reached so far, with the key
    split off for it. *)
Theorem C93_nested_unroll_keys :
  forall (K P S X Y : Type) (split : K -> K * K) (tf : transformed K P S X Y) (skip_in skip_out : bool) rng params state
    (x0 : X) r rest,
  let xss := (x0 :: r) :: rest in
  let chunks := if skip_out then tl xss else xss in
  let p := match params with None => fst (t_init tf rng x0) | Some p => p end in
  exists yss sF,
    unroll_any split (Already (unroll_transform split (unroll_transform split (total_pair tf) skip_in) skip_out)) false
      rng params state xss = Some (yss, sF) /\
    length yss = length chunks /\
    exists (st : nat -> S) (key : nat -> option K),
      st 0 = match state with None => snd (t_init tf rng x0) | Some s => s end /\ key 0 = rng /\ st (length chunks) = sF /\
      forall i c, nth_error chunks i = Some c ->
        key (1 + i) = option_map (fun k => fst (split k)) (key i) /\
        (c <> [] -> exists ys, nth_error yss i = Some ys /\
          unroll split tf skip_in (option_map (fun k => snd (split k)) (key i)) (Some p) (Some (st i)) c =
            Some (ys, st (1 + i))).
Proof. exact @nested_trace. Qed.
Print Assumptions C93_nested_unroll_keys.

(** C93: static_scan(f, init, None, length), which lax.scan accepts, always raises. *)
Theorem C93_static_scan_without_inputs_raises :
  forall (C B : Type) (f : C -> tree unit -> C * tree B) init (length : nat), static_scan_no_xs f init length = None.
Proof. exact @static_scan_no_xs_raises. Qed.
Print Assumptions C93_static_scan_without_inputs_raises.

(** C93: data_unroll stacks the observations of a generator: the t-th slice is the t-th observation ... *)
Theorem C93_data_unroll_stacks :
  forall (A I : Type) (td : tree unit) (gen : list (tree A * I)),
  gen <> [] -> (forall o i, In (o, i) gen -> tree_def o = td) ->
  exists out, data_unroll gen = Some out /\ tree_def out = td /\ slices out (map fst gen).
Proof. exact @data_unroll_spec. Qed.
Print Assumptions C93_data_unroll_stacks.
(** ... so that unrolling a function on the stacked data is running it on the observations one after the other. *)
Theorem C93_data_unroll_then_unroll :
  forall (K P S A B I : Type) (split : K -> K * K) (tf : transformed K P S (tree A) (tree B)) td td' (gen : list (tree A * I))
    rng params state,
  gen <> [] -> (forall o i, In (o, i) gen -> tree_def o = td) -> tree_leaves td <> [] ->
  (forall p s k x, tree_def (fst (t_apply tf p s k x)) = td') ->
  exists xs out ys sF,
    data_unroll gen = Some xs /\ static_unroll split tf params state rng false xs = Some (out, sF) /\
    unroll split tf false rng params state (map fst gen) = Some (ys, sF) /\ slices out ys.
Proof. exact @data_unroll_static. Qed.
Print Assumptions C93_data_unroll_then_unroll.

(** running sums of (previous sum, key) over two rows of three, skipping the first of each row *)
Definition demo_sum : transformed nat unit nat nat (nat * option nat) :=
  Transformed (fun _ x => (tt, 0)) (fun _ s k x => ((s + x, k), s + x)).
Example C93_example :
  let u := unroll_transform (fun k => (2 * k, 2 * k + 1)) (unroll_transform (fun k => (2 * k, 2 * k + 1)) (total_pair demo_sum) true) false in
  unroll_any (fun k => (k, k)) (Already u) true None None None [[1; 2; 3]; [4; 5; 6]] =
    Some ([[(2, None); (5, None)]; [(10, None); (16, None)]], 16) /\
  unroll_any (fun k => (k, k)) (Already u) true (Some 1) None None [[1; 2; 3]; [4; 5; 6]] =
    Some ([[(2, Some 7); (5, Some 13)]; [(10, Some 11); (16, Some 21)]], 16) /\
  data_unroll [(Node [Leaf 1; Node [Leaf 2]], tt); (Node [Leaf 3; Node [Leaf 4]], tt)] =
    Some (Node [Leaf [1; 3]; Node [Leaf [2; 4]]]).
Proof. repeat split; reflexivity. Qed.
