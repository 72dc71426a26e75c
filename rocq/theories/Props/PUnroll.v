(** Property theorems C01-C09: unrolling and batching (unroll.py, stateful.py, vmap.py,
    transform.py). *)
From Coq Require Import List Arith Lia.
From Verif Require Import Model.Tree Model.Unroll Model.Batch Spec.TreeSpec Spec.BatchSpec
  Proofs.ListFacts Proofs.UnrollProofs Proofs.TreeProofs Proofs.BatchProofs Proofs.UnrollExtra.
Import ListNotations.

(** C01: an unroll is the iteration of apply; [st t] is the state before step t, [key t] the key
    before step t. *)
Theorem C01_unroll_is_iteration :
  forall (K P S X Y : Type) (split : K -> K * K) (tf : transformed K P S X Y)
         (rng : option K) (x0 : X) (xs : list X),
  exists (ys : list Y) (sF : S),
    unroll split tf false rng None None (x0 :: xs) = Some (ys, sF) /\
    length ys = length (x0 :: xs) /\
    exists (st : nat -> S) (key : nat -> option K),
      st 0 = snd (t_init tf rng x0) /\ key 0 = rng /\ st (length (x0 :: xs)) = sF /\
      forall t x, nth_error (x0 :: xs) t = Some x ->
        exists y, nth_error ys t = Some y /\
          t_apply tf (fst (t_init tf rng x0)) (st t)
            (option_map (fun k => snd (split k)) (key t)) x = (y, st (1 + t)) /\
          key (1 + t) = option_map (fun k => fst (split k)) (key t).
Proof. exact @unroll_total_trace. Qed.
Print Assumptions C01_unroll_is_iteration.

(** A counting module: state = number of calls, output = (calls, key, input). *)
Definition demo : transformed nat unit nat nat (nat * option nat * nat) :=
  Transformed (fun _ _ => (tt, 0)) (fun _ s k x => ((s + 1, k, x), s + 1)).
Definition demo_split (k : nat) : nat * nat := (2 * k, 2 * k + 1).

Example C01_example :
  unroll demo_split demo false (Some 7) None None [5; 6; 8] =
  Some ([(1, Some 15, 5); (2, Some 29, 6); (3, Some 57, 8)], 3).
Proof. reflexivity. Qed.

(** C02: two inputs with a common non-empty prefix give the same outputs on that prefix. *)
Theorem C02_unroll_causal :
  forall (K P S X Y : Type) (split : K -> K * K) (tf : transformed K P S X Y)
         (rng : option K) (params : option P) (state : option S)
         (x0 : X) (pre suf1 suf2 : list X) ys1 ys2 s1 s2,
  unroll split tf false rng params state ((x0 :: pre) ++ suf1) = Some (ys1, s1) ->
  unroll split tf false rng params state ((x0 :: pre) ++ suf2) = Some (ys2, s2) ->
  firstn (length (x0 :: pre)) ys1 = firstn (length (x0 :: pre)) ys2.
Proof. exact @unroll_causal. Qed.
Print Assumptions C02_unroll_causal.

(** C02: unrolling a prefix gives the prefix of the outputs. *)
Theorem C02_unroll_prefix :
  forall (K P S X Y : Type) (split : K -> K * K) (tf : transformed K P S X Y)
         (rng : option K) (params : option P) (state : option S)
         (x0 : X) (pre suf : list X) ys1 ys2 s1 s2,
  unroll split tf false rng params state ((x0 :: pre) ++ suf) = Some (ys1, s1) ->
  unroll split tf false rng params state (x0 :: pre) = Some (ys2, s2) ->
  ys2 = firstn (length (x0 :: pre)) ys1.
Proof. exact @unroll_prefix. Qed.
Print Assumptions C02_unroll_prefix.

Example C02_example :
  unroll demo_split demo false (Some 7) None None ([5; 6] ++ [8]) =
    Some ([(1, Some 15, 5); (2, Some 29, 6); (3, Some 57, 8)], 3) /\
  unroll demo_split demo false (Some 7) None None ([5; 6] ++ []) =
    Some ([(1, Some 15, 5); (2, Some 29, 6)], 2).
Proof. split; reflexivity. Qed.

(** C03: stop with return_final_state, resume with params= and state= (no rng key); [p1] are the
    parameters the first call used: the given ones, or those of init on the first input. *)
Theorem C03_unroll_resume :
  forall (K P S X Y : Type) (split : K -> K * K) (tf : transformed K P S X Y)
         (params : option P) (state : option S) (x0 : X) (xs : list X) (y0 : X) (ys : list X)
         (p1 : P) o1 s1 o2 s2,
  p1 = match params with Some p => p | None => fst (t_init tf None x0) end ->
  unroll split tf false None params state (x0 :: xs) = Some (o1, s1) ->
  unroll split tf false None (Some p1) (Some s1) (y0 :: ys) = Some (o2, s2) ->
  unroll split tf false None params state ((x0 :: xs) ++ (y0 :: ys)) = Some (o1 ++ o2, s2).
Proof. exact @unroll_resume'. Qed.
Print Assumptions C03_unroll_resume.

Example C03_example :
  unroll demo_split demo false None None None [5; 6] = Some ([(1, None, 5); (2, None, 6)], 2) /\
  unroll demo_split demo false None (Some tt) (Some 2) [8; 9] =
    Some ([(3, None, 8); (4, None, 9)], 4).
Proof. split; reflexivity. Qed.

(** C03, false with a key: the key reached after the first call is not returned, the second call
    restarts from the same key. *)
Theorem C03_unroll_resume_with_rng_refuted :
  exists (split : nat -> nat * nat) (tf : transformed nat unit unit nat (option nat))
         (k : nat) (xs ys : list nat) o1 s1 o2 s2 o s,
    unroll split tf false (Some k) None None xs = Some (o1, s1) /\
    unroll split tf false (Some k) (Some tt) (Some s1) ys = Some (o2, s2) /\
    unroll split tf false (Some k) None None (xs ++ ys) = Some (o, s) /\
    o <> o1 ++ o2.
Proof. exact unroll_resume_rng_refuted. Qed.
Print Assumptions C03_unroll_resume_with_rng_refuted.

(** C04: static and dynamic unroll agree.  [xs] is the pytree of input arrays, [sl] its slices;
    the static output [out] is the pytree of stacked arrays whose slices are the dynamic
    outputs.  The output structure [td] of apply is constant (lax.scan requires it). *)
Theorem C04_static_eq_dynamic :
  forall (K P S A B : Type) (split : K -> K * K) (tf : transformed K P S (tree A) (tree B))
         (td : tree unit) (skip : bool) rng params state (xs : tree (list A)) (sl : list (tree A)),
  (forall p s k x, tree_def (fst (t_apply tf p s k x)) = td) ->
  slices xs sl -> tree_leaves xs <> [] -> (if skip then tl sl else sl) <> [] ->
  exists out ys sF,
    unroll split tf skip rng params state sl = Some (ys, sF) /\
    unroll_static split tf skip rng params state xs = Some (out, sF) /\
    slices out ys.
Proof. exact @unroll_static_spec. Qed.
Print Assumptions C04_static_eq_dynamic.

(** C04: with no step left the static version raises, the dynamic one returns empty outputs. *)
Theorem C04_static_fails_without_step :
  forall (K P S A B : Type) (split : K -> K * K) (tf : transformed K P S (tree A) (tree B))
         rng params state (xs : tree (list A)) (x0 : tree A),
  slices xs [x0] ->
  unroll_static split tf true rng params state xs = None /\
  exists sF, unroll split tf true rng params state [x0] = Some ([], sF).
Proof. exact @unroll_static_empty'. Qed.
Print Assumptions C04_static_fails_without_step.

Definition demo_tree : transformed nat unit nat (tree nat) (tree nat) :=
  Transformed (fun _ _ => (tt, 0))
    (fun _ s _ x => (Node [Leaf s; Leaf (list_sum (tree_leaves x))], s + 1)).
Example C04_example :
  slices (Node [Leaf [1; 2; 3]; Leaf [10; 20; 30]])
         [Node [Leaf 1; Leaf 10]; Node [Leaf 2; Leaf 20]; Node [Leaf 3; Leaf 30]] /\
  unroll_static demo_split demo_tree false (Some 1) None None
     (Node [Leaf [1; 2; 3]; Leaf [10; 20; 30]]) =
  Some (Node [Leaf [0; 1; 2]; Leaf [11; 22; 33]], 3).
Proof.
  split; [|reflexivity]. split.
  - simpl. intros l [<-|[<-|[]]]; reflexivity.
  - intros [|[|[|t]]] s H; simpl in H; try discriminate; try (destruct t; discriminate);
      injection H as <-; reflexivity.
Qed.

(** C05: skip_first=True: initialise on the first value, run on the others. *)
Theorem C05_skip_first :
  forall (K P S X Y : Type) (split : K -> K * K) (tf : transformed K P S X Y)
         rng params state (x0 x1 : X) (xs : list X),
  unroll split tf true rng params state (x0 :: x1 :: xs) =
  unroll split tf false rng
    (Some (match params with Some p => p | None => fst (t_init tf rng x0) end))
    (Some (match state with Some s => s | None => snd (t_init tf rng x0) end)) (x1 :: xs)
  /\ forall ys sF, unroll split tf true rng params state (x0 :: x1 :: xs) = Some (ys, sF) ->
     length ys = length (x1 :: xs).
Proof. exact @unroll_skip_first. Qed.
Print Assumptions C05_skip_first.

Example C05_example :
  unroll demo_split demo true (Some 7) None None [5; 6; 8] =
  Some ([(1, Some 15, 6); (2, Some 29, 8)], 2).
Proof. reflexivity. Qed.

(** C06: overriding both params and state makes the result independent of init; overriding one
    leaves the other as initialised. *)
Theorem C06_override_both :
  forall (K P S X Y : Type) (split : K -> K * K) (tf : transformed K P S X Y)
         (init' : option K -> X -> P * S) skip rng (p : P) (s : S) (xs : list X),
  unroll split tf skip rng (Some p) (Some s) xs =
  unroll split (Transformed init' (t_apply tf)) skip rng (Some p) (Some s) xs.
Proof. exact @unroll_override_both. Qed.
Print Assumptions C06_override_both.

Theorem C06_override_each :
  forall (K P S X Y : Type) (split : K -> K * K) (tf : transformed K P S X Y)
         skip rng (params : option P) (state : option S) (x0 : X) (xs : list X),
  let init' := fun k x =>
    (match params with Some p => p | None => fst (t_init tf k x) end,
     match state with Some s => s | None => snd (t_init tf k x) end) in
  unroll split tf skip rng params state (x0 :: xs) =
  unroll split (Transformed init' (t_apply tf)) skip rng None None (x0 :: xs).
Proof. exact @unroll_override_each. Qed.
Print Assumptions C06_override_each.

Example C06_example :
  unroll demo_split demo false None None (Some 41) [5] = Some ([(42, None, 5)], 42).
Proof. reflexivity. Qed.

(** C07: the fori_loop unroll equals the scan unroll when apply ignores its key. *)
Theorem C07_fori_loop :
  forall (K P S X Y : Type) (split : K -> K * K) (tf : transformed K P S X Y)
         (nan_out : Y) (skip : bool) rng params state (xs : list X),
  (forall p s k1 k2 x, t_apply tf p s k1 x = t_apply tf p s k2 x) ->
  (if skip then tl xs else xs) <> [] ->
  dynamic_unroll_fori_loop tf nan_out skip rng params state xs =
  unroll split tf skip rng params state xs.
Proof. exact @fori_eq_scan. Qed.
Print Assumptions C07_fori_loop.

(** C07: for any module, the fori_loop unroll hands the same unsplit key to each step. *)
Theorem C07_fori_loop_same_key :
  forall (K P S X Y : Type) (tf : transformed K P S X Y) (split : K -> K * K)
         (nan_out : Y) (skip : bool) (k : K) params state (xs : list X),
  (if skip then tl xs else xs) <> [] ->
  dynamic_unroll_fori_loop tf nan_out skip (Some k) params state xs =
  unroll split (Transformed (t_init tf) (fun p s _ x => t_apply tf p s (Some k) x))
    skip (Some k) params state xs.
Proof. exact @fori_same_key. Qed.
Print Assumptions C07_fori_loop_same_key.

Theorem C07_fori_loop_with_rng_refuted :
  exists (split : nat -> nat * nat) (tf : transformed nat unit unit nat (option nat))
         (k : nat) (xs : list nat),
    xs <> [] /\
    dynamic_unroll_fori_loop tf None false (Some k) None None xs <>
    unroll split tf false (Some k) None None xs.
Proof. exact fori_rng_refuted. Qed.
Print Assumptions C07_fori_loop_with_rng_refuted.

Example C07_example :
  dynamic_unroll_fori_loop (Transformed (fun (_ : option nat) (_ : nat) => (tt, 0))
      (fun _ s _ x => (s + x, s + x))) 999 false (Some 3) None None [1; 2; 3] = Some ([1; 3; 6], 6).
Proof. reflexivity. Qed.

(** C08: gym_static_unroll, skip_first=True: one output per applied observation, that of the
    iteration with the successive keys of [seq]. *)
Theorem C08_gym_static_unroll_skip :
  forall (K P S X Y : Type) (tf : transformed K P S X Y) (seq : nat -> K) params state
         (o0 o1 : X) (obs : list X),
  exists ys sF,
    gym_static_unroll tf seq true params state (o0 :: o1 :: obs) = Some (ys, sF) /\
    length ys = length (o1 :: obs) /\
    exists st : nat -> S,
      st 0 = (match state with Some s => s | None => snd (t_init tf (Some (seq 0)) o0) end) /\
      st (length (o1 :: obs)) = sF /\
      forall t o, nth_error (o1 :: obs) t = Some o -> exists y, nth_error ys t = Some y /\
        t_apply tf (match params with Some p => p | None => fst (t_init tf (Some (seq 0)) o0) end)
          (st t) (Some (seq (1 + t))) o = (y, st (1 + t)).
Proof. exact @gym_static_skip. Qed.
Print Assumptions C08_gym_static_unroll_skip.

(** C08: with skip_first=False the output of the first observation is lost: one output fewer than
    applied observations. *)
Theorem C08_gym_static_unroll_noskip_drops_first :
  forall (K P S X Y : Type) (tf : transformed K P S X Y) (seq : nat -> K) params state
         (o0 o1 : X) (obs : list X),
  exists ys sF,
    gym_static_unroll tf seq false params state (o0 :: o1 :: obs) = Some (ys, sF) /\
    length ys = length (o1 :: obs) /\
    exists st : nat -> S,
      st 0 = (match state with Some s => s | None => snd (t_init tf (Some (seq 0)) o0) end) /\
      st (length (o0 :: o1 :: obs)) = sF /\
      forall t o, nth_error (o0 :: o1 :: obs) t = Some o -> exists y,
        (match t with O => True | Datatypes.S t' => nth_error ys t' = Some y end) /\
        t_apply tf (match params with Some p => p | None => fst (t_init tf (Some (seq 0)) o0) end)
          (st t) (Some (seq (1 + t))) o = (y, st (1 + t)).
Proof. exact @gym_static_noskip. Qed.
Print Assumptions C08_gym_static_unroll_noskip_drops_first.

Theorem C08_one_output_per_observation_refuted :
  exists (tf : transformed nat unit nat nat nat) (obs : list nat) ys sF,
    gym_static_unroll tf (fun n => n) false None None obs = Some (ys, sF) /\
    length ys <> length obs.
Proof. exact gym_static_refuted. Qed.
Print Assumptions C08_one_output_per_observation_refuted.

(** C09: lanes of a batched module.  [column i] is lane i of a sequence of batches;
    [lane_module] is the module itself receiving, instead of the key of the batched call, no
    key (split_rng=False) or the i-th of the n keys split from it. *)
Theorem C09_vmap_lanes :
  forall (K P S X Y : Type) (split : K -> K * K) (splitn : nat -> K -> list K)
         (tf : transformed K P S X Y) (split_rng : bool) (n : nat) (ps : list P),
  (forall n k, length (splitn n k) = n) ->
  forall (xss : list (list X)) (ss : list S) (rng : option K) yss sF,
  length ss = n -> (forall xs, In xs xss -> length xs = n) ->
  batch_scan split splitn tf split_rng ps ss rng xss = Some (yss, sF) ->
  forall i p s, nth_error ps i = Some p -> nth_error ss i = Some s ->
  forall xi, column i xss = map Some xi ->
  forall yi sFi,
  unroll_apply split (lane_module split splitn tf split_rng n i) false p s rng xi = (yi, sFi) ->
  column i yss = map Some yi /\ nth_error sF i = Some sFi.
Proof. exact @batch_lane_unroll. Qed.
Print Assumptions C09_vmap_lanes.

(** C09: without key splitting a well-shaped batched run always succeeds. *)
Theorem C09_vmap_total :
  forall (K P S X Y : Type) (split : K -> K * K) (splitn : nat -> K -> list K)
         (tf : transformed K P S X Y) (ps : list P) (n : nat),
  length ps = n -> forall (xss : list (list X)) (ss : list S) rng,
  length ss = n -> (forall xs, In xs xss -> length xs = n) ->
  exists yss sF, batch_scan split splitn tf false ps ss rng xss = Some (yss, sF).
Proof. exact @batch_scan_total. Qed.
Print Assumptions C09_vmap_total.

(** C09: non-interference, directly: two batched runs which agree on lane i give the same lane i,
    whatever the other lanes contain. *)
Theorem C09_vmap_noninterference :
  forall (K P S X Y : Type) (split : K -> K * K) (splitn : nat -> K -> list K)
         (tf : transformed K P S X Y) (split_rng : bool) (n i : nat) ps ps' ss ss' rng xss xss'
         yss sF yss' sF',
  (forall n k, length (splitn n k) = n) ->
  i < n -> length ps = n -> length ps' = n -> length ss = n -> length ss' = n ->
  (forall xs, In xs xss -> length xs = n) -> (forall xs, In xs xss' -> length xs = n) ->
  nth_error ps i = nth_error ps' i -> nth_error ss i = nth_error ss' i ->
  column i xss = column i xss' ->
  batch_scan split splitn tf split_rng ps ss rng xss = Some (yss, sF) ->
  batch_scan split splitn tf split_rng ps' ss' rng xss' = Some (yss', sF') ->
  column i yss = column i yss' /\ nth_error sF i = nth_error sF' i.
Proof. exact @batch_noninterference. Qed.
Print Assumptions C09_vmap_noninterference.

(** C09: initialisation: lane i is initialised by the module's init on lane i, with the i-th key
    (split_rng), the same key (no split) or no key (init_rng=False); no key at all is an error
    unless init_rng=False. *)
Theorem C09_vmap_init :
  forall (K P S X Y : Type) (split : K -> K * K) (splitn : nat -> K -> list K)
         (tf : transformed K P S X Y) (xs : list X) (i : nat) (x : X) (k : K),
  (forall n k, length (splitn n k) = n) -> nth_error xs i = Some x ->
  (exists l, vmap_init split splitn tf false true (Some k) xs = Some l /\
     nth_error l i = Some (t_init tf (Some (snd (split k))) x)) /\
  (exists l ki, vmap_init split splitn tf true true (Some k) xs = Some l /\
     nth_error (splitn (length xs) (snd (split k))) i = Some ki /\
     nth_error l i = Some (t_init tf (Some ki) x)) /\
  (exists l, vmap_init split splitn tf false false None xs = Some l /\
     nth_error l i = Some (t_init tf None x)) /\
  vmap_init split splitn tf false true None xs = None /\
  vmap_init split splitn tf true true None xs = None.
Proof. exact @vmap_init_lane. Qed.
Print Assumptions C09_vmap_init.

(** C09: add_batch called with a key: lane i is the module alone on lane i, with the i-th of the keys split off for
    the batch; a batch of another size than the parameters and state were made for raises. *)
Theorem C09_add_batch :
  forall (K P S X Y : Type) (split : K -> K * K) (splitn : nat -> K -> list K)
    (tf : transformed K P S X Y) (ps : list P) (ss : list S) (k : K) (xs : list X),
  (forall n k, length (splitn n k) = n) ->
  (length ps = length xs -> length ss = length xs ->
   exists ys ss', add_batch_apply split splitn tf ps ss k xs = Some (ys, ss') /\
   length ys = length xs /\ length ss' = length xs /\
   forall i p s x, nth_error ps i = Some p -> nth_error ss i = Some s -> nth_error xs i = Some x ->
     let r := t_apply tf p s (nth_error (splitn (length xs) (snd (split k))) i) x in
     nth_error ys i = Some (fst r) /\ nth_error ss' i = Some (snd r)) /\
  (length ps <> length xs \/ length ss <> length xs -> add_batch_apply split splitn tf ps ss k xs = None).
Proof. exact @add_batch_lanes. Qed.
Print Assumptions C09_add_batch.

Example C09_example :
  batch_scan demo_split (fun n k => map (fun i => k + i) (seq 0 n)) demo true [tt; tt] [0; 5]
     (Some 7) [[1; 2]; [3; 4]] =
  Some ([[(1, Some 31, 1); (6, Some 32, 2)]; [(2, Some 59, 3); (7, Some 60, 4)]], [2; 7]).
Proof. reflexivity. Qed.

(** C09: unroll_lift_with_state inside a transformed function is the plain unroll of the lifted
    module (no key) and the enclosing module keeps the final state. *)
Theorem C09_unroll_lift :
  forall (K P S X Y : Type) (split : K -> K * K) (tf : transformed K P S X Y)
         (skip : bool) (next : nat -> option K) (p : P) (s : S) (xs : list X),
  unroll_lift_apply tf skip false next p s xs = unroll_apply split tf skip p s None xs.
Proof. exact @unroll_lift_eq. Qed.
Print Assumptions C09_unroll_lift.

(** C09: with split_rng the step number t (from 0, after the skipped one) gets the t-th key drawn
    from the enclosing context; the state is threaded through the steps and the last one is kept. *)
Theorem C09_unroll_lift_keys :
  forall (K P S X Y : Type) (tf : transformed K P S X Y)
         (skip rs : bool) (next : nat -> option K) (p : P) (s : S) (xs : list X) (ys : list Y) (sF : S),
  unroll_lift_apply tf skip rs next p s xs = (ys, sF) ->
  let l := if skip then tl xs else xs in
  length ys = length l /\
  exists ss, length ss = length l + 1 /\ nth_error ss 0 = Some s /\ nth_error ss (length l) = Some sF /\
    forall t x, nth_error l t = Some x -> exists st,
      nth_error ss t = Some st /\
      nth_error ys t = Some (fst (t_apply tf p st (if rs then next t else None) x)) /\
      nth_error ss (t + 1) = Some (snd (t_apply tf p st (if rs then next t else None) x)).
Proof. exact @unroll_lift_steps. Qed.
Print Assumptions C09_unroll_lift_keys.

(** C60: transform_batch_with_state: the returned state makes batches resumable, the key stored in
    the state is used at every step. *)
Theorem C60_transform_batch_resume :
  forall (K P S X Y : Type) (tf : transformed K P S X Y) (skip : bool)
         (st : batch_state) (key : option K) (xs ys : list X),
  (xs <> [] \/ skip = false) ->
  transform_batch_apply tf skip st key (xs ++ ys) =
  let '(o1, st1) := transform_batch_apply tf skip st key xs in
  let '(o2, st2) := transform_batch_apply tf false st1 key ys in
  (o1 ++ o2, st2).
Proof. exact @transform_batch_resume. Qed.
Print Assumptions C60_transform_batch_resume.

Theorem C60_transform_batch_trace :
  forall (K P S X Y : Type) (tf : transformed K P S X Y) (key key' : option K) (xs : list X)
         (p : P) (s : S) ys stF,
  transform_batch_apply tf false (BatchState p s key) key' xs = (ys, stF) ->
  length ys = length xs /\ fun_params stF = p /\ rng_key stF = key /\
  exists st : nat -> S, st 0 = s /\ st (length xs) = fun_state stF /\
  forall t x, nth_error xs t = Some x ->
    exists y, nth_error ys t = Some y /\ t_apply tf p (st t) key x = (y, st (1 + t)).
Proof. exact @transform_batch_trace. Qed.
Print Assumptions C60_transform_batch_trace.

(** C60: init on a batch, then apply on the same batch: the module's own init on the first element with
    the given key, which is also the key of every step; init refuses an empty batch. *)
Theorem C60_transform_batch_init_apply :
  forall (K P S X Y : Type) (tf : transformed K P S X Y) (key key' : option K) x0 xs,
  exists st0, transform_batch_init tf key (x0 :: xs) = Some st0 /\
  exists ys stF, transform_batch_apply tf false st0 key' (x0 :: xs) = (ys, stF) /\
  length ys = length (x0 :: xs) /\ fun_params stF = fst (t_init tf key x0) /\ rng_key stF = key /\
  exists st : nat -> S, st 0 = snd (t_init tf key x0) /\ st (length (x0 :: xs)) = fun_state stF /\
  forall t x, nth_error (x0 :: xs) t = Some x ->
    exists y, nth_error ys t = Some y /\ t_apply tf (fst (t_init tf key x0)) (st t) key x = (y, st (1 + t)).
Proof. exact @transform_batch_run. Qed.
Print Assumptions C60_transform_batch_init_apply.

Theorem C60_transform_batch_init_empty :
  forall (K P S X Y : Type) (tf : transformed K P S X Y) (key : option K), transform_batch_init tf key [] = None.
Proof. reflexivity. Qed.
Print Assumptions C60_transform_batch_init_empty.

(** C60: skip_first drops exactly the first input. *)
Theorem C60_transform_batch_skip_first :
  forall (K P S X Y : Type) (tf : transformed K P S X Y) (st : batch_state) (key : option K) x0 xs,
  transform_batch_apply tf true st key (x0 :: xs) = transform_batch_apply tf false st key xs.
Proof. reflexivity. Qed.
Print Assumptions C60_transform_batch_skip_first.

(** C60: the static version agrees with the dynamic one when given the key already stored in the
    state, and not otherwise: the dynamic apply ignores its key argument. *)
Theorem C60_transform_batch_static :
  forall (K P S X Y : Type) (tf : transformed K P S X Y) (skip : bool)
         (st : batch_state) (key : option K) (xs : list X),
  (if skip then tl xs else xs) <> [] ->
  transform_batch_apply_static tf skip st (rng_key st) xs =
  Some (transform_batch_apply tf skip st key xs).
Proof. exact @transform_batch_static_eq. Qed.
Print Assumptions C60_transform_batch_static.

Theorem C60_transform_batch_key_refuted :
  exists (tf : transformed nat unit unit nat (option nat)) (st : batch_state) (key : option nat) xs,
    xs <> [] /\
    transform_batch_apply_static tf false st key xs <> Some (transform_batch_apply tf false st key xs).
Proof. exact transform_batch_key_refuted. Qed.
Print Assumptions C60_transform_batch_key_refuted.

Example C60_example :
  transform_batch_apply demo false (BatchState tt 3 (Some 1)) (Some 2) [5; 6] =
  ([(4, Some 1, 5); (5, Some 1, 6)], BatchState tt 5 (Some 1)).
Proof. reflexivity. Qed.
