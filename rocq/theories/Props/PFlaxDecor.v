(** Property theorems C94-C95: the decorators of flax/core and flax/modules/compressed_buffer, the optimiser decorator,
    and the vectors and queries of the attention selector.
    [calls call s xs]: successive calls from the variables [s], None if one raises; [alone m s xs]: the same for a module that does not raise. *)
From Coq Require Import String List Bool Arith Lia Reals Lra Permutation Sorted Relations.
From Verif Require Import Model.Unroll Model.Float Model.FlaxModules Model.FlaxCore Model.Compressed Model.FlaxDecor Spec.FlaxSpec Spec.FlaxCoreSpec
  Proofs.FlaxDecorProofs Proofs.FlaxDecorProofs2.
Import ListNotations.
Open Scope string_scope.
Open Scope list_scope.
Open Scope nat_scope.

(** C94: the pattern of a decorated function runs exactly as it would alone, the function gets what the pattern returned and the same arguments, and nothing it does reaches the pattern; a call raises exactly when the pattern does. *)
Theorem C94_wrapper :
  forall (SP SF X O Y : Type) (pattern : SP -> X -> option (O * SP)) (fn : flax_module SF (O * X) Y) xs sp sf,
  (forall ys sp' sf', calls (decorated pattern fn) (sp, sf) xs = Some (ys, (sp', sf')) <->
     exists os, calls pattern sp xs = Some (os, sp') /\ alone fn sf (combine os xs) = (ys, sf')) /\
  (calls (decorated pattern fn) (sp, sf) xs = None <-> calls pattern sp xs = None).
Proof. exact @decorated_iff. Qed.
Print Assumptions C94_wrapper.

(** C94: streaming_state_machine with any strategy but "hierarchical" (an unknown name means "parallel", and is the same as "sequential") passes the outputs of all modules on the same arguments, and never raises. *)
Theorem C94_state_machine :
  forall (S SF X Y : Type) (mods : list (string * flax_module S X (pyval + string))) deps pick strategy
    (fn : flax_module SF (list (string * pyval) * X) Y) st sf x,
  NoDup (map fst mods) -> any_order pick -> strategy <> "hierarchical" ->
  exists outs st' y sf', streaming_state_machine pick mods deps strategy fn (st, sf) x = Some (y, (st', sf')) /\
    fx_call fn sf (outs, x) = (y, sf') /\
    Permutation (map fst outs) (map fst mods) /\
    (forall n m, In (n, m) mods -> lookup n outs = Some (machine_entry (fst (fx_call m (st n) x))) /\
                                   st' n = snd (fx_call m (st n) x)) /\
    (forall n, ~ In n (map fst mods) -> st' n = st n).
Proof. exact @machine_decorator. Qed.
Print Assumptions C94_state_machine.

(** C94: ... and with "hierarchical" the dictionaries blended as in C65, each module being called once. *)
Theorem C94_state_machine_hierarchical :
  forall (S SF X Y : Type) (mods : list (string * flax_module S X (pyval + string))) deps pick
    (fn : flax_module SF (list (string * pyval) * X) Y) st sf x y st' sf',
  NoDup (map fst mods) -> any_order pick ->
  streaming_state_machine pick mods deps "hierarchical" fn (st, sf) x = Some (y, (st', sf')) ->
  exists c, fx_call fn sf (c, x) = (y, sf') /\ Permutation (map fst c) (map fst mods) /\
    (forall n m, In (n, m) mods -> st' n = snd (fx_call m (st n) x)) /\
    exists level : string -> nat,
      (acyclic (needs deps) -> forall n, longest_path deps n (level n)) /\
      forall n m, In (n, m) mods -> exists above,
        NoDup above /\ (forall h, In h above <-> In h (map fst mods) /\ level h < level n) /\
        StronglySorted (fun a b => level a <= level b) above /\
        match machine_entry (fst (fx_call m (st n) x)) with
        | PDict d => exists d', lookup n c = Some (PDict d') /\ map fst d' = map fst d /\
            forall k, lookup k d' = match lookup k d with
                                    | Some (PNum a) => Some (PNum (nudged (signals c k above) a))
                                    | v => v end
        | o => lookup n c = Some o
        end.
Proof. exact @machine_hierarchical. Qed.
Print Assumptions C94_state_machine_hierarchical.

(** C94: streaming_attention_state passes the output of an AttentionBasedStateSelector that sees the first argument only. *)
Theorem C94_attention :
  forall (SF X A E Y : Type) (N : nat) (encode : X -> E) (attend : E -> list E -> E) (zero : E)
    (fn : flax_module SF (selector_out E * (X * A)) Y) s f xs,
  calls (streaming_attention_state N encode attend zero fn) (s, f) xs =
  let '(os, s') := alone (Selector N encode attend zero true) s (map fst xs) in
  let '(ys, f') := alone fn f (combine os xs) in Some (ys, (s', f')).
Proof. exact @attention_decorator. Qed.
Print Assumptions C94_attention.

(** C94: streaming_compose_states: the modules keep separate variables, in the order given ... *)
Theorem C94_compose_names :
  forall (M : Type) (ms : list M),
  NoDup (map fst (numbered ms)) /\ map snd (numbered ms) = ms /\
  forall i m, nth_error ms i = Some m -> nth_error (numbered ms) i = Some (pattern_name i, m).
Proof. exact @numbered_spec. Qed.
Print Assumptions C94_compose_names.

(** ... each of them gets the input with strategy "parallel" ... *)
Theorem C94_compose_parallel :
  forall (S SF A Y : Type) (ms : list (flax_module S pyval pyval))
    (fn : flax_module SF (list (string * pyval) * (pyval * A)) Y) st sf (x : pyval) (a : A),
  exists outs st', streaming_compose_states ms "parallel" fn (st, sf) (x, a) =
    (let '(y, sf') := fx_call fn sf (outs, (x, a)) in Some (y, (st', sf'))) /\
    length outs = length ms /\
    forall i m, nth_error ms i = Some m -> exists o,
      nth_error outs i = Some (pattern_name i, o) /\ fx_call m (st (pattern_name i)) x = (o, st' (pattern_name i)).
Proof. exact @compose_parallel. Qed.
Print Assumptions C94_compose_parallel.

(** ... what the one before passes on with strategy "pipeline", the default ... *)
Theorem C94_compose_pipeline :
  forall (S SF A Y : Type) (ms : list (flax_module S pyval pyval))
    (fn : flax_module SF (list (string * pyval) * (pyval * A)) Y) st sf (x : pyval) (a : A),
  (forall m s x d, In m ms -> fst (fx_call m s x) = PDict d -> NoDup (map fst d)) ->
  exists outs st' inputs, streaming_compose_states ms "pipeline" fn (st, sf) (x, a) =
    (let '(y, sf') := fx_call fn sf (outs, (x, a)) in Some (y, (st', sf'))) /\
    length outs = length ms /\ nth_error inputs 0 = Some x /\
    forall i m, nth_error ms i = Some m -> exists c c' o,
      nth_error inputs i = Some c /\ nth_error inputs (i + 1) = Some c' /\ nth_error outs i = Some (pattern_name i, o) /\
      fx_call m (st (pattern_name i)) c = (o, st' (pattern_name i)) /\ passed_on c o c'.
Proof. exact @compose_pipeline. Qed.
Print Assumptions C94_compose_pipeline.

(** ... and an unknown strategy raises. *)
Theorem C94_compose_unknown :
  forall (S SF A Y : Type) (ms : list (flax_module S pyval pyval)) strategy
    (fn : flax_module SF (list (string * pyval) * (pyval * A)) Y) st sf (x : pyval) (a : A),
  strategy <> "pipeline" -> strategy <> "parallel" -> strategy <> "hierarchical" ->
  streaming_compose_states ms strategy fn (st, sf) (x, a) = None.
Proof. exact @compose_unknown. Qed.
Print Assumptions C94_compose_unknown.

(** C94: the memory decorators pass the output of a buffer (fill value 0) that sees the first argument only. *)
Theorem C94_compressed_memory :
  forall (SF A Y : Type) fm ti (N : nat) st (fn : flax_module SF (cb_out * (fl * A)) Y) f (xs : list (fl * A)) x0,
  calls (streaming_compressed_memory fm ti N st fn) (fx_vars (CompressedBuffer fm ti N st (Fin 0)) x0, f) xs =
  let '(os, s') := alone (CompressedBuffer fm ti N st (Fin 0)) (fx_vars (CompressedBuffer fm ti N st (Fin 0)) x0) (map fst xs) in
  let '(ys, f') := alone fn f (combine os xs) in Some (ys, (s', f')).
Proof. exact @compressed_decorator. Qed.
Print Assumptions C94_compressed_memory.
Theorem C94_hierarchical_memory :
  forall (SF A Y : Type) fm ti (a b c : nat) m l (fn : flax_module SF (hb_out * (fl * A)) Y) f (xs : list (fl * A)) x0,
  let H := HierarchicalBuffer fm ti a b c m l (Fin 0) in
  calls (streaming_hierarchical_memory fm ti a b c m l fn) (fx_vars H x0, f) xs =
  let '(os, s') := alone H (fx_vars H x0) (map fst xs) in
  let '(ys, f') := alone fn f (combine os xs) in Some (ys, (s', f')).
Proof. exact @hierarchical_decorator. Qed.
Print Assumptions C94_hierarchical_memory.

(** C94: streaming_optimizer returns the loss and the output of each step of StreamingOptimizer (C68) ... *)
Theorem C94_optimizer :
  forall (S X I U : Type) (opt : flax_module S X (I * U)) xs s,
  alone (streaming_optimizer opt) s xs = (map fst (fst (alone opt s xs)), snd (alone opt s xs)).
Proof. exact @streaming_optimizer_outputs. Qed.
Print Assumptions C94_optimizer.

(** ... with has_aux the auxiliary values are passed through and change nothing ... *)
Theorem C94_optimizer_aux :
  forall (S X Y A L T O : Type) (model : flax_module S X (Y * A)) (target : X -> T) (vg : Y -> T -> R -> L * R)
    (opt_init : R -> O) (opt_update : R -> O -> R -> R * O) xs st,
  let '(ys, st') := alone (streaming_optimizer (StreamingOptimizerAux model target vg opt_init opt_update)) st xs in
  alone (streaming_optimizer (StreamingOptimizer (without_aux model) target vg opt_init opt_update)) st xs = (map fst ys, st') /\
  map snd ys = map snd (fst (alone model (fst st) xs)) /\
  fst st' = snd (alone model (fst st) xs).
Proof. exact @sopt_aux. Qed.
Print Assumptions C94_optimizer_aux.

(** ... from the same initial state: the model's, the scale 1 and the optimiser's state for the scale 1. *)
Theorem C94_optimizer_aux_start :
  forall (S X Y A L T O : Type) (model : flax_module S X (Y * A)) (target : X -> T) (vg : Y -> T -> R -> L * R)
    (opt_init : R -> O) (opt_update : R -> O -> R -> R * O) x0,
  fx_vars (streaming_optimizer (StreamingOptimizerAux model target vg opt_init opt_update)) x0 =
    (fx_vars model x0, (1%R, opt_init 1%R)) /\
  fx_vars (streaming_optimizer (StreamingOptimizer (without_aux model) target vg opt_init opt_update)) x0 =
    (fx_vars model x0, (1%R, opt_init 1%R)).
Proof. split; reflexivity. Qed.
Print Assumptions C94_optimizer_aux_start.

(** ... and the target is the second argument if there is one, the first one otherwise. *)
Theorem C94_target :
  forall (V : Type) (args : list V),
  target_of args = match nth_error args 1 with Some t => Some t | None => nth_error args 0 end.
Proof. exact @target_of_spec. Qed.
Print Assumptions C94_target.

(** A counter under a function that adds what it is given: outputs 1 + 10, 2 + 20, 3 + 30; a raising pattern. *)
Example C94_example :
  calls (decorated (fun s (x : nat) => if 9 <? s then None else Some (s + 1, s + 1))
           (FlaxModule (fun _ => 0) (fun n ox => (fst ox + snd ox + n, n + 1)))) (0, 0) [10; 20; 30] =
    Some ([11; 23; 35], (3, 3)) /\
  calls (decorated (fun s (x : nat) => if 9 <? s then None else Some (s + 1, s + 1))
           (FlaxModule (fun _ => 0) (fun n ox => (fst ox + snd ox + n, n + 1)))) (8, 0) [10; 20; 30] = None /\
  map fst (numbered [true; false; true]) = ["pattern_0"; "pattern_1"; "pattern_2"] /\
  pattern_name 12 = "pattern_12" /\
  target_of [1; 2; 3] = Some 2 /\ target_of [1] = Some 1 /\
  coordination_of "parallel" = coordination_of "anything".
Proof. repeat split. Qed.
Example C94_example_machine :
  let echo : flax_module nat R (pyval + string) := FlaxModule (fun _ => 0) (fun s x => (inl (PNum x), s + 1)) in
  let bad : flax_module nat R (pyval + string) := FlaxModule (fun _ => 0) (fun s x => (inr "boom", s)) in
  let fn := FlaxModule (fun _ => tt) (fun u (ox : list (string * pyval) * R) => (length (fst ox), u)) in
  let mods := [("a", echo); ("b", bad)] in
  NoDup (map fst mods) /\ any_order (fun _ r => r) /\
  exists st', streaming_state_machine (fun _ r => r) mods [("b", ["a"])] "sequential" fn (fun _ => 0, tt) 5%R = Some (2, (st', tt)) /\
    st' "a" = 1 /\ st' "b" = 0.
Proof.
  cbv zeta. split; [repeat constructor; cbn; intuition discriminate|]. split; [intros o r; apply Permutation_refl|].
  eexists. split; [reflexivity|]. split; reflexivity.
Qed.

(** C95: a state is turned into a vector of exactly embed_dim entries: those of the state, cut or followed by zeros. *)
Theorem C95_vector :
  forall embed_dim v,
  length (fit embed_dim v) = embed_dim /\ forall i, i < embed_dim -> nth i (fit embed_dim v) 0%R = nth i v 0%R.
Proof. exact @fit_spec. Qed.
Print Assumptions C95_vector.

(** C95: the entries of a dictionary are laid one after the other, a number counts for one, anything but numbers and arrays for one zero. *)
Theorem C95_dictionary :
  forall d i (k : string) e,
  nth_error d i = Some (k, e) -> exists v pre post,
  state_vector (CDict d) = Some v /\ v = pre ++ match e with ENum r => [r] | EArr l => l | EOther => [0%R] end ++ post /\
  length pre = list_sum (map (fun kv => match snd kv with EArr l => length l | _ => 1 end) (firstn i d)).
Proof. exact @state_vector_dict. Qed.
Print Assumptions C95_dictionary.

(** C95: what lies beyond the first embed_dim entries is invisible: sequences of states which agree there give the same outputs and history. *)
Theorem C95_truncated :
  forall (E : Type) (N d : nat) (dense : list R -> E) (attend : E -> list E -> E) (zero : E) ua vs vs',
  Forall2 (fun v v' => forall i, i < d -> nth i v 0%R = nth i v' 0%R) vs vs' ->
  forall s, alone (Selector N (fun v => dense (fit d v)) attend zero ua) s vs =
            alone (Selector N (fun v => dense (fit d v)) attend zero ua) s vs'.
Proof. exact @selector_same. Qed.
Print Assumptions C95_truncated.

(** C95 fails: get_relevant_states does not return the most relevant states.  Whatever the state asked about, it returns the [k] oldest of the last N embeddings, with equal weights. *)
Theorem C95_relevant_is_oldest_refuted :
  forall (X E : Type) (N : nat) (encode : X -> E) (attend : E -> list E -> E) (zero : E) ua xs x0 cur k v,
  0 < N -> state_vector cur = Some v ->
  let st := snd (alone (Selector N encode attend zero ua) (fx_vars (Selector N encode attend zero ua) x0) xs) in
  let past := lastn N (map encode xs) in
  get_relevant_states N zero st cur k =
  Some (match past with [] => ([zero], [0%R]) | _ => (firstn k past, repeat (1 / INR (length past))%R (Nat.min k (length past))) end).
Proof. exact @relevant_oldest. Qed.
Print Assumptions C95_relevant_is_oldest_refuted.

(** Asked about the very state 5 it has just stored, the selector answers with 2 and 3. *)
Example C95_example :
  let sel := Selector 4 (fun x : nat => x) (fun e _ => e) 0 true in
  let st := snd (alone sel (fx_vars sel 0) [1; 2; 3; 4; 5]) in
  state_vector (CDict [("a", ENum 5); ("b", EOther); ("c", EArr [7%R; 8%R])]) = Some [5%R; 0%R; 7%R; 8%R] /\
  fit 3 [5; 0; 7; 8]%R = [5; 0; 7]%R /\ fit 3 [5]%R = [5; 0; 0]%R /\
  get_relevant_states 4 0 st (CVal (ENum 5)) 2 = Some ([2; 3], [1 / INR 4; 1 / INR 4]%R) /\
  get_relevant_states 4 0 st (CDict []) 2 = None.
Proof. repeat split. Qed.
