(** Property theorems C52-C56, C65-C68: the state patterns of flax/core.
    [flax_from_scratch m xs]: the outputs of the module called on [xs] from the initial values of its variables;
    [flax_calls m s xs]: its outputs and final variables from the variables [s]. *)
From Coq Require Import String List Bool Arith ZArith Lia Relations Permutation Sorted Reals Lra.
From Verif Require Import Model.Tree Model.Unroll Model.Modules Model.FlaxModules Model.FlaxCore
  Spec.FlaxCoreSpec Proofs.FlaxCoreProofs Proofs.HsmProofs Proofs.HsmProofs2 Proofs.FlaxCoreProofs2 Proofs.FlaxCoreProofs3.
Import ListNotations.
Open Scope string_scope.
Open Scope list_scope.
Open Scope nat_scope.

(** C52: whatever the dependencies, cyclic ones included, and the order of the Python set, get_execution_order returns and gives every active state exactly once. *)
Theorem C52_every_state_once :
  forall (pick : list string -> list string -> list string) (dependencies : list (string * list string)),
  any_order pick -> forall active,
  exists order,
    get_execution_order pick dependencies active = Some order /\ NoDup order /\
    forall s, In s order <-> In s active.
Proof. exact @order_total. Qed.
Print Assumptions C52_every_state_once.

(** C52: every state which is not on a cycle of dependencies, nor depends on one through active states, comes after its active dependencies ... *)
Theorem C52_dependencies_first :
  forall (pick : list string -> list string -> list string) (dependencies : list (string * list string)),
  any_order pick -> forall active order,
  get_execution_order pick dependencies active = Some order ->
    forall s d, needs_in dependencies active s d -> off_cycles (needs_in dependencies active) s -> before order d s.
Proof. exact @order_dependencies. Qed.
Print Assumptions C52_dependencies_first.

(** ... which is every state when there is no cycle. *)
Theorem C52_acyclic :
  forall (pick : list string -> list string -> list string) (dependencies : list (string * list string)),
  any_order pick -> forall active order,
  acyclic (needs_in dependencies active) ->
    get_execution_order pick dependencies active = Some order ->
    forall s d, needs_in dependencies active s d -> before order d s.
Proof. exact @order_acyclic. Qed.
Print Assumptions C52_acyclic.

(** A state that depends on a cycle may be run before its dependencies: here "c" needs "d", which needs "a", which is on a
    cycle, and "c" may run first. *)
Example C52_cycle_elsewhere :
  let deps := [("a", ["b"]); ("b", ["a"]); ("c", ["d"]); ("d", ["a"])] in
  let pick (_ : list string) (l : list string) := rev l in
  any_order pick /\ needs_in deps ["a"; "b"; "d"; "c"] "c" "d" /\
  get_execution_order pick deps ["a"; "b"; "d"; "c"] = Some ["c"; "d"; "b"; "a"].
Proof.
  cbv zeta. split; [intros o r; apply Permutation_sym, Permutation_rev|]. split; [|reflexivity].
  split; [cbn; tauto|]. split; [cbn; tauto|]. exists ["d"]. split; [reflexivity|now left].
Qed.
Example C52_example :
  let deps := [("a", ["b"; "c"]); ("b", ["c"])] in
  let pick (_ : list string) (l : list string) := l in
  any_order pick /\ acyclic (needs_in deps ["a"; "b"; "c"]) /\ needs_in deps ["a"; "b"; "c"] "a" "b" /\
  get_execution_order pick deps ["a"; "b"; "c"] = Some ["c"; "b"; "a"].
Proof.
  cbv zeta. split; [intros o r; apply Permutation_refl|]. split; [|split; [|reflexivity]].
  - pose (rank := fun s => if String.eqb s "a" then 2 else if String.eqb s "b" then 1 else 0).
    assert (G : forall s d, clos_trans _ (needs_in [("a", ["b"; "c"]); ("b", ["c"])] ["a"; "b"; "c"]) s d -> rank d < rank s).
    { intros s d H. induction H as [s d (_ & _ & l & L & I)|s e d H1 I1 H2 I2]; [|lia].
      cbn in L. unfold rank. destruct (String.eqb s "a"); [injection L as <-|destruct (String.eqb s "b"); [injection L as <-|easy]];
        repeat (destruct I as [<-|I]; [cbn; lia|]); destruct I. }
    intros s H. apply G in H. lia.
  - split; [cbn; tauto|]. split; [cbn; tauto|]. exists ["b"; "c"]. split; [reflexivity|now left].
Qed.

(** C53: the states visited by a StreamingStateMachine follow, at every input, the first declared transition out of the current state whose condition holds, and stay where they are when there is none. *)
Theorem C53_transitions :
  forall (S X Y : Type) (states : list (string * flax_module S X Y))
  (transitions : list (string * list (string * (X -> bool)))) xs,
  forall current st ys final st',
    machine_run states transitions (current, st) xs = Some (ys, (final, st')) ->
    length ys = length xs /\ nth_error (visited current ys) (length xs) = Some final /\
    forall t x, nth_error xs t = Some x -> exists c n,
      nth_error (visited current ys) t = Some c /\ nth_error (visited current ys) (t + 1) = Some n /\
      (first_transition transitions c x n \/ (no_transition transitions c x /\ n = c)).
Proof. exact @machine_trajectory. Qed.
Print Assumptions C53_transitions.

(** C53: the module of each state sees exactly the inputs received in that state and gives the outputs and variables it has on these inputs alone. *)
Theorem C53_outputs :
  forall (S X Y : Type) (states : list (string * flax_module S X Y))
  (transitions : list (string * list (string * (X -> bool)))) xs,
  forall current st ys final st' q m,
    machine_run states transitions (current, st) xs = Some (ys, (final, st')) -> lookup q states = Some m ->
    (when q (visited current ys) (map fst ys), st' q) = flax_calls m (st q) (when q (visited current ys) xs).
Proof. exact @machine_states. Qed.
Print Assumptions C53_outputs.

(** C53: when every transition leads to a declared state, no input sequence makes the machine fail. *)
Theorem C53_total :
  forall (S X Y : Type) (states : list (string * flax_module S X Y))
  (transitions : list (string * list (string * (X -> bool)))) xs,
  forall current st,
    (forall s l n c, lookup s transitions = Some l -> In (n, c) l -> In n (map fst states)) ->
    In current (map fst states) -> machine_run states transitions (current, st) xs <> None.
Proof. exact @machine_total. Qed.
Print Assumptions C53_total.

Definition two_states : list (string * flax_module nat nat nat) :=
  [("low", FlaxModule (fun _ => 0) (fun s x => (s + x, s + x))); ("high", FlaxModule (fun _ => 0) (fun s x => (x, s + 1)))].
Definition two_transitions : list (string * list (string * (nat -> bool))) :=
  [("low", [("high", Nat.leb 10); ("low", fun _ => true)]); ("high", [("low", fun x => Nat.ltb x 5)])].
Example C53_example :
  option_map fst (machine_run two_states two_transitions ("low", fun _ => 0) [3; 12; 20; 4; 1]) =
    Some [(3, "low"); (15, "high"); (20, "high"); (4, "low"); (16, "low")] /\
  first_transition two_transitions "low" 12 "high" /\ no_transition two_transitions "high" 20 /\
  (forall s l n c, lookup s two_transitions = Some l -> In (n, c) l -> In n (map fst two_states)).
Proof.
  split; [reflexivity|]. split; [|split].
  - exists [], (Nat.leb 10), [("low", fun _ => true)]. split; [reflexivity|]. split; [reflexivity|]. intros ? ? [].
  - intros l n c L I. cbn in L. injection L as <-. destruct I as [I|[]]. injection I as _ <-. reflexivity.
  - intros s l n c L I. unfold two_transitions in L. cbn in L.
    destruct (String.eqb s "low"); [injection L as <-|destruct (String.eqb s "high"); [injection L as <-|easy]];
      cbn in I; repeat (destruct I as [I|I]; [injection I as <- _; cbn; tauto|]); destruct I.
Qed.

(** C54: with a reset condition (preserve_state=True, the default) the outputs are those of the segments, each one scanned from the given state, and the final state is that of the last segment. *)
Theorem C54_segments :
  forall (K P S X Y : Type) (k0 : K) (tf : transformed K P S X Y) (r : X -> bool) xs p s rng,
  streaming_scan k0 tf (Some r) true xs (Some p) (Some s) rng =
    Some (concat (map (fun g => fst (streaming_transform_scan tf p s rng g)) (segments r xs)),
          snd (streaming_transform_scan tf p s rng (last (segments r xs) []))).
Proof. exact @streaming_scan_segments. Qed.
Print Assumptions C54_segments.

(** C54: the segments partition the inputs; every segment but the last ends with the input that triggers the reset and triggers no other one. *)
Theorem C54_segments_shape :
  forall (X : Type) (r : X -> bool) xs,
  concat (segments r xs) = xs /\
  (forall g, In g (removelast (segments r xs)) -> exists l x, g = l ++ [x] /\ r x = true /\ no_event r l) /\
  no_event r (last (segments r xs) []).
Proof. exact @segments_shape. Qed.
Print Assumptions C54_segments_shape.

(** C54: without a reset condition or with preserve_state=False there is a single segment. *)
Theorem C54_no_reset :
  forall (K P S X Y : Type) (k0 : K) (tf : transformed K P S X Y) reset_on preserve xs p s rng,
  reset_on = None \/ preserve = false ->
    streaming_scan k0 tf reset_on preserve xs (Some p) (Some s) rng = Some (streaming_transform_scan tf p s rng xs).
Proof. exact @streaming_scan_no_reset. Qed.
Print Assumptions C54_no_reset.

(** C54: when params or state are not given the state to start from, and to return to, is that of init on the first input.  (For a flax module init runs the module on that input, see C51.) *)
Theorem C54_initial_state :
  forall (K P S X Y : Type) (k0 : K) (tf : transformed K P S X Y) reset_on preserve x0 xs params state,
  params = None \/ state = None ->
    streaming_scan k0 tf reset_on preserve (x0 :: xs) params state None =
    let ps := t_init tf (Some k0) x0 in
    streaming_scan k0 tf reset_on preserve (x0 :: xs) (Some (fst ps)) (Some (snd ps)) None.
Proof. exact @streaming_scan_init. Qed.
Print Assumptions C54_initial_state.
(** C54: a key cannot be used for that initialisation: giving one without params and state raises. *)
Theorem C54_key_without_state_raises :
  forall (K P S X Y : Type) (k0 : K) (tf : transformed K P S X Y) reset_on preserve xs params state k,
  params = None \/ state = None -> streaming_scan k0 tf reset_on preserve xs params state (Some k) = None.
Proof. exact @streaming_scan_key_raises. Qed.
Print Assumptions C54_key_without_state_raises.

(** C54: the StreamingScan module applies the function to every input and returns the initial state unchanged. *)
Theorem C54_streaming_scan_module :
  forall (X Y : Type) (fn : X -> Y) xs s,
  streaming_scan_module fn None xs s = Some (map fn xs, s).
Proof. exact @streaming_scan_module_map. Qed.
Print Assumptions C54_streaming_scan_module.

Example C54_example :
  let tf := Transformed (fun (_ : option unit) (x : nat) => (tt, 0)) (fun _ s _ x => (s + x, s + x)) in
  streaming_scan tt tf (Some (Nat.leb 10)) true [1; 2; 10; 3; 4] (Some tt) (Some 100) None = Some ([101; 103; 113; 103; 107], 107) /\
  segments (Nat.leb 10) [1; 2; 10; 3; 4] = [[1; 2; 10]; [3; 4]] /\
  segments (Nat.leb 10) [1; 10; 11] = [[1; 10]; [11]; []].
Proof. repeat split; reflexivity. Qed.

(** C55: the output at t is the inner output at the last event up to t (the inner module being called at every step), and the initial output value before the first event. *)
Theorem C55_cached_output :
  forall (S X Y : Type) (full_like : Y -> Y) (m : flax_module S X Y) (ev : X -> bool) x0 xs t,
  t < length (x0 :: xs) ->
    let ys := flax_from_scratch (ConditionalComputation full_like m (Some ev)) (x0 :: xs) in
    let zs := flax_from_scratch m (x0 :: xs) in
    (forall i, last_event ev (firstn (t + 1) (x0 :: xs)) i -> nth_error ys t = nth_error zs i) /\
    (no_event ev (firstn (t + 1) (x0 :: xs)) -> nth_error ys t = option_map full_like (nth_error zs 0)).
Proof. exact @conditional_spec. Qed.
Print Assumptions C55_cached_output.

(** C55: the inner state is the one obtained by running the inner module on all inputs, events or not. *)
Theorem C55_inner_state_advances :
  forall (S X Y : Type) (full_like : Y -> Y) (m : flax_module S X Y) (ev : X -> bool) x0 xs,
  fst (snd (flax_calls (ConditionalComputation full_like m (Some ev)) (fx_vars (ConditionalComputation full_like m (Some ev)) x0) (x0 :: xs))) = snd (flax_calls m (fx_vars m x0) (x0 :: xs)).
Proof. exact @conditional_inner_scratch. Qed.
Print Assumptions C55_inner_state_advances.

(** C55: without event function the inner module is just called. *)
Theorem C55_no_event_fn :
  forall (S X Y : Type) (full_like : Y -> Y) (m : flax_module S X Y) xs x0,
  flax_from_scratch (ConditionalComputation full_like m None) (x0 :: xs) = flax_from_scratch m (x0 :: xs).
Proof. exact @conditional_none. Qed.
Print Assumptions C55_no_event_fn.

Example C55_example :
  let m := FlaxModule (fun _ : nat => 0) (fun s x => (s + x, s + x)) in
  flax_from_scratch (ConditionalComputation (fun _ => 99) m (Some Nat.even)) [1; 3; 4; 5; 6] = [99; 99; 8; 8; 19] /\
  last_event Nat.even (firstn (3 + 1) [1; 3; 4; 5; 6]) 2 /\ no_event Nat.even (firstn (1 + 1) [1; 3; 4; 5; 6]).
Proof.
  split; [reflexivity|]. split.
  - split; [exists 4; split; reflexivity|]. intros [|[|[|[|[|j]]]]] x L E; try lia; cbn in E; try easy. now injection E as <-.
  - intros x [<-|[<-|[]]]; reflexivity.
Qed.

(** C56: at step t the history used by the AttentionBasedStateSelector consists of the encodings of the last N inputs before t, oldest first; before two of them are recorded, or without attention, the encoding is returned as it is. *)
Theorem C56_selector_history :
  forall (X E : Type) (N : nat) (encode : X -> E) (attend : E -> list E -> E) (zero : E),
  0 < N -> forall ua xs x0 x t,
  nth_error (x0 :: xs) t = Some x ->
    exists o, nth_error (flax_from_scratch (Selector N encode attend zero ua) (x0 :: xs)) t = Some o /\
      original_state o = encode x /\
      let past := lastn N (map encode (firstn t (x0 :: xs))) in
      if ua && (2 <=? length past)
      then relevant_history o = past /\ enhanced_state o = attend (encode x) past /\
           attention_weights o = repeat (1 / INR (length past))%R (length past)
      else relevant_history o = [zero] /\ enhanced_state o = encode x /\ attention_weights o = [0%R].
Proof. exact @selector_history. Qed.
Print Assumptions C56_selector_history.

(** C56: a pipeline calls its patterns once each in order; the first one gets the input, each next one what the previous one returned, merged into what the previous one got when both are dictionaries. *)
Theorem C56_pipeline :
  forall (S : Type) (ps : list (string * flax_module S pyval pyval)),
  NoDup (map fst ps) -> forall st input outs st',
  (forall n m s x d, In (n, m) ps -> fst (fx_call m s x) = PDict d -> NoDup (map fst d)) ->
    composite_call ps "pipeline" st input = Some (outs, st') ->
    map fst outs = map fst ps /\ exists inputs, nth_error inputs 0 = Some input /\
      forall i n m, nth_error ps i = Some (n, m) -> exists c c' o,
        nth_error inputs i = Some c /\ nth_error inputs (i + 1) = Some c' /\ nth_error outs i = Some (n, o) /\
        fx_call m (st n) c = (o, st' n) /\ passed_on c o c'.
Proof. exact @pipeline_spec. Qed.
Print Assumptions C56_pipeline.

(** C56: in parallel each pattern gets the input. *)
Theorem C56_parallel :
  forall (S : Type) (ps : list (string * flax_module S pyval pyval)),
  NoDup (map fst ps) -> forall st input outs st',
  composite_call ps "parallel" st input = Some (outs, st') ->
    map fst outs = map fst ps /\
    forall i n m, nth_error ps i = Some (n, m) -> exists o,
      nth_error outs i = Some (n, o) /\ fx_call m (st n) input = (o, st' n).
Proof. exact @parallel_spec. Qed.
Print Assumptions C56_parallel.

(** C56: in the hierarchical mode each pattern gets the last "influence" entry returned before, or the input. *)
Theorem C56_hierarchical :
  forall (S : Type) (ps : list (string * flax_module S pyval pyval)),
  NoDup (map fst ps) -> forall st input outs st',
  composite_call ps "hierarchical" st input = Some (outs, st') ->
    map fst outs = map fst ps /\ exists inputs, nth_error inputs 0 = Some input /\
      forall i n m, nth_error ps i = Some (n, m) -> exists c c' o,
        nth_error inputs i = Some c /\ nth_error inputs (i + 1) = Some c' /\ nth_error outs i = Some (n, o) /\
        fx_call m (st n) c = (o, st' n) /\
        ((exists d, o = PDict d /\ lookup "influence" d = Some c') \/
         ((forall d, o = PDict d -> lookup "influence" d = None) /\ c' = c)).
Proof. exact @hierarchical_spec. Qed.
Print Assumptions C56_hierarchical.

(** C56: any other strategy raises. *)
Theorem C56_unknown_strategy :
  forall (S : Type) (ps : list (string * flax_module S pyval pyval)) strategy st input,
  strategy <> "pipeline"%string -> strategy <> "parallel"%string ->
    strategy <> "hierarchical"%string -> composite_call ps strategy st input = None.
Proof. exact @composite_unknown. Qed.
Print Assumptions C56_unknown_strategy.

Definition adds (k : string) (r : R) : flax_module nat pyval pyval :=
  FlaxModule (fun _ => 0) (fun s x => (PDict [(k, PNum r)], s + 1)).
Definition echo : flax_module nat pyval pyval := FlaxModule (fun _ => 0) (fun s x => (x, s + 1)).
Example C56_example :
  option_map fst (composite_call [("p", adds "u" 1); ("q", echo)] "pipeline" (fun _ => 0) (PDict [("x", PNum 5)])) =
    Some [("p", PDict [("u", PNum 1)]); ("q", PDict [("x", PNum 5); ("u", PNum 1)])] /\
  option_map fst (composite_call [("p", adds "u" 1); ("q", echo)] "parallel" (fun _ => 0) (PDict [("x", PNum 5)])) =
    Some [("p", PDict [("u", PNum 1)]); ("q", PDict [("x", PNum 5)])] /\
  option_map fst (composite_call [("p", adds "influence" 1); ("q", echo)] "hierarchical" (fun _ => 0) (PNum 5)) =
    Some [("p", PDict [("influence", PNum 1)]); ("q", PNum 1)] /\
  map (fun o => relevant_history o)
    (flax_from_scratch (Selector 2 (fun x : nat => x) (fun e _ => e) 0 true) [1; 2; 3; 4; 5]) =
    [[0]; [0]; [1; 2]; [2; 3]; [3; 4]].
Proof. repeat split; reflexivity. Qed.
(** A selector with N = 1 never uses its history: one recorded vector is not enough. *)
Example C56_one_slot :
  map (fun o => relevant_history o)
    (flax_from_scratch (Selector 1 (fun x : nat => x) (fun e _ => e) 0 true) [1; 2; 3]) = [[0]; [0]; [0]].
Proof. reflexivity. Qed.

(** C65: a call of a HierarchicalStateMachine calls every registered module exactly once, on the same input, whatever the strategy, the dependencies and the order of the Python set. *)
Theorem C65_called_once :
  forall (S X : Type) (mods : list (string * flax_module S X (pyval + string))) (deps : list (string * list string)) pick strategy st x c st',
  NoDup (map fst mods) -> any_order pick -> hsm_call mods pick deps strategy st x = Some (c, st') ->
    (forall n m, In (n, m) mods -> st' n = snd (fx_call m (st n) x)) /\
    (forall n, ~ In n (map fst mods) -> st' n = st n).
Proof. exact @hsm_states. Qed.
Print Assumptions C65_called_once.

(** C65: with the sequential and parallel strategies the result is what the modules return (an error entry for one that raised); in particular no output reaches another module. *)
Theorem C65_sequential_parallel :
  forall (S X : Type) (mods : list (string * flax_module S X (pyval + string))) (deps : list (string * list string)),
  NoDup (map fst mods) -> forall pick strategy st x,
  any_order pick -> strategy <> Hierarchical ->
    exists outs st', hsm_call mods pick deps strategy st x = Some (outs, st') /\
      Permutation (map fst outs) (map fst mods) /\
      (forall n m, In (n, m) mods -> lookup n outs = Some (machine_entry (fst (fx_call m (st n) x))) /\
                                     st' n = snd (fx_call m (st n) x)) /\
      (forall n, ~ In n (map fst mods) -> st' n = st n).
Proof. exact @hsm_plain. Qed.
Print Assumptions C65_sequential_parallel.

(** C65: with the hierarchical strategy a dictionary returned by a module keeps its keys, each number [a] being replaced by what remains after 10 % of the number found under the same key in the result of each registered state of smaller level is blended in, by increasing level; everything else is returned as it is.  The level is the length of the longest chain of dependencies. *)
Theorem C65_hierarchical :
  forall (S X : Type) (mods : list (string * flax_module S X (pyval + string))) (deps : list (string * list string)) pick st x c st',
  NoDup (map fst mods) -> any_order pick ->
    hsm_call mods pick deps Hierarchical st x = Some (c, st') ->
    Permutation (map fst c) (map fst mods) /\
    exists level : string -> nat,
      (acyclic (needs deps) -> forall n, longest_path deps n (level n)) /\
      forall n m, In (n, m) mods -> exists above,
        NoDup above /\ (forall h, In h above <-> In h (map fst mods) /\ level h < level n) /\
        StronglySorted (fun a b => level a <= level b) above /\
        match machine_entry (fst (fx_call m (st n) x)) with
        | PDict d => exists d', lookup n c = Some (PDict d') /\ map fst d' = map fst d /\
            forall k, lookup k d' = match lookup k d with
                                    | Some (PNum a) => Some (PNum (nudged (signals c k above) a))
                                    | v => v end
        | o => lookup n c = Some o
        end.
Proof. exact @hsm_hierarchical. Qed.
Print Assumptions C65_hierarchical.

(** C65: the result does not depend on the order of the Python set. *)
Theorem C65_set_order_irrelevant :
  forall (S X : Type) (mods : list (string * flax_module S X (pyval + string))) (deps : list (string * list string)),
  NoDup (map fst mods) -> forall pick1 pick2 st x,
  any_order pick1 -> any_order pick2 ->
    match hsm_call mods pick1 deps Hierarchical st x, hsm_call mods pick2 deps Hierarchical st x with
    | Some (c1, st1), Some (c2, st2) => c1 = c2 /\ forall n, st1 n = st2 n
    | None, None => True
    | _, _ => False
    end.
Proof. exact @hsm_deterministic. Qed.
Print Assumptions C65_set_order_irrelevant.

(** C65: a call does not raise when all entries of the returned dictionaries are numbers. *)
Theorem C65_total :
  forall (S X : Type) (mods : list (string * flax_module S X (pyval + string))) (deps : list (string * list string)) pick strategy st x,
  NoDup (map fst mods) -> any_order pick ->
    (strategy = Hierarchical -> forall n m d, In (n, m) mods -> fst (fx_call m (st n) x) = inl (PDict d) ->
       forall k v, In (k, v) d -> exists r, v = PNum r) ->
    (strategy = Hierarchical -> forall n m e, In (n, m) mods -> fst (fx_call m (st n) x) <> inr e) ->
    hsm_call mods pick deps strategy st x <> None.
Proof. exact @hsm_total. Qed.
Print Assumptions C65_total.

Definition emits (o : pyval + string) : flax_module nat unit (pyval + string) := FlaxModule (fun _ => 0) (fun s _ => (o, s + 1)).
Example C65_example :
  let mods := [("fast", emits (inl (PDict [("v", PNum 1)]))); ("slow", emits (inl (PDict [("v", PNum 11)])))] in
  exists st' r, hsm_call mods (fun _ l => l) [("fast", ["slow"])] Hierarchical (fun _ => 0) tt =
    Some ([("slow", PDict [("v", PNum 11)]); ("fast", PDict [("v", PNum r)])], st') /\ r = 2%R /\
  nudged [11%R] 1 = 2%R /\ longest_path [("fast", ["slow"])] "fast" 1.
Proof.
  cbv zeta. do 2 eexists. split; [reflexivity|]. split; [unfold blend; lra|]. split; [cbn; lra|]. split.
  - exists ["slow"]. split; [|reflexivity]. split; [|exact I]. exists ["slow"]. split; [reflexivity|now left].
  - intros [|a [|b l]] H; cbn; [lia|lia|]. destruct H as ((l1 & L1 & I1) & (l2 & L2 & I2) & _).
    cbn in L1. injection L1 as <-. destruct I1 as [<-|[]]. cbn in L2. easy.
Qed.
(** Blending with an error entry, or any other non-number under the same key, raises. *)
Example C65_raises :
  hsm_call [("fast", emits (inl (PDict [("error", PNum 1)]))); ("slow", emits (inr "boom"))] (fun _ l => l)
    [("fast", ["slow"])] Hierarchical (fun _ => 0) tt = None.
Proof. reflexivity. Qed.

(** C66: ConditionalStateUpdate runs its module on the inputs that satisfy the condition only, as if it received nothing else, and passes the other inputs through. *)
Theorem C66_conditional_update :
  forall (S X : Type) (m : flax_module S X X) (cond : X -> bool) xs,
  forall s,
    snd (flax_calls (ConditionalStateUpdate m cond) s xs) = snd (flax_calls m s (events cond xs)) /\
    forall t x, nth_error xs t = Some x ->
      nth_error (fst (flax_calls (ConditionalStateUpdate m cond) s xs)) t =
      if cond x then nth_error (fst (flax_calls m s (events cond xs))) (length (events cond (firstn t xs)))
      else Some x.
Proof. exact @cond_update_spec. Qed.
Print Assumptions C66_conditional_update.

Example C66_example :
  flax_from_scratch (ConditionalStateUpdate (FlaxModule (fun _ : nat => 0) (fun s x => (s + x, s + x))) Nat.even) [1; 2; 3; 4; 5]
    = [1; 2; 3; 6; 5].
Proof. reflexivity. Qed.

(** C67: HierarchicalState (called with [outs] = []) calls its modules once each in the order of declaration; each one gets the given inputs and, for its declared dependencies that come earlier and are not overridden by an input of the same name, their outputs. *)
Theorem C67_hierarchical_state :
  forall (S V : Type) (deps : list (string * list string)) (inputs : (list (string * V))),
  NoDup (map fst inputs) ->
    forall (ms : list (string * flax_module S (list (string * V)) V)) (st : string -> S) (outs : (list (string * V))),
    NoDup (map fst ms) -> (forall n, In n (map fst ms) -> lookup n outs = None) ->
    exists news, fst (execute_in_order deps ms st inputs outs) = outs ++ news /\ map fst news = map fst ms /\
     (forall n, ~ In n (map fst ms) -> snd (execute_in_order deps ms st inputs outs) n = st n) /\
     forall a n m b, ms = a ++ (n, m) :: b -> exists kws,
       (forall k, lookup k kws = match lookup k inputs with
          | Some v => Some v
          | None => if mem k (deps_of deps n) then lookup k (outs ++ firstn (length a) news) else None end) /\
       nth_error news (length a) = Some (n, fst (fx_call m (st n) kws)) /\
       snd (execute_in_order deps ms st inputs outs) n = snd (fx_call m (st n) kws).
Proof. exact @execute_in_order_spec. Qed.
Print Assumptions C67_hierarchical_state.

Definition lister : flax_module nat (list (string * list string)) (list string) :=
  FlaxModule (fun _ => 0) (fun s kw => (map fst kw, s)).
Example C67_example :
  fst (execute_in_order [("a", ["b"]); ("b", ["a"; "x"])] [("a", lister); ("b", lister)] (fun _ => 0) [("x", [])] []) =
    [("a", ["x"]); ("b", ["a"; "x"])].
Proof. reflexivity. Qed.

(** C68: a StreamingOptimizer reports the outputs of its model and leaves its state as if the model ran alone: the optimisation does not touch them. *)
Theorem C68_model_unaffected :
  forall (S X Y L T O : Type) (model : flax_module S X Y) (target : X -> T) (vg : Y -> T -> R -> L * R)
  (opt_init : R -> O) (opt_update : R -> O -> R -> R * O) xs,
  forall s so, 
    map (fun o => snd (fst o)) (fst (flax_calls (StreamingOptimizer model target vg opt_init opt_update) (s, so) xs)) = fst (flax_calls model s xs) /\
    fst (snd (flax_calls (StreamingOptimizer model target vg opt_init opt_update) (s, so) xs)) = snd (flax_calls model s xs).
Proof. exact @sopt_model. Qed.
Print Assumptions C68_model_unaffected.

(** C68: what is optimised is a single scale: the loss and gradient at t are those of scale * output at the scale reached after t updates, and each step adds the update of the optimizer. *)
Theorem C68_scale :
  forall (S X Y L T O : Type) (model : flax_module S X Y) (target : X -> T) (vg : Y -> T -> R -> L * R)
  (opt_init : R -> O) (opt_update : R -> O -> R -> R * O) xs,
  forall s sc os ys st',
    flax_calls (StreamingOptimizer model target vg opt_init opt_update) (s, (sc, os)) xs = (ys, st') ->
    exists states, nth_error states 0 = Some (sc, os) /\ nth_error states (length xs) = Some (snd st') /\
      forall t x, nth_error xs t = Some x -> exists sc_t os_t y l g u os',
        nth_error states t = Some (sc_t, os_t) /\ nth_error (fst (flax_calls model s xs)) t = Some y /\
        vg y (target x) sc_t = (l, g) /\ opt_update g os_t sc_t = (u, os') /\
        nth_error ys t = Some ((l, y), ((sc_t + u)%R, g)) /\ nth_error states (t + 1) = Some ((sc_t + u)%R, os').
Proof. exact @sopt_scale. Qed.
Print Assumptions C68_scale.

(** C68: from scratch the scale starts at 1, with the optimizer initialised there. *)
Theorem C68_from_scratch :
  forall (S X Y L T O : Type) (model : flax_module S X Y) (target : X -> T) (vg : Y -> T -> R -> L * R)
  (opt_init : R -> O) (opt_update : R -> O -> R -> R * O) x0 xs,
  let outs := flax_from_scratch (StreamingOptimizer model target vg opt_init opt_update) (x0 :: xs) in
  exists scale : nat -> R, exists os : nat -> O,
    scale 0%nat = 1%R /\ os 0%nat = opt_init 1%R /\
    forall t x, nth_error (x0 :: xs) t = Some x -> exists y l g u,
      nth_error (flax_from_scratch model (x0 :: xs)) t = Some y /\
      vg y (target x) (scale t) = (l, g) /\ opt_update g (os t) (scale t) = (u, os (t + 1)) /\
      scale (t + 1) = (scale t + u)%R /\ nth_error outs t = Some ((l, y), (scale (t + 1), g)).
Proof. exact @sopt_from_scratch. Qed.
Print Assumptions C68_from_scratch.

Example C68_example :
  let m := FlaxModule (fun _ : R => tt) (fun s x => (x, s)) in
  let sgd := fun (g : R) (s : unit) (_ : R) => (- g, tt)%R in
  exists sc, fst (sopt_call m (fun _ => 0%R) (fun y t s => ((s * y - t)%R, y)) sgd (fx_vars (StreamingOptimizer m (fun _ => 0%R) (fun y t s => ((s * y - t)%R, y)) (fun _ => tt) sgd) 3%R) 3%R) =
    (((1 * 3 - 0)%R, 3%R), (sc, 3%R)) /\ sc = (-2)%R.
Proof. cbv zeta. eexists. split; [reflexivity|lra]. Qed.
