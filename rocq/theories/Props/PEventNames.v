(** Property theorems C138: UpdateOnEvent freezes the states which belong to the wrapped module by name. *)
From Coq Require Import String List Bool Arith Lia.
From Verif Require Import Model.Unroll Model.FlaxOptim Model.Dynamics Model.EventNames Spec.EventNamesSpec Proofs.EventNamesProofs.
Import ListNotations.
Local Open Scope list_scope.

(** C138: the modules frozen are the wrapped one, those named below it and those it created; no other module whose name
    begins in the same way (ewma_1 beside ewma). *)
Theorem C138_scope :
  forall (m : string) (subs : list string) (t : string),
  in_scope m subs t = true <-> t = m \/ (exists r, t = (m ++ "/" ++ r)%string) \/ In t subs.
Proof. exact scope_iff. Qed.
Print Assumptions C138_scope.

(** C138: one call: with an event everything is what the wrapped module left; without one the states in the scope are put
    back, the output is the previous one, and every other state is what the wrapped module left. *)
Theorem C138_step :
  forall (V X : Type) (mname : string) (subs : list string) (wname : string) (full : V -> V)
    (call : X -> frame V -> option (V * frame V)) (ev : bool) (x : X) (fr : frame V) (out : V) (fr1 : frame V),
  well_formed fr -> well_formed fr1 -> call x fr = Some (out, fr1) ->
  (forall m n, in_scope mname subs m = true -> lookup fr m n = None <-> lookup fr1 m n = None) ->
  in_scope mname subs wname = false ->
  let o := if ev then out else match lookup fr1 wname "prev_output" with Some v => v | None => full out end in
  exists fr', update_on_event_named wname mname subs full call ev x fr = Some (o, fr') /\ well_formed fr' /\
    forall m n, lookup fr' m n =
      if String.eqb m wname && String.eqb n "prev_output" then Some o
      else if negb ev && in_scope mname subs m then lookup fr m n else lookup fr1 m n.
Proof. exact @named_step. Qed.
Print Assumptions C138_step.

(** C138: if the wrapped module writes only states of its scope, a call without event changes nothing at all. *)
Theorem C138_frozen :
  forall (V X S : Type) (mname : string) (subs : list string) (wname : string) (full : V -> V)
    (call : X -> frame V -> option (V * frame V)) (abs : frame V -> S) (f : S -> X -> V * S) (good : frame V -> Prop),
  in_scope mname subs wname = false ->
  (forall x fr, good fr -> well_formed fr -> exists fr1,
     call x fr = Some (fst (f (abs fr) x), fr1) /\ well_formed fr1 /\ abs fr1 = snd (f (abs fr) x) /\
     (forall m n, in_scope mname subs m = false -> lookup fr1 m n = lookup fr m n) /\
     (forall m n, in_scope mname subs m = true -> lookup fr m n = None <-> lookup fr1 m n = None)) ->
  forall x fr po, good fr -> well_formed fr -> lookup fr wname "prev_output" = Some po ->
  exists fr', update_on_event_named wname mname subs full call false x fr = Some (po, fr') /\
    forall m n, lookup fr' m n = lookup fr m n.
Proof. exact @frozen. Qed.
Print Assumptions C138_frozen.

(** C138: and over any history the outputs and the state of the module are those of UpdateOnEvent around a module that owns
    its state (C30); the states of the other modules are not touched. *)
Theorem C138_refines :
  forall (V X S : Type) (mname : string) (subs : list string) (wname : string) (full : V -> V)
    (call : X -> frame V -> option (V * frame V)) (abs : frame V -> S) (f : S -> X -> V * S) (good : frame V -> Prop),
  in_scope mname subs wname = false ->
  (forall x fr, good fr -> well_formed fr -> exists fr1,
     call x fr = Some (fst (f (abs fr) x), fr1) /\ well_formed fr1 /\ abs fr1 = snd (f (abs fr) x) /\
     (forall m n, in_scope mname subs m = false -> lookup fr1 m n = lookup fr m n) /\
     (forall m n, in_scope mname subs m = true -> lookup fr m n = None <-> lookup fr1 m n = None)) ->
  (forall fr fr', (forall m n, in_scope mname subs m = true -> lookup fr m n = lookup fr' m n) -> abs fr = abs fr') ->
  (forall fr fr', (forall m n, lookup fr m n = None <-> lookup fr' m n = None) -> good fr -> good fr') ->
  forall (s0 : S) (es : list (bool * X)) (fr : frame V) (po : V),
  good fr -> well_formed fr -> lookup fr wname "prev_output" = Some po ->
  exists fr', frame_run (fun e => update_on_event_named wname mname subs full call (fst e) (snd e)) es fr =
    Some (fst (anon_run full s0 f es (po, abs fr)), fr') /\
    lookup fr' wname "prev_output" = Some (fst (snd (anon_run full s0 f es (po, abs fr)))) /\
    abs fr' = snd (snd (anon_run full s0 f es (po, abs fr))) /\
    (forall m n, in_scope mname subs m = false -> m <> wname -> lookup fr' m n = lookup fr m n).
Proof. exact @refines. Qed.
Print Assumptions C138_refines.

(** C138 fails for a module given to the wrapped one from outside, as in UpdateOnEvent(UpdateOnEvent(counter)): the counter
    counts every event of the inner wrapper, also when the outer one sees none. *)
Theorem C138_nested_refuted :
  forall (n : nat) (evs : list (bool * bool)),
  exists os fr, frame_run nested evs (nested_start n) = Some (os, fr) /\
    count_of fr = n + length (filter (fun e => snd e) evs).
Proof. exact nested_count. Qed.
Print Assumptions C138_nested_refuted.

Ltac wf_tac := split;
  [cbn [map fst]; repeat (apply NoDup_cons; [cbn; intuition discriminate|]); apply NoDup_nil
  |repeat (apply Forall_cons; [split; cbn [map fst snd];
     [repeat (apply NoDup_cons; [cbn; intuition discriminate|]); apply NoDup_nil
     |repeat (apply Forall_cons; [unfold no_slash; cbn; intuition discriminate|]); apply Forall_nil]|]); apply Forall_nil].
Example C138_example :
  (* a counter, its submodule and a neighbour: without event only the neighbour keeps what the call wrote *)
  let call := fun (x : nat) (fr : frame nat) =>
    Some (x, put "counter" "count" x (put "counter/sub" "s" x (put "counter_1" "count" x fr))) in
  let fr := [("counter", [("count", 1)]); ("counter/sub", [("s", 2)]); ("counter_1", [("count", 3)]); ("w", [("prev_output", 4)])]%string in
  well_formed fr /\
  update_on_event_named "w" "counter" [] (fun _ => 0) call false 9 fr =
    Some (4, [("counter", [("count", 1)]); ("counter/sub", [("s", 2)]); ("counter_1", [("count", 9)]); ("w", [("prev_output", 4)])]%string) /\
  update_on_event_named "w" "counter" [] (fun _ => 0) call true 9 fr =
    Some (9, [("counter", [("count", 9)]); ("counter/sub", [("s", 9)]); ("counter_1", [("count", 9)]); ("w", [("prev_output", 9)])]%string).
Proof.
  cbv zeta. split; [wf_tac|split; reflexivity].
Qed.

(** the hypotheses of C138_refines hold for the counter: *)
Example C138_counter :
  let good := fun fr : frame nat => lookup fr "counter" "count" <> None in
  let f := fun (s : nat) (_ : unit) => (S s, S s) in
  in_scope "counter" [] "update_on_event" = false /\
  (forall x fr, good fr -> well_formed fr -> exists fr1,
     counter_call x fr = Some (fst (f (count_of fr) x), fr1) /\ well_formed fr1 /\ count_of fr1 = snd (f (count_of fr) x) /\
     (forall m n, in_scope "counter" [] m = false -> lookup fr1 m n = lookup fr m n) /\
     (forall m n, in_scope "counter" [] m = true -> lookup fr m n = None <-> lookup fr1 m n = None)) /\
  (forall fr fr', (forall m n, in_scope "counter" [] m = true -> lookup fr m n = lookup fr' m n) -> count_of fr = count_of fr') /\
  (forall fr fr', (forall m n, lookup fr m n = None <-> lookup fr' m n = None) -> good fr -> good fr') /\
  good (nested_start 5) /\ well_formed (nested_start 5) /\ lookup (nested_start 5) "update_on_event" "prev_output" = Some 0.
Proof.
  cbv zeta. split; [reflexivity|]. split.
  { intros x fr G W. eexists. split; [reflexivity|]. split; [apply wf_put; [unfold no_slash; cbn; intuition discriminate|exact W]|].
    split; [unfold count_of; rewrite lookup_put; reflexivity|]. split.
    - intros m n H. rewrite lookup_put. destruct (String.eqb_spec m "counter") as [->|N]; [discriminate|reflexivity].
    - intros m n _. rewrite lookup_put. destruct (String.eqb_spec m "counter") as [->|N]; cbn [andb]; [|reflexivity].
      destruct (String.eqb_spec n "count") as [->|N']; [split; [contradiction|discriminate]|reflexivity]. }
  split; [intros fr fr' H; unfold count_of; rewrite (H "counter"%string "count"%string) by reflexivity; reflexivity|].
  split; [intros fr fr' H G E; apply G, H; exact E|]. split; [discriminate|]. split; [|reflexivity].
  unfold nested_start. wf_tac.
Qed.
