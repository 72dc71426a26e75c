(** C86, continued: the memory of a state, leaf by leaf. *)
From Coq Require Import String List Bool Arith Reals.
From Verif Require Import Model.FlaxOptim Spec.DebugSpec Spec.GraphSpec Spec.StateMemSpec Proofs.StateMemProofs.
From Verif Require Import Model.Debug.
Import ListNotations.
Local Open Scope string_scope.
Local Open Scope list_scope.

(** The parameters are the leaves under the key "params", the state variables all the others, the buffers those under a key of the
    entry "state" that names a buffer in any case. *)
Theorem C86_breakdown (kvs : list (string * ptree nat)) : NoDup (map fst kvs) -> (forall n, sget "state" kvs <> Some (PLeaf n)) ->
  analyze_state_memory (Some (PDict kvs)) =
  (megabytes (bytes_where not_params (PDict kvs)), megabytes (bytes_where under_params (PDict kvs)), megabytes (bytes_where in_buffer (PDict kvs))).
Proof. exact (@breakdown kvs). Qed.
(** A state that is one array is a state variable. *)
Theorem C86_array_state (n : nat) : analyze_state_memory (Some (PLeaf n)) = (megabytes n, 0%R, 0%R).
Proof. exact (@breakdown_leaf n). Qed.
(** Refuted: "parameters and state variables add up to the bytes of the state".  When the entry "state" is an array, an error is
    swallowed and the other entries are not counted. *)
Theorem C86_others_refuted (kvs : list (string * ptree nat)) (n : nat) : NoDup (map fst kvs) -> sget "state" kvs = Some (PLeaf n) ->
  analyze_state_memory (Some (PDict kvs)) = (megabytes n, megabytes (bytes_where under_params (PDict kvs)), 0%R).
Proof. exact (@breakdown_lost kvs n). Qed.
(** The lower case of the code is that of the letters. *)
Theorem C86_lower (s : string) : lower s = folded s.
Proof. exact (@lower_folded s). Qed.

Module DemoStateMem.
  Definition kvs : list (string * ptree nat) :=
    [("params", PDict [("w", PLeaf 8)]); ("state", PDict [("BUFFER_x", PLeaf 16); ("mean", PLeaf 4)]); ("cache", PLeaf 2)].
  Example C86_breakdown_example : NoDup (map fst kvs) /\ (forall n, sget "state" kvs <> Some (PLeaf n)) /\
    bytes_where not_params (PDict kvs) = 22 /\ bytes_where under_params (PDict kvs) = 8 /\ bytes_where in_buffer (PDict kvs) = 16.
  Proof. split; [repeat constructor; cbn; intuition discriminate|]. split; [discriminate|]. repeat split. Qed.
  Example C86_others_example : sget "state" [("state", PLeaf 4); ("cache", PLeaf 2)] = Some (PLeaf 4) /\ nbytes (PDict [("state", PLeaf 4); ("cache", PLeaf 2)]) = 6.
  Proof. split; reflexivity. Qed.
End DemoStateMem.
Print Assumptions C86_breakdown. Print Assumptions C86_array_state. Print Assumptions C86_others_refuted. Print Assumptions C86_lower.
Print Assumptions DemoStateMem.C86_breakdown_example. Print Assumptions DemoStateMem.C86_others_example.
