(** Property theorems C127: comparing trees of arrays.  Vocabulary: Spec/TestingSpec.v. *)
From Coq Require Import String List Bool Arith Reals Lra.
From Verif Require Import Model.Float Model.Testing Spec.TestingSpec Proofs.TestingProofs.
Import ListNotations.
Local Open Scope list_scope.

(** C127: between trees whose leaves have the same shapes, the assertion passes exactly when the structures have the same text
    (if asked for) and every leaf agrees with its counterpart: same class and dtype, equal integers, close floats, no NaN. *)
Theorem C127_same_shapes :
  forall check s s' xs ys, Forall proper xs -> Forall proper ys ->
  (forall i a b, nth_error xs i = Some a -> nth_error ys i = Some b -> same_shape a b) ->
  (assert_tree_all_close check (s, xs) (s', ys) = true <->
   (check = true -> same_text s s') /\ Forall2 agree xs ys).
Proof. exact close_text. Qed.
Print Assumptions C127_same_shapes.
(** C127: the text without the occurrences of a word is unique. *)
Theorem C127_text_unique : forall w s t t', erased w s t -> erased w s t' -> t = t'.
Proof. exact erased_unique. Qed.
Print Assumptions C127_text_unique.
Theorem C127_same_structure :
  forall s xs ys, Forall proper xs -> Forall proper ys ->
  (forall i a b, nth_error xs i = Some a -> nth_error ys i = Some b -> same_shape a b) -> ~ occurs "_test" s ->
  (assert_tree_all_close true (s, xs) (s, ys) = true <-> Forall2 agree xs ys).
Proof. exact close_same_structure. Qed.
Print Assumptions C127_same_structure.

(** C127: a tree agrees with itself exactly when it has no NaN ... *)
Theorem C127_self :
  forall s xs, Forall proper xs -> (assert_tree_all_close false (s, xs) (s, xs) = true <-> Forall no_nan xs).
Proof. exact close_self. Qed.
Print Assumptions C127_self.
(** ... and, structures compared, not even then when a key of it holds "_test". *)
Theorem C127_self_refuted :
  exists s, forall xs, assert_tree_all_close true (s, xs) (s, xs) = false.
Proof. exists "{'x_test': *}"%string. exact close_self_test. Qed.
Print Assumptions C127_self_refuted.

(** C127: the shapes are not compared: an array of n equal entries agrees with one entry, an empty one (n = 0) with any entry. *)
Theorem C127_shapes_refuted :
  forall class dtype n c,
  assert_tree_all_close true ("*"%string, [TArr class dtype [n] (repeat (Fin c) n)]) ("*"%string, [TArr class dtype [1] [Fin c]]) = true.
Proof. exact close_broadcast. Qed.
Print Assumptions C127_shapes_refuted.

(** C127: the assertion is not symmetric. *)
Theorem C127_symmetric_refuted :
  exists x y,
  assert_tree_all_close true ("*"%string, [TArr "Array" "float32" [] [Fin x]]) ("*"%string, [TArr "Array" "float32" [] [Fin y]]) = true /\
  assert_tree_all_close true ("*"%string, [TArr "Array" "float32" [] [Fin y]]) ("*"%string, [TArr "Array" "float32" [] [Fin x]]) = false.
Proof. exact close_asymmetric. Qed.
Print Assumptions C127_symmetric_refuted.

(** C127: the unique dtype of a tree exists exactly when the tree has leaves and all have it. *)
Theorem C127_unique_dtype :
  forall l t, get_unique_dtype l = Some t <-> l <> [] /\ forall d, In d l -> d = t.
Proof. exact unique_dtype. Qed.
Print Assumptions C127_unique_dtype.

(** C127: dict_map keeps the keys in order and applies the function to each value. *)
Theorem C127_dict_map :
  forall (A B : Type) (f : A -> B) col k,
  map fst (dict_map f col) = map fst col /\
  find (fun kv => String.eqb k (fst kv)) (dict_map f col) = option_map (fun kv => (fst kv, f (snd kv))) (find (fun kv => String.eqb k (fst kv)) col).
Proof. intros. split; [unfold dict_map; rewrite map_map; reflexivity|apply dict_map_get]. Qed.
Print Assumptions C127_dict_map.

Example C127_example :
  assert_tree_all_close true ("wax.P(*, *)"%string, [TNum "int" (Fin 3); TArr "Array" "float32" [2] [Fin 1; PInf]])
                             ("P_test(*, *)"%string, [TNum "int" (Fin 3); TArr "Array" "float32" [2] [Fin 1; PInf]]) = true.
Proof.
  apply close_spec.
  - repeat constructor.
  - repeat constructor.
  - intros [|[|[|i]]] a b; cbn; intros E1 E2; try discriminate; injection E1 as <-; injection E2 as <-; reflexivity.
  - split; [reflexivity|]. constructor; [constructor; split; [reflexivity|discriminate]|]. constructor; [|constructor].
    apply agree_near; [intros [H|H]; discriminate|]. constructor; [|constructor; [|constructor]].
    + apply near_refl. discriminate.
    + apply near_refl. discriminate.
Qed.
