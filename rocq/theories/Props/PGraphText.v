(** Property theorems C157: the text rendering of a computation graph. *)
From Coq Require Import String Ascii List Bool Arith.
From Verif Require Import Spec.DotSpec Model.GraphText Spec.GraphTextSpec Proofs.GraphTextProofs.
Import ListNotations.
Local Open Scope string_scope.
Local Open Scope list_scope.

(** C157: a reader of the text finds the nodes, in order, with what the options show of them, and the edges with their labels. *)
Theorem C157_read_back :
  forall (shapes params : bool) (r : renderer),
  Forall plain_node (rd_nodes r) -> Forall plain_edge (rd_edges r) ->
  read_text (text_content shapes params r) = Some (Renderer (map (shown shapes params) (rd_nodes r)) (rd_edges r)).
Proof. exact @text_read. Qed.
Print Assumptions C157_read_back.

(** C157: so two renderers with the same text have the same edges and show the same of their nodes. *)
Theorem C157_injective :
  forall (shapes params : bool) (r r' : renderer),
  Forall plain_node (rd_nodes r) -> Forall plain_edge (rd_edges r) -> Forall plain_node (rd_nodes r') -> Forall plain_edge (rd_edges r') ->
  text_content shapes params r = text_content shapes params r' ->
  map (shown shapes params) (rd_nodes r) = map (shown shapes params) (rd_nodes r') /\ rd_edges r = rd_edges r'.
Proof. exact @text_injective. Qed.
Print Assumptions C157_injective.

(** C157: after any additions there is one node under each identifier, the last one added under it. *)
Theorem C157_nodes :
  forall l : list addition,
  NoDup (map fst (rd_nodes (additions l))) /\
  forall (id : string) (n : tnode),
  In (id, n) (rd_nodes (additions l)) <->
  exists l1 l2 : list addition, l = l1 ++ AddNode id n :: l2 /\ forall a, In a l2 -> ~ exists n', a = AddNode id n'.
Proof. exact @added_nodes. Qed.
Print Assumptions C157_nodes.

(** C157: and all the edges that were added, in order, repeated ones and edges without nodes included. *)
Theorem C157_edges :
  forall l : list addition,
  rd_edges (additions l) = flat_map (fun a => match a with AddEdge e => [e] | AddNode _ _ => [] end) l.
Proof. exact @added_edges. Qed.
Print Assumptions C157_edges.

(** C157: the text is what is rendered exactly when matplotlib is missing and the format has its own renderer neither here
    nor in an installed graphviz. *)
Theorem C157_way :
  forall (graphviz matplotlib : bool) (format : string),
  way_of graphviz matplotlib format = ByText <->
  matplotlib = false /\ format <> "dot" /\ format <> "html" /\ (graphviz = true -> ~ In format ["png"; "svg"; "pdf"]).
Proof. exact @way_text. Qed.
Print Assumptions C157_way.

(** C157: what renders the other formats. *)
Theorem C157_ways :
  forall (graphviz matplotlib : bool) (format : string),
  (way_of graphviz matplotlib format = ByDot <-> format = "dot") /\
  (way_of graphviz matplotlib format = ByHtml <-> format = "html") /\
  (way_of graphviz matplotlib format = ByGraphviz <-> graphviz = true /\ In format ["png"; "svg"; "pdf"]) /\
  (way_of graphviz matplotlib format = ByMatplotlib <->
   matplotlib = true /\ format <> "dot" /\ format <> "html" /\ (graphviz = true -> ~ In format ["png"; "svg"; "pdf"])).
Proof. exact @ways. Qed.
Print Assumptions C157_ways.

(** C157, refuted for names of several words: two graphs with different edges have the same text. *)
Theorem C157_names_refuted :
  exists r r' : renderer,
  text_content true false r = text_content true false r' /\ rd_edges r <> rd_edges r' /\ rd_nodes r = rd_nodes r'.
Proof. exact @text_collides. Qed.
Print Assumptions C157_names_refuted.

(** A graph that meets the hypotheses, and its text. *)
Definition two_nodes : renderer :=
  additions [AddNode "a" (TNode "input" "Input" "" "");
             AddNode "b" (TNode "old" "Old" "" "");
             AddEdge (TEdge "a" "b" "data (10, 3)");
             AddNode "b" (TNode "ewma" "EWMA" "{'x': (10, 3)}" "{'alpha': 0.1}");
             AddEdge (TEdge "b" "a" "")].
Example two_nodes_plain : Forall plain_node (rd_nodes two_nodes) /\ Forall plain_edge (rd_edges two_nodes).
Proof.
  assert (O : forall c s, existsb (Ascii.eqb c) (list_ascii_of_string s) = false -> has_no c s).
  { intros c s H I. assert (T : existsb (Ascii.eqb c) (list_ascii_of_string s) = true)
      by (apply existsb_exists; exists c; split; [exact I|apply Ascii.eqb_refl]). congruence. }
  assert (W : forall s, s <> "" ->
    forallb (fun c => negb (existsb (Ascii.eqb c) (list_ascii_of_string s))) [" "; NL; ":"; "("; ")"; "["; "]"]%char = true -> word s).
  { intros s N H. split; [exact N|]. intros c I. apply O. rewrite forallb_forall in H. specialize (H c I). apply negb_true_iff in H. exact H. }
  unfold plain_node, plain_edge, one_line. split;
  repeat (apply Forall_cons || apply Forall_nil); cbn [fst snd x_name x_type x_shapes x_params y_source y_target y_label];
  repeat split; try (apply O; reflexivity); try (apply W; [discriminate|reflexivity]).
Qed.
Example two_nodes_text : text_lines true true two_nodes =
  ["WAX-ML Streaming Pipeline Graph"; "========================================"; ""; "Nodes:";
   "  a: input (Input)"; "  b: ewma (EWMA)"; "    Input shapes: {'x': (10, 3)}"; "    Parameters: {'alpha': 0.1}"; "";
   "Edges:"; "  a -> b [data (10, 3)]"; "  b -> a"].
Proof. reflexivity. Qed.
Example two_nodes_way : way_of true false "png" = ByGraphviz /\ way_of false false "png" = ByText.
Proof. split; reflexivity. Qed.
