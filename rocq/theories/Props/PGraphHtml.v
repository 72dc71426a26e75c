(** Property theorems C158: the html page of a computation graph. *)
From Coq Require Import String Ascii List Bool Arith.
From Verif Require Import Model.Graph Model.GraphText Spec.DotSpec Model.GraphHtml Spec.GraphHtmlSpec Proofs.GraphHtmlProofs.
Import ListNotations.
Local Open Scope string_scope.
Local Open Scope list_scope.

(** C158: the tags of the page: the head; one box for each node, in its color, with its name in bold and one line for its
    identifier and for each detail that is shown; one box for each edge; the end. *)
Theorem C158_tags :
  forall (shapes params : bool) (nodes : list hnode) (edges : list tedge),
  Forall clear_node nodes -> Forall clear_edge edges ->
  tags (html_content shapes params nodes edges) = page_tags shapes params nodes edges.
Proof. exact @page_tags_spec. Qed.
Print Assumptions C158_tags.

(** C158: the names in bold, and the type after each of them. *)
Theorem C158_names :
  forall (shapes params : bool) (nodes : list hnode) (edges : list tedge),
  Forall clear_node nodes -> Forall clear_edge edges ->
  let page := html_content shapes params nodes edges in
  texts_after "strong" page = map (fun h => x_name (z_node h)) nodes /\
  texts_after "/strong" page = map (fun h => " (" ++ x_type (z_node h) ++ ")" ++ String (ascii_of_nat 10) "            ")%string nodes.
Proof. intros. split; [apply page_names; assumption|exact (page_types _ _ _ _ H H0)]. Qed.
Print Assumptions C158_names.

(** C158: the lines of each node: its identifier, then its shapes and its parameters if they are shown and it has some. *)
Theorem C158_details :
  forall (shapes params : bool) (nodes : list hnode) (edges : list tedge),
  Forall clear_node nodes -> Forall clear_edge edges ->
  texts_after "br" (html_content shapes params nodes edges) =
  flat_map (fun h =>
    ["ID: " ++ z_id h ++ String (ascii_of_nat 10) ""]%string
    ++ (if shapes && has_text (x_shapes (z_node h)) then ["Input shapes: " ++ x_shapes (z_node h)]%string else [])
    ++ (if params && has_text (x_params (z_node h)) then ["Parameters: " ++ x_params (z_node h)]%string else [])) nodes.
Proof. exact @page_details. Qed.
Print Assumptions C158_details.

(** C158: the edges, in order, with their labels; and how many nodes and edges there are. *)
Theorem C158_edges :
  forall (shapes params : bool) (nodes : list hnode) (edges : list tedge),
  Forall clear_node nodes -> Forall clear_edge edges ->
  let page := html_content shapes params nodes edges in
  texts_after "div class=""edge""" page = map edge_line edges /\
  texts_after "h2" page = ["Nodes (" ++ str_of_nat (length nodes) ++ ")"; "Edges (" ++ str_of_nat (length edges) ++ ")"]%string.
Proof. intros. split; [apply page_edges; assumption|apply page_counts; assumption]. Qed.
Print Assumptions C158_edges.

(** C158, refuted without that hypothesis: nothing is escaped, so a name can put a script into the page and is then not shown. *)
Theorem C158_escape_refuted :
  exists (h : hnode) (e : tedge), ~ In "script" (page_tags false false [h] [e]) /\
  In "script" (tags (html_content false false [h] [e])) /\
  texts_after "strong" (html_content false false [h] [e]) <> [x_name (z_node h)].
Proof. exact @page_injects. Qed.
Print Assumptions C158_escape_refuted.

(** Two nodes and an edge that meet the hypotheses. *)
Definition two_boxes : list hnode :=
  [HNode "a" "#ff0000" (TNode "input" "Input" "" ""); HNode "b" "#00ff00" (TNode "ewma" "EWMA" "{'x': (10, 3)}" "{'alpha': 0.1}")].
Definition one_arrow : list tedge := [TEdge "a" "b" "data (10, 3)"].
Example two_boxes_clear : Forall clear_node two_boxes /\ Forall clear_edge one_arrow.
Proof.
  unfold clear_node, clear_edge, clear. split; repeat (apply Forall_cons || apply Forall_nil); cbn [z_id z_color z_node x_name x_type x_shapes x_params y_source y_target y_label];
  repeat split; apply none_in; reflexivity.
Qed.
Example two_boxes_shown :
  texts_after "br" (html_content true false two_boxes one_arrow) =
    ["ID: a" ++ String (ascii_of_nat 10) ""; "ID: b" ++ String (ascii_of_nat 10) ""; "Input shapes: {'x': (10, 3)}"]%string /\
  texts_after "div class=""edge""" (html_content true false two_boxes one_arrow) = ["a → b [data (10, 3)]"]%string /\
  texts_after "h2" (html_content true false two_boxes one_arrow) = ["Nodes (2)"; "Edges (1)"].
Proof. vm_compute. repeat split. Qed.
