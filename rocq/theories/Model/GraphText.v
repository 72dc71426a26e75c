(** Model of the choice of a format and of the text rendering of /repo/src/wax/flax/visualization/computation_graph.py 328-356 and
    475-503, the text character by character.  Simplified: what Python prints for the dictionaries of input shapes and of
    parameters of a node is a given text, empty when the dictionary is empty. *)
From Coq Require Import String Ascii List Bool Arith.
From Verif Require Import Model.FlaxOptim Model.Graph Model.Dot.
Import ListNotations.
Local Open Scope string_scope.
Local Open Scope list_scope.

(** PipelineNode, 65-80, and PipelineEdge, 111-123: what the text rendering uses of them *)
Record tnode := TNode { x_name : string; x_type : string; x_shapes : string; x_params : string }.
Record tedge := TEdge { y_source : string; y_target : string; y_label : string }.
(** A renderer: self.nodes, self.edges; add_node 328-331, add_edge 333-336, each returns the renderer *)
Record renderer := Renderer { rd_nodes : list (string * tnode); rd_edges : list tedge }.
Inductive addition := AddNode (id : string) (n : tnode) | AddEdge (e : tedge).
Definition add_one (r : renderer) (a : addition) : renderer :=
  match a with
  | AddNode id n => Renderer (sset id n (rd_nodes r)) (rd_edges r)
  | AddEdge e => Renderer (rd_nodes r) (rd_edges r ++ [e])
  end.
Definition additions (l : list addition) : renderer := fold_left add_one l (Renderer [] []).
(** _render_text, 475-498 *)
Definition text_node (shapes params : bool) (kv : string * tnode) : list string :=
  let '(id, n) := kv in
  [cat ["  "; id; ": "; x_name n; " ("; x_type n; ")"]]
  ++ (if shapes && negb (String.eqb (x_shapes n) "") then [cat ["    Input shapes: "; x_shapes n]] else [])
  ++ (if params && negb (String.eqb (x_params n) "") then [cat ["    Parameters: "; x_params n]] else []).
Definition text_edge (e : tedge) : string :=
  cat ["  "; y_source e; " -> "; y_target e; if String.eqb (y_label e) "" then "" else cat [" ["; y_label e; "]"]].
Definition text_lines (shapes params : bool) (r : renderer) : list string :=
  ["WAX-ML Streaming Pipeline Graph"; "========================================"; ""; "Nodes:"]
  ++ flat_map (text_node shapes params) (rd_nodes r) ++ [""] ++ ["Edges:"] ++ map text_edge (rd_edges r).
Definition text_content (shapes params : bool) (r : renderer) : string := String.concat newline (text_lines shapes params r).
(** render, 338-356: what renders a format, given the libraries that are installed *)
Inductive way := ByDot | ByHtml | ByGraphviz | ByMatplotlib | ByText.
Definition way_of (graphviz matplotlib : bool) (format : string) : way :=
  if String.eqb format "dot" then ByDot
  else if String.eqb format "html" then ByHtml
  else if graphviz && existsb (String.eqb format) ["png"; "svg"; "pdf"] then ByGraphviz
  else if matplotlib then ByMatplotlib
  else ByText.
