(** Model of the html page of /repo/src/wax/flax/visualization/computation_graph.py 464-473 and 570-629, character by character.
    Simplified: what Python prints for the dictionaries of a node is a given text, empty when the dictionary is empty; writing
    the page to a file is left out. *)
From Coq Require Import String Ascii List Bool Arith.
From Verif Require Import Model.FlaxOptim Model.Graph Model.Dot Model.GraphText.
Import ListNotations.
Local Open Scope string_scope.
Local Open Scope list_scope.

(** The texts one after the other: the successive html += of the source *)
Definition joined (l : list string) : string := fold_right String.append "" l.
(** A node is its identifier, its color and what a [tnode] has. *)
Record hnode := HNode { z_id : string; z_color : string; z_node : tnode }.
(** 574-599 *)
Definition html_head (nodes : nat) : string := joined [
"
<!DOCTYPE html>
<html>
<head>
    <title>WAX-ML Pipeline Visualization</title>
    <style>
        body { font-family: Arial, sans-serif; margin: 20px; }
        .node {
            border: 2px solid #333;
            margin: 10px;
            padding: 10px;
            border-radius: 5px;
            display: inline-block;
            background-color: #f0f0f0;
        }
        .edge { margin: 5px 0; color: #666; }
        h1 { color: #333; }
        h2 { color: #666; }
    </style>
</head>
<body>
    <h1>WAX-ML Streaming Pipeline</h1>

    <h2>Nodes ("; str_of_nat nodes; ")</h2>
    <div>
"].
(** 601-611 *)
Definition html_node (shapes params : bool) (h : hnode) : string :=
  let n := z_node h in joined (["
        <div class=""node"" style=""background-color: "; z_color h; "20;"">
            <strong>"; x_name n; "</strong> ("; x_type n; ")
            <br>ID: "; z_id h; "
"]
  ++ (if shapes && negb (String.eqb (x_shapes n) "") then ["<br>Input shapes: "; x_shapes n] else [])
  ++ (if params && negb (String.eqb (x_params n) "") then ["<br>Parameters: "; x_params n] else [])
  ++ ["</div>"]).
(** 613-618 *)
Definition html_mid (edges : nat) : string := joined ["
    </div>

    <h2>Edges ("; str_of_nat edges; ")</h2>
    <div>
"].
(** 620-622 *)
Definition html_edge (e : tedge) : string :=
  joined (["<div class=""edge"">"; y_source e; " → "; y_target e] ++ (if String.eqb (y_label e) "" then [] else [" ["; y_label e; "]"]) ++ ["</div>"]).
(** 624-628 *)
Definition html_end : string := "
    </div>
</body>
</html>
".
(** _generate_html_content, 570-629 *)
Definition html_content (shapes params : bool) (nodes : list hnode) (edges : list tedge) : string :=
  joined ([html_head (length nodes)] ++ map (html_node shapes params) nodes ++ [html_mid (length edges)] ++ map html_edge edges ++ [html_end]).
