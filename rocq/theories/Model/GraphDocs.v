(** Models of the documents that the viewers of /repo/src/wax/flax/visualization/nested_graph_viz.py build from a
    hierarchy: the Graphviz drawing with its nested clusters, the elements given to Cytoscape.js and the
    nodes and links given to D3.js.

    Not modelled: the HTML and JavaScript around these data, the "properties" of the elements (the display of
    parameters and shapes), fonts and layout attributes, files. *)
From Coq Require Import String Ascii List Bool Arith.
From Verif Require Import Model.FlaxOptim Model.Graph.
Import ListNotations.
Local Open Scope list_scope.

(** the colors of NestedGraphConfig, nested_graph_viz.py 108-150, with include_metadata 148 *)
Record style := Style { st_nodes : list (string * string); st_clusters : list string; st_metadata : bool }.
Definition default_style : style :=
  Style [("module", "#4CAF50"); ("function", "#2196F3"); ("buffer", "#FF9800"); ("ewma", "#9C27B0"); ("state", "#607D8B");
         ("input", "#FFC107"); ("output", "#F44336")]%string
        ["#E3F2FD"; "#F3E5F5"; "#E8F5E8"; "#FFF8E1"; "#FCE4EC"; "#F1F8E9"]%string true.
(** self.config.node_colors.get(node.node_type, "#CCCCCC"), nested_graph_viz.py 406, 659, 886 *)
Definition fill_color (st : style) (node_type : string) : string :=
  match sget node_type (st_nodes st) with Some c => c | None => "#CCCCCC"%string end.

(** * Cytoscape *)
Record cyto_node := CyNode { cy_id : string; cy_label : string; cy_type : string; cy_color : string; cy_level : nat;
                             cy_parent : option string }.
Record cyto_edge := CyEdge { ce_id : string; ce_source : string; ce_target : string; ce_type : string }.
(** _convert_to_cytoscape_format, nested_graph_viz.py 651-690: the node elements, then the edges; an empty
    parent id gives no parent.  [elements] has first the nodes, then the edges: the pair stands for their
    concatenation. *)
Definition cytoscape (st : style) (h : hierarchy) : list cyto_node * list cyto_edge :=
  (map (fun kv => CyNode (fst kv) (h_name (snd kv)) (h_type (snd kv)) (fill_color st (h_type (snd kv))) (h_level (snd kv))
                         (match h_parent (snd kv) with Some p => if String.eqb p "" then None else Some p | None => None end)) h,
   flat_map (fun kv => map (fun c => CyEdge (String.append (fst kv) (String.append "_" c)) (fst kv) c "hierarchy") (h_children (snd kv))) h).

(** * D3 *)
Record d3_node := D3Node { dn_id : string; dn_name : string; dn_type : string; dn_level : nat; dn_color : string }.
Record d3_link := D3Link { dl_source : string; dl_target : string; dl_type : string }.
(** _convert_to_d3_format, nested_graph_viz.py 879-903 *)
Definition d3 (st : style) (h : hierarchy) : list d3_node * list d3_link :=
  (map (fun kv => D3Node (fst kv) (h_name (snd kv)) (h_type (snd kv)) (h_level (snd kv)) (fill_color st (h_type (snd kv)))) h,
   flat_map (fun kv => map (fun c => D3Link (fst kv) c "hierarchy") (h_children (snd kv))) h).

(** * Graphviz *)
Record gv_node := GvNode { gn_id : string; gn_label : string; gn_fill : string; gn_shape : string }.
Record gv_frame := GvFrame { gf_name : string; gf_fill : string; gf_label : string }.
(** the body of a graph: nodes and subgraphs *)
Inductive gv_item := GNode (n : gv_node) | GCluster (c : gv_frame) (body : list gv_item).

(** _add_node_to_graph, nested_graph_viz.py 404-426.  [shown id] is the text "k=v, ..." of the parameters of the
    node [id], empty when it has none (then no second line is added). *)
Definition gv_draw_node (st : style) (shown : string -> string) (id : string) (n : hnode) : gv_node :=
  GvNode id
    (if st_metadata st && negb (String.eqb (shown id) ""%string)
     then String.append (h_name n) (String.append "\n" (String.append "(" (String.append (shown id) ")")))%string
     else h_name n)
    (fill_color st (h_type n)) (if String.eqb (h_type n) "module" then "box"%string else "ellipse"%string).

(** _render_hierarchy_recursive, nested_graph_viz.py 367-402.  The recursion goes one level down at a time;
    [None]: deeper than [fuel] levels.  With no cluster color the code divides by zero; here the color is then
    empty. *)
Fixpoint gv_body (fuel : nat) (st : style) (shown : string -> string) (h : hierarchy) (parent : option string) (level : nat)
  : option (list gv_item) :=
  match fuel with
  | 0 => None
  | S f =>
      let same := fun n => match h_parent n, parent with
                           | None, None => true
                           | Some a, Some b => String.eqb a b
                           | _, _ => false
                           end && Nat.eqb (h_level n) level in
      fold_left (fun acc kv =>
                   match acc with
                   | None => None
                   | Some items =>
                       match h_children (snd kv) with
                       | [] => Some (items ++ [GNode (gv_draw_node st shown (fst kv) (snd kv))])
                       | _ => match gv_body f st shown h (Some (fst kv)) (level + 1) with
                              | Some sub =>
                                  Some (items ++ [GCluster (GvFrame (String.append "cluster_" (fst kv))
                                                                    (nth (level mod length (st_clusters st)) (st_clusters st) ""%string) (h_name (snd kv)))
                                                           (GNode (gv_draw_node st shown (fst kv) (snd kv)) :: sub)])
                              | None => None
                              end
                       end
                   end) (filter (fun kv => same (snd kv)) h) (Some [])
  end.
(** render_hierarchical_graph, nested_graph_viz.py 324-365: the clusters and nodes, then the dashed edges *)
Definition gv_document (fuel : nat) (st : style) (shown : string -> string) (h : hierarchy)
  : option (list gv_item * list (string * string)) :=
  match gv_body fuel st shown h None 0 with
  | Some body => Some (body, graphviz_edges h)
  | None => None
  end.
