(** Model of the drawing by matplotlib of /repo/src/wax/flax/visualization/computation_graph.py 394-462.  Simplified: positions
    are real numbers; the layout of networkx is any function from the nodes of the graph to positions; of the drawing, the boxes,
    names and arrows. *)
From Coq Require Import String List Bool Reals.
Import ListNotations.
Local Open Scope string_scope.
Local Open Scope list_scope.

(** What the drawing uses of PipelineNode, 65-80, and of PipelineEdge, 111-123 *)
Record dnode := DNode { d_id : string; d_name : string; d_color : string }.
Record dedge := DEdge { e_source : string; e_target : string; e_label : string; e_color : string }.
(** G.add_node, 403-407, and G.add_edge, 410-411, which adds the ends that are new: the nodes of the networkx graph, in order *)
Definition put (id : string) (l : list string) : list string := if existsb (String.eqb id) l then l else l ++ [id].
Definition graph_nodes (nodes : list dnode) (edges : list dedge) : list string :=
  fold_left (fun l e => put (e_target e) (put (e_source e) l)) edges (fold_left (fun l n => put (d_id n) l) nodes []).
Inductive mark := MBox (x y width height : R) (color : string) | MName (x y : R) (name : string) | MArrow (x1 y1 x2 y2 : R) (color : string).
(** 420-433: pos[node_id] raises for an unknown node *)
Fixpoint draw_nodes (pos : string -> option (R * R)) (l : list dnode) : option (list mark) :=
  match l with
  | [] => Some []
  | n :: r => match pos (d_id n), draw_nodes pos r with
              | Some (x, y), Some m => Some (MBox (x - 1/10) (y - 1/20) (2/10) (1/10) (d_color n) :: MName x y (d_name n) :: m)%R
              | _, _ => None
              end
  end.
(** 436-446 *)
Definition draw_edge (pos : string -> option (R * R)) (e : dedge) : list mark :=
  match pos (e_source e), pos (e_target e) with
  | Some (x1, y1), Some (x2, y2) => [MArrow x1 y1 x2 y2 (e_color e)]
  | _, _ => []
  end.
(** _render_matplotlib, 394-446; spring_layout, 414, is [layout] *)
Definition draw_graph (layout : list string -> string -> option (R * R)) (nodes : list dnode) (edges : list dedge) : option (list mark) :=
  let pos := layout (graph_nodes nodes edges) in
  option_map (fun m => m ++ flat_map (draw_edge pos) edges) (draw_nodes pos nodes).
