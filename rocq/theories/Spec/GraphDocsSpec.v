(** Vocabulary for the claims on the documents drawn from a hierarchy. *)
From Coq Require Import String List.
From Verif Require Import Model.Graph Model.GraphDocs Spec.GraphSpec.
Import ListNotations.
Local Open Scope list_scope.

(** The ancestors of a node, from a root down to the node itself. *)
Inductive trail (h : hierarchy) : string -> list string -> Prop :=
| tr_root x : is_root h x -> trail h x [x]
| tr_child x p l : parent_in h x p -> trail h p l -> trail h x (l ++ [x]).

(** [shows items path n]: the node [n] is drawn in [items] inside exactly the clusters [path], outermost first. *)
Inductive shows : list gv_item -> list gv_frame -> gv_node -> Prop :=
| sh_node items n : In (GNode n) items -> shows items [] n
| sh_in items c body path n : In (GCluster c body) items -> shows body path n -> shows items (c :: path) n.

(** All the nodes drawn, in order. *)
Fixpoint all_nodes (i : gv_item) : list gv_node :=
  match i with
  | GNode n => [n]
  | GCluster _ body => flat_map all_nodes body
  end.

(** Two elements of a Cytoscape document get the same id: the edge from the parent [p] of [c], named p_c, and a
    node of that name, or two such edges. *)
Definition clash (nodes : list (string * node)) : Prop :=
  exists c p, In c (map fst nodes) /\ named_parent nodes c (Some p) /\
    (In (String.append p (String.append "_" c)) (map fst nodes) \/
     exists c' p', In c' (map fst nodes) /\ named_parent nodes c' (Some p') /\ c <> c' /\
       String.append p (String.append "_" c) = String.append p' (String.append "_" c')).

(** The colors of the nodes by class. *)
Definition class_colors : list (string * string) :=
  [("module", "#4CAF50"); ("function", "#2196F3"); ("buffer", "#FF9800"); ("ewma", "#9C27B0"); ("state", "#607D8B");
   ("unknown", "#CCCCCC"); ("cluster", "#CCCCCC")]%string.
