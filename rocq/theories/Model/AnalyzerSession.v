(** Model of a HierarchicalGraphAnalyzer and of a NestedGraphVisualizer used several times,
    /repo/src/wax/flax/visualization/nested_graph_viz.py 148-186 and 907-1010.  The analyzer has one dictionary of nodes and
    one of levels, cleared and filled again by each analysis (172-186); what analyze_streaming_function returns is that
    dictionary itself.  The analysis of one function is Model/Graph.v, the documents Model/GraphDocs.v (the graphviz backend,
    which writes a file, is not modelled here). *)
From Coq Require Import String List Bool Arith.
From Verif Require Import Model.FlaxOptim Model.Graph Model.GraphDocs.
Import ListNotations.
Local Open Scope string_scope.
Local Open Scope list_scope.

(** self.hierarchy and self.levels, 151-154 *)
Definition analyzer : Type := hierarchy * list (nat * list string).
Definition new_analyzer : analyzer := ([], []).
(** analyze_streaming_function, 156-186; summary, 982-1010; visualize_computation_graph, 917-955 *)
Inductive use := UAnalyze (t : target) | USummary (t : target) | UDocument (t : target) (backend : string).
(** What a call returns.  [GDict]: the dictionary of the analyzer. [GSummary]: the counters, and the same dictionary under the
    key hierarchy.  [GFile]: the path of a drawing of the nodes (render_hierarchical_graph, not modelled).  [GUnknown]: ValueError,
    955, raised when the analysis has been made. *)
Inductive given := GDict | GSummary (s : summary) | GCyto (d : list cyto_node * list cyto_edge) | GD3 (d : list d3_node * list d3_link)
                 | GFile (h : hierarchy) | GUnknown.
Definition use_target (u : use) : target := match u with UAnalyze t | USummary t | UDocument t _ => t end.
(** The nodes of a function: each analysis makes a renderer of its own, 169-170 *)
Definition nodes_of (t : target) : list (string * node) := g_nodes (analyze t empty_graph).
(** self.hierarchy.clear(), self.levels.clear(), 172-174 *)
Definition cleared (a : analyzer) : analyzer := ([], []).
(** _extract_hierarchy_from_nodes, 188-217, writing into the dictionary [h]; _auto_cluster_nodes, 258-288; _assign_hierarchy_levels,
    290-307, appending to the dictionary of levels [lv] *)
Definition fill (h : hierarchy) (nodes : list (string * node)) : hierarchy :=
  link_children (fold_left (fun acc kv => sset (fst kv) (snd kv) acc) (hierarchy_of_nodes nodes) h).
Definition analyze_into (fuel : nat) (cluster : bool) (min_nodes : nat) (a : analyzer) (nodes : list (string * node)) : option analyzer :=
  let h := fill (fst a) nodes in
  let h2 := if cluster then auto_cluster min_nodes h else h in
  level_loop fuel (map (fun id => (id, 0)) (roots h2)) h2 (snd a).
Section Session.
  Variables (st : style) (fuel : nat) (cluster : bool) (min_nodes : nat).
  Definition use_step (a : analyzer) (u : use) : option (analyzer * given) :=
    match analyze_into fuel cluster min_nodes (cleared a) (nodes_of (use_target u)) with
    | None => None
    | Some a =>
        Some (a, match u with
                 | UAnalyze _ => GDict
                 | USummary _ => GSummary (hierarchy_summary a)
                 | UDocument _ b => if String.eqb b "graphviz" then GFile (fst a)
                                    else if String.eqb b "cytoscape" then GCyto (cytoscape st (fst a))
                                    else if String.eqb b "d3" then GD3 (d3 st (fst a)) else GUnknown
                 end)
    end.
  (** A sequence of calls: the analyzer at the end, and what each call returned. *)
  Fixpoint session (a : analyzer) (l : list use) : option (analyzer * list given) :=
    match l with
    | [] => Some (a, [])
    | u :: r => match use_step a u with
                | None => None
                | Some (a1, g) => match session a1 r with None => None | Some (a2, gs) => Some (a2, g :: gs) end
                end
    end.
End Session.
(** What one reads in a returned value when the analyzer is in the state [a]: the dictionary it holds, if it holds one. *)
Definition read_dict (a : analyzer) (g : given) : option hierarchy :=
  match g with GDict | GSummary _ => Some (fst a) | _ => None end.
