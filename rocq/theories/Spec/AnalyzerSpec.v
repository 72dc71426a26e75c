(** What the calls of an analyzer return, in terms of the analysis of one function (C99). *)
From Coq Require Import String List Bool Arith.
From Verif Require Import Model.FlaxOptim Model.Graph Model.GraphDocs Model.AnalyzerSession Spec.GraphSpec.
Import ListNotations.
Local Open Scope string_scope.
Local Open Scope list_scope.

(** The functions of these calls have graphs with usual ids. *)
Definition usual_uses (l : list use) : Prop := forall u, In u l -> usual_ids (g_nodes (analyze (use_target u) empty_graph)).
(** The analysis of the function of a call, made alone, gives the hierarchy [h] and the levels [lv]. *)
Definition alone (fuel : nat) (cluster : bool) (min : nat) (u : use) (h : hierarchy) (lv : list (nat * list string)) : Prop :=
  analyze_hierarchy fuel cluster min (g_nodes (analyze (use_target u) empty_graph)) = Some (h, lv).
(** [g] is what a call made alone returns. *)
Definition answers (st : style) (fuel : nat) (cluster : bool) (min : nat) (u : use) (g : given) : Prop :=
  exists h lv, alone fuel cluster min u h lv /\
    match u with
    | UAnalyze _ => g = GDict
    | USummary _ => g = GSummary (hierarchy_summary (h, lv))
    | UDocument _ b => (b = "graphviz" -> g = GFile h) /\ (b = "cytoscape" -> g = GCyto (cytoscape st h)) /\
                       (b = "d3" -> g = GD3 (d3 st h)) /\ (~ In b ["graphviz"; "cytoscape"; "d3"] -> g = GUnknown)
    end.
(** [g] holds the dictionary of the analyzer. *)
Definition holds_dict (g : given) : Prop := g = GDict \/ exists s, g = GSummary s.
