(** C98-C99: computation graphs and their hierarchies. *)
From Coq Require Import String Ascii List Bool Arith Permutation.
From Verif Require Import Model.FlaxOptim Model.Graph Spec.GraphSpec Proofs.GraphProofs Proofs.GraphProofs2 Proofs.GraphProofs6 Proofs.GraphProofs7.
From Verif Require Model.Debug.
Import ListNotations.
Local Open Scope list_scope.

(** ** C98 *)
(** The graph of a transformed function has the node [main] and one node for each outermost dictionary of
    parameters, whose id is the dotted path; nothing else.  A module at the path [main] is replaced by the function. *)
Theorem C98_nodes (name : string) (ps : list (string * param)) : well_named (PSub ps) ->
  let g := analyze (Transformed name ps) empty_graph in
  NoDup (map fst (g_nodes g)) /\
  forall id n, In (id, n) (g_nodes g) <->
    (id = "main"%string /\ n = Node name "StreamingFunction") \/
    (id <> "main"%string /\ exists path k d, id = dotted (path ++ [k]) /\ module_at ps (path ++ [k]) d /\ n = Node k (infer_module_type k d)).
Proof. exact (@graph_nodes_exact name ps). Qed.
(** The type given to a module is that of the first line of the table that applies. *)
Theorem C98_type (name : string) (d : list (string * param)) :
  (exists before r after, type_table = before ++ r :: after /\ rule_applies (Debug.lower name) d r /\
     (forall r', In r' before -> ~ rule_applies (Debug.lower name) d r') /\ infer_module_type name d = r_type r) \/
  ((forall r, In r type_table -> ~ rule_applies (Debug.lower name) d r) /\ infer_module_type name d = "Module"%string).
Proof. exact (@infer_type_spec name d). Qed.
(** Refuted: "the edges show how the modules are nested or connected".  There is no edge at all. *)
Theorem C98_edges_refuted (name : string) (ps : list (string * param)) : well_named (PSub ps) ->
  g_edges (analyze (Transformed name ps) empty_graph) = [].
Proof. exact (@graph_no_edges name ps). Qed.
(** Refuted: "every module is a node".  A module nested in a module that has parameters of its own is not shown. *)
Theorem C98_nested_refuted (name : string) (ps : list (string * param)) (path : list string) (d : list (string * param)) (q : list string) :
  well_named (PSub ps) -> module_at ps path d -> q <> [] -> Forall plain_key q ->
  ~ In (dotted (path ++ q)) (map fst (g_nodes (analyze (Transformed name ps) empty_graph))).
Proof. exact (@graph_hidden name ps path d q). Qed.
(** Refuted: "the graph is that of the function last analyzed".  The nodes of earlier ones remain. *)
Theorem C98_reuse_refuted (t : target) (ts : list target) (g : graph) (x : string) :
  In x (map fst (g_nodes (analyze t g))) -> In x (map fst (g_nodes (fold_left (fun g t => analyze t g) ts (analyze t g)))).
Proof. exact (@analyze_accumulates t ts g x). Qed.
(** Any other callable is a single node. *)
Theorem C98_plain_function (name : string) (g : graph) :
  g_nodes (analyze (Plain name) empty_graph) = [("main"%string, Node name "Function")] /\ g_edges (analyze (Plain name) g) = g_edges g.
Proof. exact (@analyze_plain_function name g). Qed.

Module DemoGraph.
  Open Scope string_scope.
  Definition ps : list (string * param) :=
    [("enc", PSub [("l1", PSub [("kernel", PVal); ("bias", PVal)]); ("fast_ewma", PSub [("logcom", PVal)])]);
     ("head", PSub [("bias", PVal); ("inner", PSub [("kernel", PVal)])]); ("offset", PVal)].
  Example C98_example : well_named (PSub ps) /\ module_at ps ["enc"; "l1"] [("kernel", PVal); ("bias", PVal)] /\
    g_nodes (analyze (Transformed "model" ps) empty_graph)
    = [("enc.l1", Node "l1" "Dense"); ("enc.fast_ewma", Node "fast_ewma" "EWMA"); ("head", Node "head" "Module"); ("main", Node "model" "StreamingFunction")] /\
    module_at ps ["head"] [("bias", PVal); ("inner", PSub [("kernel", PVal)])] /\
    map fst (g_nodes (analyze (Plain "f") (analyze (Transformed "model" ps) empty_graph))) = ["enc.l1"; "enc.fast_ewma"; "head"; "main"].
  Proof.
    assert (PK : forall k, In k ["enc"; "l1"; "kernel"; "bias"; "fast_ewma"; "logcom"; "head"; "inner"; "offset"] -> plain_key k).
    { intros k I. cbn in I. repeat (destruct I as [<-|I]; [split; [discriminate|cbn; intuition discriminate]|]). destruct I. }
    split; [|split; [|split; [reflexivity|split; [|reflexivity]]]].
    - unfold ps. constructor; [repeat constructor; cbn; intuition discriminate|].
      intros k v I. cbn in I. destruct I as [I|[I|[I|[]]]]; injection I as <- <-; (split; [apply PK; cbn; tauto|]).
      + constructor; [repeat constructor; cbn; intuition discriminate|]. intros k v I. cbn in I.
        destruct I as [I|[I|[]]]; injection I as <- <-; (split; [apply PK; cbn; tauto|]); (constructor; [repeat constructor; cbn; intuition discriminate|]);
          intros k v I; cbn in I; repeat (destruct I as [I|I]; [injection I as <- <-; split; [apply PK; cbn; tauto|constructor]|]); destruct I.
      + constructor; [repeat constructor; cbn; intuition discriminate|]. intros k v I. cbn in I.
        destruct I as [I|[I|[]]]; injection I as <- <-; (split; [apply PK; cbn; tauto|]); [constructor|]. constructor; [repeat constructor; cbn; intuition discriminate|].
        intros k v I; cbn in I; destruct I as [I|[]]; injection I as <- <-; split; [apply PK; cbn; tauto|constructor].
      + constructor.
    - exists "enc", (PSub [("l1", PSub [("kernel", PVal); ("bias", PVal)]); ("fast_ewma", PSub [("logcom", PVal)])]), ["l1"].
      split; [reflexivity|]. split; [left; reflexivity|]. eapply om_sub; [|left; reflexivity|].
      + intros (k & I & J). cbn in J. destruct J as [<-|[<-|[]]]; cbn in I; intuition discriminate.
      + constructor. exists "kernel". split; left; reflexivity.
    - exists "head", (PSub [("bias", PVal); ("inner", PSub [("kernel", PVal)])]), []. split; [reflexivity|]. split; [right; left; reflexivity|].
      constructor. exists "bias". split; [right; right; left; reflexivity|left; reflexivity].
  Qed.
End DemoGraph.
Print Assumptions C98_nodes. Print Assumptions C98_type. Print Assumptions C98_edges_refuted. Print Assumptions C98_nested_refuted.
Print Assumptions C98_reuse_refuted. Print Assumptions C98_plain_function. Print Assumptions DemoGraph.C98_example.

(** ** C99 *)
(** The analysis ends, whatever the nodes. *)
Theorem C99_ends (cluster : bool) (min_nodes : nat) (nodes : list (string * node)) : usual_ids nodes ->
  exists N r, forall fuel, N <= fuel -> analyze_hierarchy fuel cluster min_nodes nodes = Some r.
Proof. exact (@analyze_total cluster min_nodes nodes). Qed.
(** The hierarchy is a forest: the level of a node is the number of its ancestors, its children are the nodes
    whose parent it is, and every parent is in the hierarchy. *)
Theorem C99_forest (fuel : nat) (cluster : bool) (min_nodes : nat) (nodes : list (string * node)) (h : hierarchy) (levels : list (nat * list string)) :
  usual_ids nodes -> analyze_hierarchy fuel cluster min_nodes nodes = Some (h, levels) ->
  NoDup (map fst h) /\
  forall x n, In (x, n) h -> depth_in h x (h_level n) /\ h_children n = ids_where (has_parent x) h /\
                             (forall p, h_parent n = Some p -> In p (map fst h)).
Proof. exact (@analyze_structure fuel cluster min_nodes nodes h levels). Qed.
(** The dictionary of levels lists each node once, under its level, and the maximal level is attained. *)
Theorem C99_levels (fuel : nat) (cluster : bool) (min_nodes : nat) (nodes : list (string * node)) (h : hierarchy) (levels : list (nat * list string)) :
  usual_ids nodes -> analyze_hierarchy fuel cluster min_nodes nodes = Some (h, levels) ->
  NoDup (map fst levels) /\
  (forall k l, In (k, l) levels -> l <> [] /\ Permutation l (ids_where (fun n => Nat.eqb (h_level n) k) h)) /\
  (forall x n, In (x, n) h -> In (h_level n) (map fst levels) /\ h_level n <= max_level levels) /\
  (nodes <> [] -> exists x n, In (x, n) h /\ h_level n = max_level levels).
Proof. exact (@analyze_levels fuel cluster min_nodes nodes h levels). Qed.
(** Without clustering the nodes are those of the graph, in order, with the parents their names give them. *)
Theorem C99_parents (fuel min_nodes : nat) (nodes : list (string * node)) (h : hierarchy) (levels : list (nat * list string)) :
  usual_ids nodes -> analyze_hierarchy fuel false min_nodes nodes = Some (h, levels) ->
  map fst h = map fst nodes /\
  forall x n, In (x, n) h -> exists m, In (x, m) nodes /\ h_name n = n_name m /\ class_of (n_type m) (h_type n) /\ named_parent nodes x (h_parent n).
Proof. exact (@analyze_plain fuel min_nodes nodes h levels). Qed.
(** With clustering, the parents given by names stay; the nodes without parent are put under the cluster of
    their class exactly when there are enough of them; a cluster holds all of these and nothing else. *)
Theorem C99_clusters (fuel min_nodes : nat) (nodes : list (string * node)) (h : hierarchy) (levels : list (nat * list string)) :
  usual_ids nodes -> analyze_hierarchy fuel true min_nodes nodes = Some (h, levels) ->
  (forall x, In x (map fst nodes) -> In x (map fst h)) /\
  (forall x n, In (x, n) h -> In x (map fst nodes) ->
     exists m p, In (x, m) nodes /\ h_name n = n_name m /\ class_of (n_type m) (h_type n) /\ named_parent nodes x p /\
       match p with
       | Some _ => h_parent n = p
       | None => exists l, loose nodes (h_type n) l /\
                   match h_parent n with
                   | Some c => ~ In c (map fst nodes) /\ min_nodes <= length l /\
                               exists cn, In (c, cn) h /\ h_name cn = String.append (title (h_type n)) " Components" /\ h_children cn = l
                   | None => length l < min_nodes
                   end
       end) /\
  (forall c n, In (c, n) h -> ~ In c (map fst nodes) ->
     h_type n = "cluster"%string /\ h_parent n = None /\ h_children n <> [] /\ min_nodes <= length (h_children n) /\
     exists ty, loose nodes ty (h_children n) /\ h_name n = String.append (title ty) " Components").
Proof. exact (@analyze_clustered fuel min_nodes nodes h levels). Qed.
(** The label of a cluster is the class with its first letter in upper case. *)
Theorem C99_cluster_label : forall s, title s = titled s.
Proof. exact title_titled. Qed.
Print Assumptions C99_cluster_label.
(** The Graphviz rendering draws every node exactly once. *)
Theorem C99_drawn_once (fuel : nat) (cluster : bool) (min_nodes : nat) (nodes : list (string * node)) (h : hierarchy) (levels : list (nat * list string)) :
  usual_ids nodes -> analyze_hierarchy fuel cluster min_nodes nodes = Some (h, levels) ->
  exists N, forall fuel', N <= fuel' -> exists out, drawn fuel' h None 0 = Some out /\ Permutation out (map fst h).
Proof. exact (@analyze_drawn fuel cluster min_nodes nodes h levels). Qed.
(** The three renderings have one edge from each parent to each of its children, and no other. *)
Theorem C99_edges (fuel : nat) (cluster : bool) (min_nodes : nat) (nodes : list (string * node)) (h : hierarchy) (levels : list (nat * list string)) :
  usual_ids nodes -> analyze_hierarchy fuel cluster min_nodes nodes = Some (h, levels) ->
  NoDup (hierarchy_edges h) /\ (forall p c, In (p, c) (hierarchy_edges h) <-> parent_in h c p) /\ graphviz_edges h = hierarchy_edges h.
Proof. exact (@analyze_edges fuel cluster min_nodes nodes h levels). Qed.
(** The summary counts the nodes, by class and by level. *)
Theorem C99_summary (h : hierarchy) (levels : list (nat * list string)) : let s := hierarchy_summary (h, levels) in
  sm_total s = length h /\ sm_max s = max_level levels /\
  NoDup (map fst (sm_types s)) /\ (forall t n, In (t, n) (sm_types s) <-> n = how_many (fun m => String.eqb (h_type m) t) h /\ n <> 0) /\
  NoDup (map fst (sm_per_level s)) /\ (forall k n, In (k, n) (sm_per_level s) <-> n = how_many (fun m => Nat.eqb (h_level m) k) h /\ n <> 0).
Proof. exact (@summary_spec h levels). Qed.
(** The nodes of an analyzed function are such. *)
Theorem C99_analyzed (name : string) (ps : list (string * param)) : well_named (PSub ps) ->
  (forall k v, In (k, v) ps -> ~ exists s, k = String.append "cluster_" s) ->
  usual_ids (g_nodes (analyze (Transformed name ps) empty_graph)).
Proof. exact (@analyzed_usual name ps). Qed.
(** Refuted: "the hierarchy shows which module holds which".  In the graph of a function, the part of an id that
    precedes its last dot is never a node, but for [main]. *)
Theorem C99_nesting_refuted (name : string) (ps : list (string * param)) (id p : string) : well_named (PSub ps) ->
  In id (map fst (g_nodes (analyze (Transformed name ps) empty_graph))) ->
  dot_parent (g_nodes (analyze (Transformed name ps) empty_graph)) id p -> p = "main"%string.
Proof. exact (@dot_parent_main name ps id p). Qed.
(** Refuted: "a node without a dot in its id has no parent".  It has one as soon as the id of a node of type
    Module begins its own: layer10 is under layer1. *)
Theorem C99_prefix_refuted (fuel min_nodes : nat) (nodes : list (string * node)) (h : hierarchy) (levels : list (nat * list string))
  (x : string) (n : hnode) (p : string) :
  usual_ids nodes -> analyze_hierarchy fuel false min_nodes nodes = Some (h, levels) -> In (x, n) h -> begins nodes x p -> h_parent n <> None.
Proof. exact (@prefix_not_root fuel min_nodes nodes h levels x n p). Qed.

Module DemoHierarchy.
  Open Scope string_scope.
  Definition nodes : list (string * node) :=
    [("layer1", Node "layer1" "Module"); ("layer10", Node "layer10" "Dense"); ("layer10.e", Node "e" "EWMA");
     ("a", Node "a" "EWMA"); ("b", Node "b" "EWMA"); ("main", Node "f" "StreamingFunction")].
  Definition h : hierarchy :=
    [("layer1", HNode "layer1" "module" 0 None ["layer10"]); ("layer10", HNode "layer10" "unknown" 1 (Some "layer1") ["layer10.e"]);
     ("layer10.e", HNode "e" "ewma" 2 (Some "layer10") []); ("a", HNode "a" "ewma" 1 (Some "cluster_ewma_0") []);
     ("b", HNode "b" "ewma" 1 (Some "cluster_ewma_0") []); ("main", HNode "f" "function" 0 None []);
     ("cluster_ewma_0", HNode "Ewma Components" "cluster" 0 None ["a"; "b"])].
  Example C99_example : usual_ids nodes /\
    analyze_hierarchy 20 true 2 nodes = Some (h, [(0, ["layer1"; "main"; "cluster_ewma_0"]); (1, ["layer10"; "a"; "b"]); (2, ["layer10.e"])]) /\
    drawn 10 h None 0 = Some ["layer1"; "layer10"; "layer10.e"; "main"; "cluster_ewma_0"; "a"; "b"] /\
    (exists h' levels, analyze_hierarchy 20 false 2 nodes = Some (h', levels) /\ begins nodes "layer10" "layer1") /\
    sm_types (hierarchy_summary (h, [])) = [("module", 1); ("unknown", 1); ("ewma", 3); ("function", 1); ("cluster", 1)].
  Proof.
    split; [|split; [reflexivity|split; [reflexivity|split; [|reflexivity]]]].
    - split; [repeat constructor; cbn; intuition discriminate|]. intros x I. cbn in I.
      repeat (destruct I as [<-|I]; [split; [discriminate|intros (s & E); discriminate E]|]). destruct I.
    - eexists. eexists. split; [reflexivity|]. exists (Node "layer1" "Module"), "0". split; [left; reflexivity|]. split; [reflexivity|]. split; [reflexivity|discriminate].
  Qed.
  (** With a module whose id is that of a cluster, the module is lost. *)
  Example C99_collision_example : exists h levels,
    analyze_hierarchy 20 true 1 [("cluster_function_1", Node "mine" "EWMA"); ("main", Node "f" "Function")] = Some (h, levels) /\
    map (fun kv => h_name (snd kv)) h = ["Function Components"; "f"; "Ewma Components"].
  Proof. eexists. eexists. split; reflexivity. Qed.
End DemoHierarchy.
Print Assumptions C99_ends. Print Assumptions C99_forest. Print Assumptions C99_levels. Print Assumptions C99_parents. Print Assumptions C99_clusters.
Print Assumptions C99_drawn_once. Print Assumptions C99_edges. Print Assumptions C99_summary. Print Assumptions C99_analyzed. Print Assumptions C99_nesting_refuted.
Print Assumptions C99_prefix_refuted. Print Assumptions DemoHierarchy.C99_example. Print Assumptions DemoHierarchy.C99_collision_example.
