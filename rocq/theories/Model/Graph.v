(** Models of /repo/src/wax/flax/visualization/computation_graph.py (the graph extracted from a streaming
    function) and nested_graph_viz.py (the hierarchy built on that graph).

    Not modelled here: rendering (DOT is in Model/Dot.v; HTML, matplotlib, Graphviz, D3), colors, the display of parameters and of
    shapes, and the fallbacks taken when a user function raises. *)
From Coq Require Import String Ascii List Bool Arith Decimal DecimalString.
From Verif Require Import Model.FlaxOptim.
From Verif Require Model.Debug.
Import ListNotations.
Local Open Scope list_scope.

(** A tree of Flax parameters: nested dictionaries, in insertion order, with arrays at the leaves. *)
Inductive param := PVal | PSub (d : list (string * param)).

Definition mem_key {A : Type} (k : string) (d : list (string * A)) : bool :=
  match sget k d with Some _ => true | None => false end.

(** PipelineNode, computation_graph.py 65-80 (the id is the key in renderer.nodes) and PipelineEdge 111-123 *)
Record node := Node { n_name : string; n_type : string }.
Record edge := Edge { e_source : string; e_target : string; e_label : string }.
Record graph := Graph { g_nodes : list (string * node); g_edges : list edge }.
Definition empty_graph : graph := Graph [] [].

(** ["word" in str(params)]: the text of a dictionary holds the names of its keys, at any depth, between
    quotes; the texts of arrays hold digits, brackets and dtypes, and none of the words looked for. *)
Fixpoint mentions (word : string) (p : param) : bool :=
  match p with
  | PVal => false
  | PSub d => existsb (fun kv => Debug.contains word (fst kv) || mentions word (snd kv)) d
  end.

(** _infer_module_type, computation_graph.py 263-281 *)
Definition infer_module_type (name : string) (params : list (string * param)) : string :=
  let l := Debug.lower name in
  if Debug.contains "ewma" l || mem_key "alpha" params || mem_key "logcom" params then "EWMA"%string
  else if Debug.contains "buffer" l || mentions "maxlen" (PSub params) then "Buffer"%string
  else if Debug.contains "attention" l || mentions "num_heads" (PSub params) then "AttentionBasedStateSelector"%string
  else if Debug.contains "hierarchical" l || Debug.contains "state_machine" l then "HierarchicalStateMachine"%string
  else if Debug.contains "composite" l || Debug.contains "composition" l then "CompositeStateManager"%string
  else if mem_key "kernel" params || mem_key "weight" params then "Dense"%string
  else "Module"%string.

(** the keys that make a dictionary a module, computation_graph.py 240-243 *)
Definition marker_keys : list string := ["kernel"; "weight"; "bias"; "alpha"; "scale"; "logcom"; "maxlen"]%string.
Definition looks_like_module (d : list (string * param)) : bool := existsb (fun k => mem_key k d) marker_keys.

(** node_path, computation_graph.py 236 *)
Definition node_path (parent key : string) : string :=
  if String.eqb parent "" then key else String.append parent (String.append "." key).

(** the body of the loop of _extract_modules_from_params, computation_graph.py 235-261 *)
Fixpoint extract_item (parent key : string) (v : param) (g : graph) {struct v} : graph :=
  match v with
  | PVal => g
  | PSub d =>
      let path := node_path parent key in
      if looks_like_module d then
        let nodes := sset path (Node key (infer_module_type key d)) (g_nodes g) in
        Graph nodes (if negb (String.eqb parent "") && mem_key parent nodes
                     then g_edges g ++ [Edge parent path "module"] else g_edges g)
      else fold_left (fun g kv => extract_item path (fst kv) (snd kv) g) d g
  end.

(** _extract_modules_from_params, computation_graph.py 233-261 *)
Definition extract_modules (parent : string) (params : list (string * param)) (g : graph) : graph :=
  fold_left (fun g kv => extract_item parent (fst kv) (snd kv) g) params g.

(** What the renderer is given: a transformed function, whose init returned these parameters, or any other
    callable (computation_graph.py 174-183).  The name is its __name__. *)
Inductive target := Transformed (name : string) (params : list (string * param)) | Plain (name : string).

(** analyze_streaming_function, computation_graph.py 158-190, with _analyze_flax_function 192-231 and
    _create_simple_graph 283-298: nodes and edges are added to those already there *)
Definition analyze (t : target) (g : graph) : graph :=
  match t with
  | Transformed name params =>
      let g1 := extract_modules "" params g in
      Graph (sset "main" (Node name "StreamingFunction") (g_nodes g1)) (g_edges g1)
  | Plain name => Graph (sset "main" (Node name "Function") (g_nodes g)) (g_edges g)
  end.

(** * nested_graph_viz.py *)
(** GraphHierarchy, nested_graph_viz.py 85-104 (properties are not modelled) *)
Record hnode := HNode { h_name : string; h_type : string; h_level : nat; h_parent : option string;
                        h_children : list string }.
Definition hierarchy := list (string * hnode).

(** _classify_node_type, nested_graph_viz.py 219-234 *)
Definition classify (module_type : string) : string :=
  let l := Debug.lower module_type in
  if Debug.contains "ewma" l then "ewma"%string
  else if Debug.contains "buffer" l then "buffer"%string
  else if Debug.contains "state" l then "state"%string
  else if Debug.contains "function" l then "function"%string
  else if Debug.contains "module" l then "module"%string
  else "unknown"%string.

(** ".".join(node_id.split(".")[:-1]) when there is a dot *)
Fixpoint before_last_dot (s : string) : option string :=
  match s with
  | EmptyString => None
  | String c r => match before_last_dot r with
                  | Some p => Some (String c p)
                  | None => if Ascii.eqb c "." then Some EmptyString else None
                  end
  end.

(** _infer_parent_relationship, nested_graph_viz.py 236-256 *)
Definition infer_parent (id : string) (nodes : list (string * node)) : option string :=
  let by_name := option_map fst (find (fun kv => negb (String.eqb (fst kv) id) && String.eqb (n_type (snd kv)) "Module"
                                                 && String.prefix (fst kv) id) nodes) in
  match before_last_dot id with
  | Some p => if mem_key p nodes then Some p else by_name
  | None => by_name
  end.

(** add_child, nested_graph_viz.py 97-100 *)
Definition add_child (child : string) (h : hnode) : hnode :=
  if existsb (String.eqb child) (h_children h) then h
  else HNode (h_name h) (h_type h) (h_level h) (h_parent h) (h_children h ++ [child]).
Definition set_parent (p : string) (h : hnode) : hnode :=
  HNode (h_name h) (h_type h) (h_level h) (Some p) (h_children h).
Definition set_level (l : nat) (h : hnode) : hnode :=
  HNode (h_name h) (h_type h) l (h_parent h) (h_children h).
Definition update_node (k : string) (f : hnode -> hnode) (h : hierarchy) : hierarchy :=
  match sget k h with Some n => sset k (f n) h | None => h end.

(** _extract_hierarchy_from_nodes, nested_graph_viz.py 188-217: one hierarchy node per node, then the
    children; an empty parent id counts as no parent in the second loop *)
Definition hierarchy_of_nodes (nodes : list (string * node)) : hierarchy :=
  map (fun kv => (fst kv, HNode (n_name (snd kv)) (classify (n_type (snd kv))) 0 (infer_parent (fst kv) nodes) [])) nodes.
Definition link_children (h : hierarchy) : hierarchy :=
  fold_left (fun acc kv => match h_parent (snd kv) with
                           | Some p => if negb (String.eqb p "") then update_node p (add_child (fst kv)) acc else acc
                           | None => acc
                           end) h h.
Definition extract_hierarchy (nodes : list (string * node)) : hierarchy := link_children (hierarchy_of_nodes nodes).

(** type_groups, nested_graph_viz.py 261-264: the nodes without parent by type, in order of first appearance *)
Definition type_groups (h : hierarchy) : list (string * list string) :=
  fold_left (fun groups kv => match h_parent (snd kv) with
                              | None => sset (h_type (snd kv))
                                          (match sget (h_type (snd kv)) groups with Some l => l | None => [] end ++ [fst kv]) groups
                              | Some _ => groups
                              end) h [].

(** str(n), str.title() on a lower-case word *)
Definition str_of_nat (n : nat) : string := NilZero.string_of_uint (Nat.to_uint n).
Definition title (s : string) : string :=
  match s with
  | EmptyString => EmptyString
  | String c r => let n := nat_of_ascii c in
                  String (if (97 <=? n) && (n <=? 122) then ascii_of_nat (n - 32) else c) r
  end.
Definition cluster_name (node_type : string) (i : nat) : string :=
  String.append "cluster_" (String.append node_type (String.append "_" (str_of_nat i))).

(** the loop of _auto_cluster_nodes, nested_graph_viz.py 266-288 *)
Definition cluster_group (min_nodes : nat) (st : hierarchy * nat) (group : string * list string) : hierarchy * nat :=
  let '(h, i) := st in
  let '(ty, ids) := group in
  if min_nodes <=? length ids then
    let name := cluster_name ty i in
    let h1 := sset name (HNode (String.append (title ty) " Components") "cluster" 0 None []) h in
    (fold_left (fun h id => update_node name (add_child id) (update_node id (set_parent name) h)) ids h1, i + 1)
  else (h, i).
Definition auto_cluster (min_nodes : nat) (h : hierarchy) : hierarchy :=
  fst (fold_left (cluster_group min_nodes) (type_groups h) (h, 0)).

(** _assign_hierarchy_levels, nested_graph_viz.py 290-307.  self.levels is the association list from levels
    to ids.  The loop runs until the queue is empty: [None] means that it has not stopped after [fuel] turns. *)
Definition nget {A : Type} (k : nat) (d : list (nat * A)) : option A :=
  option_map snd (find (fun kv => Nat.eqb (fst kv) k) d).
Fixpoint nset {A : Type} (k : nat) (v : A) (d : list (nat * A)) : list (nat * A) :=
  match d with
  | [] => [(k, v)]
  | (k', v') :: r => if Nat.eqb k' k then (k, v) :: r else (k', v') :: nset k v r
  end.
Fixpoint level_loop (fuel : nat) (queue : list (string * nat)) (h : hierarchy) (levels : list (nat * list string))
  : option (hierarchy * list (nat * list string)) :=
  match queue with
  | [] => Some (h, levels)
  | (id, l) :: rest =>
      match fuel with
      | 0 => None
      | S f =>
          match sget id h with
          | Some n => level_loop f (rest ++ map (fun c => (c, l + 1)) (h_children n)) (sset id (set_level l n) h)
                        (nset l (match nget l levels with Some x => x | None => [] end ++ [id]) levels)
          | None => level_loop f rest h levels
          end
      end
  end.
Definition roots (h : hierarchy) : list string :=
  map fst (filter (fun kv => match h_parent (snd kv) with None => true | Some _ => false end) h).
Definition assign_levels (fuel : nat) (h : hierarchy) : option (hierarchy * list (nat * list string)) :=
  level_loop fuel (map (fun id => (id, 0)) (roots h)) h [].

(** HierarchicalGraphAnalyzer.analyze_streaming_function, nested_graph_viz.py 156-186, on the nodes of the
    graph, with config.auto_cluster and config.cluster_min_nodes *)
Definition analyze_hierarchy (fuel : nat) (cluster : bool) (min_nodes : nat) (nodes : list (string * node))
  : option (hierarchy * list (nat * list string)) :=
  let h := extract_hierarchy nodes in
  assign_levels fuel (if cluster then auto_cluster min_nodes h else h).

(** get_max_level, nested_graph_viz.py 309-311 *)
Definition max_level (levels : list (nat * list string)) : nat := list_max (map fst levels).

(** the counters of get_hierarchy_summary, nested_graph_viz.py 982-1010 *)
Definition count_by {K : Type} (eqb : K -> K -> bool) (f : hnode -> K) (h : hierarchy) : list (K * nat) :=
  fold_left (fun acc kv =>
               (fix bump (d : list (K * nat)) : list (K * nat) :=
                  match d with
                  | [] => [(f (snd kv), 1)]
                  | (k, n) :: r => if eqb k (f (snd kv)) then (k, n + 1) :: r else (k, n) :: bump r
                  end) acc) h [].
Record summary := Summary { sm_total : nat; sm_max : nat; sm_types : list (string * nat); sm_per_level : list (nat * nat) }.
Definition hierarchy_summary (r : hierarchy * list (nat * list string)) : summary :=
  Summary (length (fst r)) (max_level (snd r)) (count_by String.eqb h_type (fst r)) (count_by Nat.eqb h_level (fst r)).

(** _render_hierarchy_recursive, nested_graph_viz.py 367-402: the ids of the nodes added to the Graphviz
    graph, in order.  The recursion goes one level down at a time; [None]: deeper than [fuel] levels. *)
Fixpoint drawn (fuel : nat) (h : hierarchy) (parent : option string) (level : nat) : option (list string) :=
  match fuel with
  | 0 => None
  | S f =>
      let same := fun n => match h_parent n, parent with
                           | None, None => true
                           | Some a, Some b => String.eqb a b
                           | _, _ => false
                           end && Nat.eqb (h_level n) level in
      fold_left (fun acc kv =>
                   match acc with
                   | None => None
                   | Some ids => match h_children (snd kv) with
                                 | [] => Some (ids ++ [fst kv])
                                 | _ => match drawn f h (Some (fst kv)) (level + 1) with
                                        | Some sub => Some (ids ++ fst kv :: sub)
                                        | None => None
                                        end
                                 end
                   end) (filter (fun kv => same (snd kv)) h) (Some [])
  end.

(** the hierarchy edges of the Cytoscape and D3 renderers, nested_graph_viz.py 678-690 and 898-902, and those of
    the Graphviz renderer, 428-437, which tests that the child is there *)
Definition hierarchy_edges (h : hierarchy) : list (string * string) :=
  flat_map (fun kv => map (fun c => (fst kv, c)) (h_children (snd kv))) h.
Definition graphviz_edges (h : hierarchy) : list (string * string) :=
  flat_map (fun kv => map (fun c => (fst kv, c)) (filter (fun c => mem_key c h) (h_children (snd kv)))) h.
