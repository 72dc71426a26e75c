(** C147, C148: the documents that the nested graph viewers draw from a hierarchy. *)
From Coq Require Import String Ascii List Bool Arith Lia Permutation.
From Verif Require Import Model.FlaxOptim Model.Graph Model.GraphDocs Spec.GraphSpec Spec.GraphDocsSpec Proofs.GraphDocsProofs Proofs.GraphDocsProofs2 Proofs.GraphProofs7.
Import ListNotations.
Local Open Scope list_scope.

(** ** C147 *)
(** The Cytoscape document has one element per node of the hierarchy, in order, with its name, class, parent and
    number of ancestors; the parent of an element is an element one level higher; the edges go from each parent to
    each of its children, once. *)
Theorem C147_cytoscape (fuel : nat) (cluster : bool) (min_nodes : nat) (nodes : list (string * node)) (h : hierarchy)
  (levels : list (nat * list string)) (st : style) :
  usual_ids nodes -> analyze_hierarchy fuel cluster min_nodes nodes = Some (h, levels) ->
  let '(els, edges) := cytoscape st h in
  map cy_id els = map fst h /\
  (forall e, In e els -> exists n, In (cy_id e, n) h /\ cy_label e = h_name n /\ cy_type e = h_type n /\ cy_level e = h_level n /\ cy_parent e = h_parent n /\
     depth_in h (cy_id e) (cy_level e) /\ forall p, cy_parent e = Some p -> exists q, In q els /\ cy_id q = p /\ cy_level e = S (cy_level q)) /\
  NoDup (map (fun e => (ce_source e, ce_target e)) edges) /\
  (forall p c, In (p, c) (map (fun e => (ce_source e, ce_target e)) edges) <-> parent_in h c p) /\
  (forall e, In e edges -> ce_id e = String.append (ce_source e) (String.append "_" (ce_target e)) /\ ce_type e = "hierarchy"%string).
Proof. exact (@cyto_document fuel cluster min_nodes nodes h levels st). Qed.
Print Assumptions C147_cytoscape.
(** The D3 document: the same nodes; each node but the roots is the target of exactly one link, whose source is its
    parent. *)
Theorem C147_d3 (fuel : nat) (cluster : bool) (min_nodes : nat) (nodes : list (string * node)) (h : hierarchy)
  (levels : list (nat * list string)) (st : style) :
  usual_ids nodes -> analyze_hierarchy fuel cluster min_nodes nodes = Some (h, levels) ->
  let '(ns, links) := d3 st h in
  map dn_id ns = map fst h /\ NoDup (map dn_id ns) /\
  (forall e, In e ns -> exists n, In (dn_id e, n) h /\ dn_name e = h_name n /\ dn_type e = h_type n /\ dn_level e = h_level n) /\
  NoDup (map dl_target links) /\
  (forall l, In l links -> In (dl_source l) (map dn_id ns) /\ In (dl_target l) (map dn_id ns) /\ parent_in h (dl_target l) (dl_source l)) /\
  (forall x, In x (map dl_target links) <-> In x (map dn_id ns) /\ ~ is_root h x).
Proof. exact (@d3_document fuel cluster min_nodes nodes h levels st). Qed.
Print Assumptions C147_d3.
(** The colors are those configured for the class, grey for other classes; with the default configuration the
    colors of "input" and "output" are never used, and clusters are grey. *)
Theorem C147_colors (fuel : nat) (cluster : bool) (min_nodes : nat) (nodes : list (string * node)) (h : hierarchy)
  (levels : list (nat * list string)) (st : style) :
  usual_ids nodes -> analyze_hierarchy fuel cluster min_nodes nodes = Some (h, levels) ->
  (forall e, In e (fst (cytoscape st h)) -> cy_color e = fill_color st (cy_type e)) /\
  (forall e, In e (fst (d3 st h)) -> dn_color e = fill_color st (dn_type e)) /\
  (forall x n, In (x, n) h -> In (h_type n, fill_color default_style (h_type n)) class_colors).
Proof. exact (@doc_colors fuel cluster min_nodes nodes h levels st). Qed.
Print Assumptions C147_colors.
Theorem C147_configured (st : style) (ty : string) :
  (forall l1 c l2, st_nodes st = l1 ++ (ty, c) :: l2 -> ~ In ty (map fst l1) -> fill_color st ty = c) /\
  (~ In ty (map fst (st_nodes st)) -> fill_color st ty = "#CCCCCC"%string).
Proof. exact (fill_spec st ty). Qed.
Print Assumptions C147_configured.
(** Cytoscape wants distinct ids for all elements, nodes and edges together.  They are distinct exactly when the
    names given to the edges between nodes do not clash; the clusters never cause a clash. *)
Theorem C147_ids (fuel : nat) (cluster : bool) (min_nodes : nat) (nodes : list (string * node)) (h : hierarchy)
  (levels : list (nat * list string)) (st : style) :
  usual_ids nodes -> analyze_hierarchy fuel cluster min_nodes nodes = Some (h, levels) ->
  (NoDup (map cy_id (fst (cytoscape st h)) ++ map ce_id (snd (cytoscape st h))) <-> ~ clash nodes).
Proof. exact (@cyto_ids fuel cluster min_nodes nodes h levels st). Qed.
Print Assumptions C147_ids.
(** So they are distinct when no node has a parent by name, or when no id has an underscore ... *)
Theorem C147_no_clash (nodes : list (string * node)) :
  ((forall c p, In c (map fst nodes) -> ~ named_parent nodes c (Some p)) -> ~ clash nodes) /\
  ((forall x, In x (map fst nodes) -> ~ In "_"%char (list_ascii_of_string x)) -> NoDup (map fst nodes) -> ~ clash nodes).
Proof. exact (conj (no_named_no_clash nodes) (no_underscore_no_clash nodes)). Qed.
Print Assumptions C147_no_clash.

(** ... but not always: with the modules Norm, Norm_0 and Norm_Norm_0, the edge from Norm to Norm_0 takes the id of
    the third module. *)
Module DemoDocs.
  Open Scope string_scope.
  Definition bias : param := PSub [("scale", PVal); ("bias", PVal)].
  Definition ps : list (string * param) := [("Norm", bias); ("Norm_0", bias); ("Norm_Norm_0", bias)].
  Definition graph_nodes := g_nodes (analyze (Transformed "f" ps) empty_graph).
  Definition h : hierarchy :=
    [("Norm", HNode "Norm" "module" 0 None ["Norm_0"; "Norm_Norm_0"]); ("Norm_0", HNode "Norm_0" "module" 1 (Some "Norm") []);
     ("Norm_Norm_0", HNode "Norm_Norm_0" "module" 1 (Some "Norm") []); ("main", HNode "f" "function" 0 None [])].
  Lemma ps_named : well_named (PSub ps).
  Proof.
    assert (PK : forall k, In k ["scale"; "bias"; "Norm"; "Norm_0"; "Norm_Norm_0"] -> plain_key k).
    { intros k I. split; cbn in I; intuition (subst; cbn in *; intuition discriminate). }
    assert (B : well_named bias).
    { constructor; [repeat constructor; cbn; intuition discriminate|]. intros k v I. cbn in I. destruct I as [I|[I|[]]]; injection I as <- <-; (split; [apply PK; cbn; tauto|constructor]). }
    constructor; [repeat constructor; cbn; intuition discriminate|]. intros k v I. cbn in I. destruct I as [I|[I|[I|[]]]]; injection I as <- <-; (split; [apply PK; cbn; tauto|exact B]).
  Qed.
  Example C147_ids_refuted : well_named (PSub ps) /\ usual_ids graph_nodes /\
    (exists levels, analyze_hierarchy 20 true 2 graph_nodes = Some (h, levels)) /\
    map cy_id (fst (cytoscape default_style h)) = ["Norm"; "Norm_0"; "Norm_Norm_0"; "main"] /\
    snd (cytoscape default_style h) = [CyEdge "Norm_Norm_0" "Norm" "Norm_0" "hierarchy"; CyEdge "Norm_Norm_Norm_0" "Norm" "Norm_Norm_0" "hierarchy"] /\
    ~ NoDup (map cy_id (fst (cytoscape default_style h)) ++ map ce_id (snd (cytoscape default_style h))) /\ clash graph_nodes.
  Proof.
    split; [exact ps_named|]. split.
    { apply analyzed_usual; [exact ps_named|]. intros k v I (s & E). subst k. cbn in I. destruct I as [I|[I|[I|[]]]]; discriminate I. }
    split; [eexists; vm_compute; reflexivity|]. split; [reflexivity|]. split; [reflexivity|]. split.
    - intros N. cbn in N. inversion N as [|? ? _ N1]; subst. inversion N1 as [|? ? _ N2]; subst. inversion N2 as [|? ? N3 _]; subst. apply N3. right. left. reflexivity.
    - exists "Norm_0", "Norm". split; [vm_compute; auto|]. split; [|left; vm_compute; auto]. right. split.
      + intros q (_ & b & E & _). assert (I : In "."%char (list_ascii_of_string "Norm_0")) by (rewrite E; rewrite GraphProofs.los_append; apply in_or_app; right; left; reflexivity).
        cbn in I. intuition discriminate.
      + split; [exists (Node "Norm" "Module"), "_0"; split; [vm_compute; auto|]; split; [reflexivity|]; split; [reflexivity|discriminate]|].
        exists [], (Node "Norm" "Module"), [("Norm_0", Node "Norm_0" "Module"); ("Norm_Norm_0", Node "Norm_Norm_0" "Module"); ("main", Node "f" "StreamingFunction")].
        split; [reflexivity|intros q []].
  Qed.
End DemoDocs.
Print Assumptions DemoDocs.C147_ids_refuted.

(** ** C148 *)
(** The Graphviz drawing is finite; it draws each node exactly once, inside the clusters of its ancestors and of
    itself if it has children, the outermost first; the cluster of a node bears its name and the color of its level. *)
Theorem C148_nesting (fuel : nat) (cluster : bool) (min_nodes : nat) (nodes : list (string * node)) (h : hierarchy)
  (levels : list (nat * list string)) (st : style) (shown : string -> string) :
  usual_ids nodes -> analyze_hierarchy fuel cluster min_nodes nodes = Some (h, levels) ->
  exists N, forall fuel', N <= fuel' -> exists items, gv_document fuel' st shown h = Some (items, graphviz_edges h) /\
    Permutation (map gn_id (flat_map all_nodes items)) (map fst h) /\
    (forall path g, shows items path g -> exists n up, In (gn_id g, n) h /\ g = gv_draw_node st shown (gn_id g) n /\ trail h (gn_id g) (up ++ [gn_id g]) /\
       let inside := up ++ match h_children n with [] => [] | _ => [gn_id g] end in
       length path = length inside /\
       forall i a, nth_error inside i = Some a -> exists m, In (a, m) h /\
         nth_error path i = Some (GvFrame (String.append "cluster_" a) (nth (i mod length (st_clusters st)) (st_clusters st) ""%string) (h_name m))) /\
    (forall x n, In (x, n) h -> exists path, shows items path (gv_draw_node st shown x n)).
Proof. exact (@gv_document_spec fuel cluster min_nodes nodes h levels st shown). Qed.
Print Assumptions C148_nesting.
(** The list of the ancestors of a node is unique, and its length is one more than their number. *)
Theorem C148_ancestors (h : hierarchy) (x : string) (l : list string) : NoDup (map fst h) -> trail h x l ->
  (forall l', trail h x l' -> l = l') /\ exists k, depth_in h x k /\ length l = S k.
Proof. intros N T. exact (conj (trail_unique h x l N T) (trail_depth h x l T)). Qed.
Print Assumptions C148_ancestors.
(** What is drawn for a node: its name, its parameters on a second line if there are any and metadata are wanted,
    the color of its class, a box for the class "module" and an ellipse otherwise. *)
Theorem C148_node (st : style) (shown : string -> string) (id : string) (n : hnode) :
  let g := gv_draw_node st shown id n in
  gn_id g = id /\ gn_fill g = fill_color st (h_type n) /\
  (st_metadata st = false \/ shown id = ""%string -> gn_label g = h_name n) /\
  (st_metadata st = true -> shown id <> ""%string -> gn_label g = String.concat "" [h_name n; "\n"; "("; shown id; ")"]%string) /\
  (gn_shape g = "box"%string <-> h_type n = "module"%string) /\ (gn_shape g = "ellipse"%string <-> h_type n <> "module"%string).
Proof.
  cbv zeta. unfold gv_draw_node. cbn [gn_id gn_fill gn_label gn_shape]. split; [reflexivity|]. split; [reflexivity|]. split; [|split; [|split]].
  - intros [E|E]; rewrite E; [reflexivity|]. rewrite String.eqb_refl, andb_false_r. reflexivity.
  - intros E N. rewrite E. destruct (String.eqb_spec (shown id) ""); [contradiction|]. cbn [andb negb String.concat String.append]. reflexivity.
  - destruct (String.eqb_spec (h_type n) "module"); split; intros H; congruence.
  - destruct (String.eqb_spec (h_type n) "module"); split; intros H; congruence.
Qed.
Print Assumptions C148_node.
Module DemoDrawing.
  Open Scope string_scope.
  Definition nodes : list (string * node) :=
    [("layer1", Node "layer1" "Module"); ("layer10", Node "layer10" "Dense"); ("layer10.e", Node "e" "EWMA"); ("main", Node "f" "StreamingFunction")].
  Definition h : hierarchy :=
    [("layer1", HNode "layer1" "module" 0 None ["layer10"]); ("layer10", HNode "layer10" "unknown" 1 (Some "layer1") ["layer10.e"]);
     ("layer10.e", HNode "e" "ewma" 2 (Some "layer10") []); ("main", HNode "f" "function" 0 None [])].
  Definition shown (id : string) : string := if String.eqb id "layer10" then "features=1" else "".
  Example C148_example : usual_ids nodes /\ (exists levels, analyze_hierarchy 20 false 2 nodes = Some (h, levels)) /\
    gv_document 5 default_style shown h =
    Some ([GCluster (GvFrame "cluster_layer1" "#E3F2FD" "layer1")
             [GNode (GvNode "layer1" "layer1" "#4CAF50" "box");
              GCluster (GvFrame "cluster_layer10" "#F3E5F5" "layer10")
                [GNode (GvNode "layer10" "layer10\n(features=1)" "#CCCCCC" "ellipse"); GNode (GvNode "layer10.e" "e" "#9C27B0" "ellipse")]];
           GNode (GvNode "main" "f" "#2196F3" "ellipse")], [("layer1", "layer10"); ("layer10", "layer10.e")]).
  Proof.
    split; [|split; [eexists; vm_compute; reflexivity|vm_compute; reflexivity]]. split; [repeat constructor; cbn; intuition discriminate|].
    intros x I. cbn in I. destruct I as [<-|[<-|[<-|[<-|[]]]]]; (split; [discriminate|]); intros (s & E); discriminate E.
  Qed.
End DemoDrawing.
Print Assumptions DemoDrawing.C148_example.
