(** Property theorems C130: the DOT document of a computation graph (flax/visualization/computation_graph.py). *)
From Coq Require Import String Ascii List Arith.
From Verif Require Import Model.Graph Model.Dot Spec.GraphSpec Spec.DotSpec Proofs.GraphProofs Proofs.DotProofs Proofs.DotProofs2 Proofs.DotProofs3 Proofs.DotProofs4.
From Verif Require Model.Debug.
Import ListNotations.
Local Open Scope string_scope.
Local Open Scope list_scope.

(** C130: read back, the document declares exactly the nodes and the edges, in order, with their labels and attributes, whatever the graph and the options, if its texts stand for themselves between double quotes ... *)
Theorem C130_read_back : forall (o : options) (nodes : list (string * pnode)) (edges : list pedge),
  Forall (verbatim_node o) nodes -> Forall verbatim_edge edges ->
  read_dot (dot_content o nodes edges) =
  Some (Digraph "WAX_ML_Pipeline" (settings ++ map (node_statement o) nodes ++ map edge_statement edges)).
Proof. exact read_back. Qed.
Print Assumptions C130_read_back.

(** ... and a text written between double quotes is read back as itself only then: nothing is escaped. *)
Theorem C130_quoting : forall t, tokens Between (quoted t) = Some [TText t] <-> verbatim t = true.
Proof. exact quoted_exact. Qed.
Print Assumptions C130_quoting.

(** C130: the export of a function whose modules have simple names is readable exactly when no dictionary is inside a dictionary in the example input. *)
Theorem C130_readable_iff : forall (t : target) (x : example), simple_target t -> clean x ->
  (exists dg, read_dot (export_graph t x) = Some dg) <-> ~ nested x.
Proof.
  intros t x Ht Hx. split.
  - intros [dg H] N. rewrite (export_unreadable t x Ht Hx N) in H. discriminate.
  - intros N. eexists. exact (export_read t x Ht Hx N).
Qed.
Print Assumptions C130_readable_iff.

(** C130: it then has one node per module, at its path, one node "main", and no edge. *)
Theorem C130_export : forall (name : string) (ps : list (string * param)) (x : example) dg,
  well_named (PSub ps) -> simple name -> simple_keys (PSub ps) -> clean x -> ~ nested x ->
  read_dot (export_graph (Transformed name ps) x) = Some dg ->
  NoDup (node_ids dg) /\ edge_ends dg = [] /\
  forall id, In id (node_ids dg) <-> id = "main" \/ exists path d, id = dotted path /\ module_at ps path d.
Proof.
  intros name ps x dg W Hn Hk Hx N H.
  destruct (export_ids (Transformed name ps) x dg (conj Hn Hk) Hx N H) as [E1 E2].
  destruct (graph_nodes_exact name ps W) as [ND NI].
  rewrite E1, E2. rewrite (graph_no_edges name ps W). split; [exact ND|]. split; [reflexivity|].
  intros id. split.
  - intros I. apply in_map_iff in I. destruct I as ([i n] & <- & I). apply NI in I. cbn [fst].
    destruct I as [[-> _]|(_ & path & k & d & -> & M & _)]; [left; reflexivity|right; eauto].
  - intros I. destruct (string_dec id "main") as [->|Ne].
    + apply (in_map fst _ ("main", Node name "StreamingFunction")). apply NI. left; auto.
    + destruct I as [->|(path & d & -> & M)]; [congruence|].
      destruct (@exists_last _ path) as (p & k & ->); [exact (module_nonempty _ _ _ M)|].
      apply (in_map fst _ (dotted (p ++ [k]), Node k (infer_module_type k d))). apply NI. right. split; [exact Ne|]. exists p, k, d. auto.
Qed.
Print Assumptions C130_export.

(** C130: the statements of the document, whatever the function. *)
Theorem C130_export_statements : forall (t : target) (x : example), simple_target t -> clean x -> ~ nested x ->
  let g := analyze t empty_graph in
  exists nodes, read_dot (export_graph t x) = Some (Digraph "WAX_ML_Pipeline" (settings ++ nodes ++
      map (fun e => EdgeDef (e_source e) (e_target e) (if string_dec (e_label e) "" then [] else [("label", e_label e)])) (g_edges g))) /\
    Forall2 (fun kv st => exists c, has_color (n_type (snd kv)) c /\ st = written x (fst kv) (n_name (snd kv)) (n_type (snd kv)) c)
      (g_nodes g) nodes.
Proof. exact export_written. Qed.
Print Assumptions C130_export_statements.

(** C130: the color of a node. *)
Theorem C130_color : forall given ty,
  (exists before r after, colors = before ++ r :: after /\ occurs (fst r) (Debug.lower ty) /\
     (forall r', In r' before -> ~ occurs (fst r') (Debug.lower ty)) /\ node_color given ty = snd r) \/
  ((forall r, In r colors -> ~ occurs (fst r) (Debug.lower ty)) /\ node_color given ty = given).
Proof. exact color_spec. Qed.
Print Assumptions C130_color.

Module DemoDot.
  Definition ps : list (string * param) :=
    [("enc", PSub [("l1", PSub [("kernel", PVal); ("bias", PVal)]); ("fast_ewma", PSub [("logcom", PVal)])])].
  Definition flat : example := XDict [("price", XArray [3; 2]); ("volume", XArray [5])].
  Definition deep : example := XDict [("price", XArray [3]); ("book", XDict [("bid", XArray [4])])].
  Ltac simp := unfold simple, has_no; repeat split; cbn; intuition discriminate.
  Example C130_example :
    well_named (PSub ps) /\ simple "model" /\ simple_keys (PSub ps) /\ clean flat /\ ~ nested flat /\ clean deep /\ nested deep /\
    option_map dg_statements (read_dot (export_graph (Transformed "model" ps) flat)) =
      Some (settings ++
        [NodeDef "enc.l1" [("label", "l1\n(Dense)"); ("color", "#4CAF50"); ("style", "filled"); ("shape", "box")];
         NodeDef "enc.fast_ewma" [("label", "fast_ewma\n(EWMA)"); ("color", "#2196F3"); ("style", "filled"); ("shape", "box")];
         NodeDef "main" [("label", "model\n(StreamingFunction)\n\ninput: ('price: (3, 2)', 'volume: (5,)')");
                         ("color", "#4CAF50"); ("style", "filled"); ("shape", "box")]]) /\
    read_dot (export_graph (Transformed "model" ps) deep) = None /\
    (* a double quote in a name puts statements of its own in the document *)
    (let evil := ["a"; dquote; " -> "; dquote; "b"; dquote; "; "; dquote; "c"] in
     option_map edge_ends (read_dot (dot_content default_options [(cat evil, pipeline_node "n" "Module" [] [])] [])) = Some [("a", "b")]).
  Proof.
    split; [|split; [|split; [|split; [|split; [|split; [|split; [|split; [|split; [|]]]]]]]]].
    - assert (K : forall s, s <> "" -> ~ In "."%char (list_ascii_of_string s) -> plain_key s) by (split; auto).
      constructor; [repeat constructor; cbn; intuition discriminate|]. intros k v [[= <- <-]|[]].
      split; [apply K; [discriminate|cbn; intuition discriminate]|].
      constructor; [repeat constructor; cbn; intuition discriminate|]. intros k v [[= <- <-]|[[= <- <-]|[]]];
      (split; [apply K; [discriminate|cbn; intuition discriminate]|]);
      (constructor; [repeat constructor; cbn; intuition discriminate|]); intros k v Hin; cbn in Hin;
      repeat (destruct Hin as [[= <- <-]|Hin]; [split; [apply K; [discriminate|cbn; intuition discriminate]|constructor]|]); destruct Hin.
    - simp.
    - constructor. intros k v [[= <- <-]|[]]. split; [simp|]. constructor. intros k v [[= <- <-]|[[= <- <-]|[]]]; (split; [simp|]);
      constructor; intros k v Hin; cbn in Hin; repeat (destruct Hin as [[= <- <-]|Hin]; [split; [simp|constructor]|]); destruct Hin.
    - constructor. intros k v [[= <- <-]|[[= <- <-]|[]]]; (split; [simp|split; [simp|constructor]]).
    - intros (d & k & e & E & I & _). injection E as <-. destruct I as [I|[I|[]]]; discriminate.
    - constructor. intros k v [[= <- <-]|[[= <- <-]|[]]]; (split; [simp|split; [simp|constructor]]).
      intros k v [[= <- <-]|[]]. split; [simp|split; [simp|constructor]].
    - exists [("price", XArray [3]); ("book", XDict [("bid", XArray [4])])], "book", [("bid", XArray [4])].
      repeat split; [right; left; reflexivity|discriminate].
    - vm_compute. reflexivity.
    - vm_compute. reflexivity.
    - vm_compute. reflexivity.
  Qed.
End DemoDot.
