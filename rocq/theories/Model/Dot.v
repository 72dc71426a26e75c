(** Model of the DOT export of /repo/src/wax/flax/visualization/computation_graph.py: the texts put in the
    document, character by character.

    Simplified: characters are bytes; the values of the parameters are given as their texts; [repr] of a text
    escapes quotes and backslashes only (no control characters). *)
From Coq Require Import String Ascii List Bool Arith.
From Verif Require Import Model.Graph.
From Verif Require Model.Debug.
Import ListNotations.
Local Open Scope string_scope.
Local Open Scope list_scope.

Definition cat (l : list string) : string := String.concat "" l.
Definition dquote : string := String (ascii_of_nat 34) "".
Definition backslash : string := String (ascii_of_nat 92) "".
Definition newline : string := String (ascii_of_nat 10) "".

(** What the example input is, for _get_shape: an array, a list or tuple, a dictionary, anything else. *)
Inductive example :=
| XArray (dims : list nat) | XSeq (n : nat) | XDict (items : list (string * example)) | XOther.
(** The elements of the tuple _get_shape returns. *)
Inductive elem := EInt (n : nat) | EStr (s : string).

(** repr of a str: single quotes, unless it holds a single quote and no double quote *)
Fixpoint has_char (c : ascii) (s : string) : bool :=
  match s with "" => false | String d r => Ascii.eqb c d || has_char c r end%string.
Fixpoint escaped (quote : ascii) (s : string) : string :=
  match s with
  | "" => ""
  | String c r =>
      if Ascii.eqb c (ascii_of_nat 92) || Ascii.eqb c quote
      then String (ascii_of_nat 92) (String c (escaped quote r)) else String c (escaped quote r)
  end%string.
Definition repr_str (s : string) : string :=
  let quote := if has_char "'" s && negb (has_char (ascii_of_nat 34) s) then ascii_of_nat 34 else "'"%char in
  cat [String quote ""; escaped quote s; String quote ""].
Definition repr_elem (e : elem) : string := match e with EInt n => str_of_nat n | EStr s => repr_str s end.
(** str of a tuple *)
Definition str_tuple (l : list elem) : string :=
  match l with
  | [e] => cat ["("; repr_elem e; ",)"]
  | _ => cat ["("; String.concat ", " (map repr_elem l); ")"]
  end.
(** _get_shape, lines 299-308 *)
Fixpoint get_shape (x : example) : list elem :=
  match x with
  | XArray dims => map EInt dims
  | XSeq n => [EInt n]
  | XDict items => map (fun kv => EStr (cat [fst kv; ": "; str_tuple (get_shape (snd kv))])) items
  | XOther => []
  end.

(** PipelineNode, lines 65-80, and PipelineEdge, lines 111-126 *)
Record pnode := PNode { p_name : string; p_type : string; p_inputs : list (string * list elem);
                        p_params : list (string * string); p_color : string; p_shape : string; p_style : string }.
Record pedge := PEdge { q_source : string; q_target : string; q_label : string; q_color : string; q_style : string }.

(** __post_init__, lines 82-98: the color of the first word of the table found in the type *)
Definition color_map : list (string * string) :=
  [("EWMA", "#2196F3"); ("Buffer", "#FF9800"); ("HierarchicalStateMachine", "#9C27B0");
   ("AttentionBasedStateSelector", "#E91E63"); ("CompositeStateManager", "#673AB7");
   ("StreamingDebugger", "#F44336"); ("StreamingProfiler", "#795548"); ("MemoryTracker", "#607D8B")].
Definition node_color (given module_type : string) : string :=
  match find (fun kv => Debug.contains (Debug.lower (fst kv)) (Debug.lower module_type)) color_map with
  | Some kv => snd kv
  | None => given
  end.
Definition pipeline_node (name type : string) (inputs : list (string * list elem)) (params : list (string * string)) : pnode :=
  PNode name type inputs params (node_color "#4CAF50" type) "box" "filled".
Definition pipeline_edge (source target label : string) : pedge := PEdge source target label "#424242" "solid".

(** The options of the renderer, lines 131-151 *)
Record options := Options { include_shapes : bool; include_parameters : bool; max_label_length : nat }.
Definition default_options : options := Options true false 20.

(** _create_node_label, lines 543-568 *)
Definition create_label (o : options) (n : pnode) : string :=
  let line := cat [backslash; "n"] in
  let name := if Nat.ltb (max_label_length o) (String.length (p_name n))
              then cat [substring 0 (max_label_length o) (p_name n); "..."] else p_name n in
  let type := if String.eqb (p_type n) (p_name n) then [] else [cat ["("; p_type n; ")"]] in
  let shape_strs := map (fun kv => cat [fst kv; ": "; str_tuple (snd kv)])
                        (filter (fun kv => match snd kv with [] => false | _ => true end) (p_inputs n)) in
  let shapes := if include_shapes o then match shape_strs with [] => [] | l => [cat [line; String.concat line l]] end else [] in
  let param_strs := map (fun kv => cat [fst kv; "="; snd kv]) (firstn 3 (p_params n)) in
  let params := if include_parameters o then match param_strs with [] => [] | l => [cat [line; String.concat line l]] end else [] in
  String.concat line ([name] ++ type ++ shapes ++ params).

(** _generate_dot_content, lines 505-541 *)
Definition quoted (s : string) : string := cat [dquote; s; dquote].
Definition node_line (o : options) (kv : string * pnode) : string :=
  let '(id, n) := kv in
  cat ["  "; quoted id; " [label="; quoted (create_label o n); ", color="; quoted (p_color n);
       ", style="; quoted (p_style n); ", shape="; quoted (p_shape n); "];"].
Definition edge_line (e : pedge) : string :=
  let attrs := (if String.eqb (q_label e) "" then [] else [cat ["label="; quoted (q_label e)]])
            ++ (if String.eqb (q_color e) "#424242" then [] else [cat ["color="; quoted (q_color e)]])
            ++ (if String.eqb (q_style e) "solid" then [] else [cat ["style="; quoted (q_style e)]]) in
  cat ["  "; quoted (q_source e); " -> "; quoted (q_target e);
       match attrs with [] => "" | _ => cat [" ["; String.concat ", " attrs; "]"] end; ";"].
Definition dot_lines (o : options) (nodes : list (string * pnode)) (edges : list pedge) : list string :=
  ["digraph WAX_ML_Pipeline {"; "  rankdir=LR;";
   cat ["  node [fontname="; quoted "Arial"; ", fontsize=10];"];
   cat ["  edge [fontname="; quoted "Arial"; ", fontsize=8];"]; ""]
  ++ map (node_line o) nodes ++ [""] ++ map edge_line edges ++ ["}"].
Definition dot_content (o : options) (nodes : list (string * pnode)) (edges : list pedge) : string :=
  String.concat newline (dot_lines o nodes edges).

(** export_graph_to_dot, lines 659-670, with render_pipeline_graph 635-656: the nodes and edges of
    analyze_streaming_function (Model/Graph.v) with the default options; parameters are not included
    (_simplify_params, lines 310-313); only the node "main" has an input shape (lines 221-227, 291-296) *)
Definition dressed (x : example) (kv : string * node) : string * pnode :=
  (fst kv, pipeline_node (n_name (snd kv)) (n_type (snd kv))
             (if String.eqb (fst kv) "main" then [("input", get_shape x)] else []) []).
Definition export_graph (t : target) (x : example) : string :=
  let g := analyze t empty_graph in
  dot_content default_options (map (dressed x) (g_nodes g))
    (map (fun e => pipeline_edge (e_source e) (e_target e) (e_label e)) (g_edges g)).
