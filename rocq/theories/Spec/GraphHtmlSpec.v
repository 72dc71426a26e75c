(** What a browser sees of a page: its tags, and the text after each of them. *)
From Coq Require Import String Ascii List Bool Arith.
From Verif Require Import Spec.DotSpec Model.Graph Model.GraphText.
From Verif Require Import Model.GraphHtml.
Import ListNotations.
Local Open Scope string_scope.
Local Open Scope list_scope.

(** Reading character by character: before any tag; in a tag; after a tag.  "<" begins a tag, ">" ends it. *)
Inductive place := Before | InTag (tag : string) | AfterTag (tag text : string).
Definition step (c : ascii) (p : place) : list (string * string) * place :=
  match p with
  | Before => ([], if Ascii.eqb c "<" then InTag "" else Before)
  | InTag t => ([], if Ascii.eqb c ">" then AfterTag t "" else InTag (t ++ String c ""))
  | AfterTag t x => if Ascii.eqb c "<" then ([(t, x)], InTag "") else ([], AfterTag t (x ++ String c ""))
  end.
Fixpoint scan (p : place) (s : string) : list (string * string) * place :=
  match s with
  | EmptyString => ([], p)
  | String c r => let a := step c p in let b := scan (snd a) r in (fst a ++ fst b, snd b)
  end.
Definition parts (s : string) : list (string * string) :=
  let a := scan Before s in fst a ++ match snd a with AfterTag t x => [(t, x)] | _ => [] end.
Definition tags (s : string) : list string := map fst (parts s).
Definition texts_after (tag s : string) : list string := map snd (filter (fun p => String.eqb (fst p) tag) (parts s)).
(** Texts that contain no "<", and colors that contain no ">". *)
Definition clear (s : string) : Prop := has_no "<" s.
Definition clear_node (h : hnode) : Prop :=
  clear (z_id h) /\ clear (x_name (z_node h)) /\ clear (x_type (z_node h)) /\ clear (x_shapes (z_node h)) /\ clear (x_params (z_node h)) /\
  has_no ">" (z_color h).
Definition clear_edge (e : tedge) : Prop := clear (y_source e) /\ clear (y_target e) /\ clear (y_label e).
Definition has_text (s : string) : bool := negb (String.eqb s "").
(** The tags of a node: its box, in its color, its name in bold, one line for its identifier and for each detail shown. *)
Definition node_tags (shapes params : bool) (h : hnode) : list string :=
  ["div class=""node"" style=""background-color: " ++ z_color h ++ "20;"""; "strong"; "/strong"; "br"]%string
  ++ (if shapes && has_text (x_shapes (z_node h)) then ["br"] else [])
  ++ (if params && has_text (x_params (z_node h)) then ["br"] else []) ++ ["/div"].
Definition edge_tags : list string := ["div class=""edge"""; "/div"].
Definition page_tags (shapes params : bool) (nodes : list hnode) (edges : list tedge) : list string :=
  ["!DOCTYPE html"; "html"; "head"; "title"; "/title"; "style"; "/style"; "/head"; "body"; "h1"; "/h1"; "h2"; "/h2"; "div"]
  ++ flat_map (node_tags shapes params) nodes
  ++ ["/div"; "h2"; "/h2"; "div"] ++ flat_map (fun _ => edge_tags) edges ++ ["/div"; "/body"; "/html"].
Definition edge_line (e : tedge) : string :=
  (y_source e ++ " → " ++ y_target e ++ (if has_text (y_label e) then " [" ++ y_label e ++ "]" else ""))%string.
