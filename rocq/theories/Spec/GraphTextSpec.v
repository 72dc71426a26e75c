(** A reader of the text rendering of a graph. *)
From Coq Require Import String Ascii List Bool Arith.
From Verif Require Import Spec.DotSpec.
From Verif Require Import Model.GraphText.
Import ListNotations.
Local Open Scope string_scope.
Local Open Scope list_scope.

(** What precedes the first [c] and what follows it. *)
Fixpoint until (c : ascii) (s : string) : option (string * string) :=
  match s with
  | EmptyString => None
  | String d r => if Ascii.eqb d c then Some ("", r) else option_map (fun p => (String d (fst p), snd p)) (until c r)
  end.
(** The lines of a text. *)
Fixpoint lines_of (s : string) : list string :=
  match s with
  | EmptyString => [""]
  | String d r => if Ascii.eqb d NL then "" :: lines_of r
                  else match lines_of r with l :: q => String d l :: q | [] => [String d ""] end
  end.
(** The rest of a text after this beginning. *)
Fixpoint after (p s : string) : option string :=
  match p, s with
  | EmptyString, _ => Some s
  | String a p', String b s' => if Ascii.eqb a b then after p' s' else None
  | _, EmptyString => None
  end.
Definition bind {A B} (o : option A) (f : A -> option B) : option B := match o with Some a => f a | None => None end.
(** "  id: name (type)" *)
Definition read_node (l : string) : option (string * tnode) :=
  bind (after "  " l) (fun r => bind (until ":" r) (fun p =>
  bind (after " " (snd p)) (fun r2 => bind (until "(" r2) (fun q => bind (until ")" (snd q)) (fun t =>
  bind (until " " (fst q)) (fun n =>
    if String.eqb (snd t) "" then Some (fst p, TNode (fst n) (fst t) "" "") else None)))))).
(** The lines of the nodes, up to an empty one: a line with four blanks is about the node above it. *)
Definition with_detail (d : string) (n : tnode) : option tnode :=
  match after "Input shapes: " d with
  | Some s => Some (TNode (x_name n) (x_type n) s (x_params n))
  | None => option_map (fun s => TNode (x_name n) (x_type n) (x_shapes n) s) (after "Parameters: " d)
  end.
Fixpoint read_nodes (l : list string) (seen : list (string * tnode)) : option (list (string * tnode) * list string) :=
  match l with
  | [] => None
  | "" :: r => Some (rev seen, r)
  | x :: r => match after "    " x with
              | Some d => match seen with
                          | (id, n) :: q => bind (with_detail d n) (fun n' => read_nodes r ((id, n') :: q))
                          | [] => None
                          end
              | None => bind (read_node x) (fun kv => read_nodes r (kv :: seen))
              end
  end.
(** "  source -> target [label]" *)
Definition read_edge (l : string) : option tedge :=
  bind (after "  " l) (fun r => bind (until " " r) (fun p => bind (after "-> " (snd p)) (fun r2 =>
  match until " " r2 with
  | None => Some (TEdge (fst p) r2 "")
  | Some (t, rest) => bind (after "[" rest) (fun b => bind (until "]" b) (fun q =>
                        if String.eqb (snd q) "" then Some (TEdge (fst p) t (fst q)) else None))
  end))).
Definition read_text (s : string) : option renderer :=
  match lines_of s with
  | _ :: _ :: _ :: _ :: r =>
      bind (read_nodes r []) (fun p => match snd p with
        | _ :: es => bind (all_some (map read_edge es)) (fun l => Some (Renderer (fst p) l))
        | [] => None
        end)
  | _ => None
  end.
(** Names of one word, without the characters that the text uses between them; texts on one line. *)
Definition word (s : string) : Prop := s <> "" /\ forall c, In c [" "; NL; ":"; "("; ")"; "["; "]"]%char -> has_no c s.
Definition one_line (s : string) : Prop := has_no NL s.
Definition plain_node (kv : string * tnode) : Prop :=
  word (fst kv) /\ word (x_name (snd kv)) /\ word (x_type (snd kv)) /\ one_line (x_shapes (snd kv)) /\ one_line (x_params (snd kv)).
Definition plain_edge (e : tedge) : Prop := word (y_source e) /\ word (y_target e) /\ (one_line (y_label e) /\ has_no "]" (y_label e)).
(** What is shown of a node. *)
Definition shown (shapes params : bool) (kv : string * tnode) : string * tnode :=
  (fst kv, TNode (x_name (snd kv)) (x_type (snd kv)) (if shapes then x_shapes (snd kv) else "") (if params then x_params (snd kv) else "")).
