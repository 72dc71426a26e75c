(** A reader of the DOT language (graphviz.org/doc/info/lang.html), for documents in which every statement ends with
    a semicolon, attributes are separated by commas and names with other characters than letters, digits and
    underscores are quoted.  Inside double quotes a backslash followed by a double quote stands for the double quote, a backslash at
    the end of a line joins the lines, a pair of backslashes stands for itself, and so does a backslash before anything else. *)
From Coq Require Import String Ascii List Bool Arith Compare_dec.
From Verif Require Import Model.Graph Model.Dot Spec.GraphSpec.
Import ListNotations.
Local Open Scope string_scope.
Local Open Scope list_scope.

Inductive token := TWord (s : string) | TText (s : string) | TSym (c : ascii) | TArrow.

Definition DQ : ascii := ascii_of_nat 34.
Definition BS : ascii := ascii_of_nat 92.
Definition NL : ascii := ascii_of_nat 10.
Definition word_char (c : ascii) : bool :=
  let n := nat_of_ascii c in
  ((48 <=? n) && (n <=? 57) || (65 <=? n) && (n <=? 90) || (97 <=? n) && (n <=? 122) || (n =? 95))%nat.
Definition blank (c : ascii) : bool := let n := nat_of_ascii c in ((n =? 32) || (n =? 10))%nat.
Definition symbol (c : ascii) : bool := existsb (Ascii.eqb c) ["{"; "}"; "["; "]"; "="; ","; ";"]%char.

(** Where the reader is: between tokens, in a word, in a quoted text, after a backslash in it, after a dash. *)
Inductive place := Between | InWord (w : string) | InText (t : string) | AfterBackslash (t : string) | AfterDash.
Definition snoc (s : string) (c : ascii) : string := (s ++ String c "")%string.
Definition cons_token (t : token) (r : option (list token)) : option (list token) := option_map (cons t) r.
Fixpoint tokens (p : place) (s : string) : option (list token) :=
  match s with
  | EmptyString => match p with Between => Some [] | InWord w => Some [TWord w] | _ => None end
  | String c r =>
      let start := if blank c then tokens Between r
                   else if word_char c then tokens (InWord (String c "")) r
                   else if Ascii.eqb c DQ then tokens (InText "") r
                   else if Ascii.eqb c "-" then tokens AfterDash r
                   else if symbol c then cons_token (TSym c) (tokens Between r)
                   else None in
      match p with
      | Between => start
      | InWord w => if word_char c then tokens (InWord (snoc w c)) r else cons_token (TWord w) start
      | InText t => if Ascii.eqb c DQ then cons_token (TText t) (tokens Between r)
                    else if Ascii.eqb c BS then tokens (AfterBackslash t) r
                    else tokens (InText (snoc t c)) r
      | AfterBackslash t => if Ascii.eqb c DQ then tokens (InText (snoc t c)) r
                            else if Ascii.eqb c NL then tokens (InText t) r
                            else tokens (InText (snoc (snoc t BS) c)) r
      | AfterDash => if Ascii.eqb c ">" then cons_token TArrow (tokens Between r) else None
      end
  end.

(** The pieces of a list between the separators. *)
Fixpoint split_at {A : Type} (sep : A -> bool) (l : list A) : list (list A) :=
  match l with
  | [] => [[]]
  | x :: r => if sep x then [] :: split_at sep r
              else match split_at sep r with p :: q => (x :: p) :: q | [] => [[x]] end
  end.
Definition is_sym (c : ascii) (t : token) : bool := match t with TSym d => Ascii.eqb c d | _ => false end.

Definition attribute : Type := string * string.
Inductive statement :=
| Setting (k v : string) | Defaults (what : string) (l : list attribute)
| NodeDef (id : string) (l : list attribute) | EdgeDef (source target : string) (l : list attribute).
Record digraph := Digraph { dg_name : string; dg_statements : list statement }.

Definition value_of (t : token) : option string := match t with TWord s | TText s => Some s | _ => None end.
Definition attribute_of (l : list token) : option attribute :=
  match l with
  | [TWord k; TSym "="; v] => option_map (pair k) (value_of v)
  | _ => None
  end.
Fixpoint all_some {A : Type} (l : list (option A)) : option (list A) :=
  match l with
  | [] => Some []
  | Some a :: r => option_map (cons a) (all_some r)
  | None :: _ => None
  end.
(** The attributes in "[...]"; nothing at all is no attribute. *)
Definition attributes_of (l : list token) : option (list attribute) :=
  match l with
  | [] => Some []
  | TSym "[" :: r =>
      if is_sym "]" (last r TArrow) then all_some (map attribute_of (split_at (is_sym ",") (removelast r))) else None
  | _ => None
  end.
Definition statement_of (l : list token) : option statement :=
  match l with
  | [TWord k; TSym "="; v] => option_map (Setting k) (value_of v)
  | TWord k :: r => option_map (Defaults k) (attributes_of r)
  | TText a :: TArrow :: TText b :: r => option_map (EdgeDef a b) (attributes_of r)
  | TText a :: r => option_map (NodeDef a) (attributes_of r)
  | _ => None
  end.
(** "digraph NAME { stmt ; ... stmt ; }" *)
Definition read_dot (s : string) : option digraph :=
  match tokens Between s with
  | Some (TWord "digraph" :: TWord name :: TSym "{" :: r) =>
      let pieces := split_at (is_sym ";") r in
      match last pieces [] with
      | [TSym "}"] => option_map (Digraph name) (all_some (map statement_of (removelast pieces)))
      | _ => None
      end
  | _ => None
  end.

(** The texts that stand for themselves between double quotes: no double quote, and no backslash before the end or
    before the end of a line (unless it is the second of a pair). *)
Fixpoint verbatim (s : string) : bool :=
  match s with
  | EmptyString => true
  | String c r =>
      if Ascii.eqb c DQ then false
      else if Ascii.eqb c BS then
        match r with
        | EmptyString => false
        | String d r' => negb (Ascii.eqb d DQ) && negb (Ascii.eqb d NL) && verbatim r'
        end
      else verbatim r
  end.
Definition has_no (c : ascii) (s : string) : Prop := ~ In c (list_ascii_of_string s).

(** Texts without double quotes, backslashes and ends of lines. *)
Definition simple (s : string) : Prop := has_no DQ s /\ has_no BS s /\ has_no NL s.
Definition node_ids (g : digraph) : list string :=
  flat_map (fun st => match st with NodeDef id _ => [id] | _ => [] end) (dg_statements g).
Definition edge_ends (g : digraph) : list (string * string) :=
  flat_map (fun st => match st with EdgeDef a b _ => [(a, b)] | _ => [] end) (dg_statements g).
Definition label_of_node (g : digraph) (id label : string) : Prop :=
  exists l, In (NodeDef id l) (dg_statements g) /\ In ("label", label) l.

(** Parameters whose keys are simple texts at every depth. *)
Inductive simple_keys : param -> Prop :=
| sk_val : simple_keys PVal
| sk_dict d : (forall k v, In (k, v) d -> simple k /\ simple_keys v) -> simple_keys (PSub d).
(** Example inputs whose keys are simple texts without apostrophes, at every depth. *)
Inductive clean : example -> Prop :=
| cl_array dims : clean (XArray dims)
| cl_seq n : clean (XSeq n)
| cl_other : clean XOther
| cl_dict d : (forall k v, In (k, v) d -> simple k /\ has_no "'" k /\ clean v) -> clean (XDict d).
(** Not a dictionary with a dictionary (not empty) in it. *)
Definition nested (x : example) : Prop := exists d k e, x = XDict d /\ In (k, XDict e) d /\ e <> [].
(** What can be exported: a function with a simple name, and modules with simple names. *)
Definition simple_target (t : target) : Prop :=
  match t with Transformed name ps => simple name /\ simple_keys (PSub ps) | Plain name => simple name end.

(** The label of a node: lines of text (a line ends with a backslash and the letter n). *)
Definition shown_name (limit : nat) (name : string) : string :=
  if le_lt_dec (String.length name) limit then name else (substring 0 limit name ++ "...")%string.
Definition break : string := String BS "n".
Definition block (l : list string) : list string := match l with [] => [] | _ => [(break ++ String.concat break l)%string] end.
Definition expected_label (o : options) (n : pnode) : string :=
  String.concat break
    (shown_name (max_label_length o) (p_name n)
     :: (if string_dec (p_type n) (p_name n) then [] else [("(" ++ p_type n ++ ")")%string])
     ++ block (if include_shapes o
               then map (fun kv => (fst kv ++ ": " ++ str_tuple (snd kv))%string)
                        (filter (fun kv => negb (length (snd kv) =? 0)%nat) (p_inputs n)) else [])
     ++ block (if include_parameters o then map (fun kv => (fst kv ++ "=" ++ snd kv)%string) (firstn 3 (p_params n)) else [])).
(** The statements for a node and for an edge; attributes with their default value are left out. *)
Definition node_statement (o : options) (kv : string * pnode) : statement :=
  NodeDef (fst kv) [("label", expected_label o (snd kv)); ("color", p_color (snd kv)); ("style", p_style (snd kv));
                    ("shape", p_shape (snd kv))].
Definition edge_statement (e : pedge) : statement :=
  EdgeDef (q_source e) (q_target e)
    (filter (fun kv => if string_dec (snd kv) (if string_dec (fst kv) "label" then "" else if string_dec (fst kv) "color" then "#424242" else "solid")
                       then false else true)
            [("label", q_label e); ("color", q_color e); ("style", q_style e)]).
Definition settings : list statement :=
  [Setting "rankdir" "LR"; Defaults "node" [("fontname", "Arial"); ("fontsize", "10")];
   Defaults "edge" [("fontname", "Arial"); ("fontsize", "8")]].
Definition verbatim_node (o : options) (kv : string * pnode) : Prop :=
  Forall (fun s => verbatim s = true)
    [fst kv; expected_label o (snd kv); p_color (snd kv); p_style (snd kv); p_shape (snd kv)].
Definition verbatim_edge (e : pedge) : Prop :=
  Forall (fun s => verbatim s = true) [q_source e; q_target e; q_label e; q_color e; q_style e].

(** The colors by type of module: the first line whose word occurs in the type, in any case, applies. *)
Definition colors : list (string * string) :=
  [("ewma", "#2196F3"); ("buffer", "#FF9800"); ("hierarchicalstatemachine", "#9C27B0");
   ("attentionbasedstateselector", "#E91E63"); ("compositestatemanager", "#673AB7");
   ("streamingdebugger", "#F44336"); ("streamingprofiler", "#795548"); ("memorytracker", "#607D8B")].
Definition occurs (w s : string) : Prop := exists a b, s = (a ++ w ++ b)%string.

(** The shape of an example as it is printed: a tuple in Python's notation. *)
Definition tuple_text (l : list string) : string :=
  match l with [e] => ("(" ++ e ++ ",)")%string | _ => ("(" ++ String.concat ", " l ++ ")")%string end.
Fixpoint parts (x : example) : list string :=
  match x with
  | XArray dims => map str_of_nat dims
  | XSeq n => [str_of_nat n]
  | XDict items => map (fun kv => ("'" ++ fst kv ++ ": " ++ tuple_text (parts (snd kv)) ++ "'")%string) items
  | XOther => []
  end.
(** What is written for one node of a graph: its name, its type if it is another word, and for "main" the shape of the example. *)
Definition written (x : example) (id name type color : string) : statement :=
  NodeDef id
    [("label", String.concat break
        (shown_name 20 name :: (if string_dec type name then [] else [("(" ++ type ++ ")")%string])
         ++ (if string_dec id "main" then match parts x with [] => [] | l => [(break ++ "input: " ++ tuple_text l)%string] end else [])));
     ("color", color); ("style", "filled"); ("shape", "box")].
(** The color of a type: that of the first word of the table found in it, green without any. *)
Definition has_color (type color : string) : Prop :=
  (exists before r after, colors = before ++ r :: after /\ occurs (fst r) (Debug.lower type) /\
     (forall r', In r' before -> ~ occurs (fst r') (Debug.lower type)) /\ color = snd r) \/
  ((forall r, In r colors -> ~ occurs (fst r) (Debug.lower type)) /\ color = "#4CAF50").
