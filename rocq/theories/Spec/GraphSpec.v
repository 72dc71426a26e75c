(** Vocabulary for the claims on computation graphs and their hierarchies. *)
From Coq Require Import String Ascii List Bool Arith Permutation.
From Verif Require Import Model.FlaxOptim Model.Graph.
From Verif Require Model.Debug.
Import ListNotations.
Local Open Scope list_scope.

(** A key as Flax makes them: not empty and without a dot. *)
Definition plain_key (k : string) : Prop := k <> EmptyString /\ ~ In "."%char (list_ascii_of_string k).
(** A tree of dictionaries whose keys are such, without repetition in a same dictionary. *)
Inductive well_named : param -> Prop :=
| wn_val : well_named PVal
| wn_sub d : NoDup (map fst d) -> (forall k v, In (k, v) d -> plain_key k /\ well_named v) -> well_named (PSub d).

(** A dictionary with parameters of its own. *)
Definition own_parameters (d : list (string * param)) : Prop :=
  exists k, In k ["kernel"; "weight"; "bias"; "alpha"; "scale"; "logcom"; "maxlen"]%string /\ In k (map fst d).

(** [outermost v q d]: following the keys [q] in [v] one meets [d], the first dictionary with parameters of its own. *)
Inductive outermost : param -> list string -> list (string * param) -> Prop :=
| om_here d : own_parameters d -> outermost (PSub d) [] d
| om_sub d k v q d' : ~ own_parameters d -> In (k, v) d -> outermost v q d' -> outermost (PSub d) (k :: q) d'.
(** the module at a path of the parameters of a function *)
Definition module_at (ps : list (string * param)) (path : list string) (d : list (string * param)) : Prop :=
  exists k v q, path = k :: q /\ In (k, v) ps /\ outermost v q d.

Definition dotted (path : list string) : string := String.concat "." path.

(** The type of a module: the first line of this table with a word of the name, a key of the module, or a
    word in the names of its keys at any depth. *)
Inductive some_key (word : string) : param -> Prop :=
| sk_here d k v : In (k, v) d -> (exists a b, k = String.append a (String.append word b)) -> some_key word (PSub d)
| sk_sub d k v : In (k, v) d -> some_key word v -> some_key word (PSub d).
Record rule := Rule { r_words : list string; r_keys : list string; r_deep : list string; r_type : string }.
Definition type_table : list rule :=
  [Rule ["ewma"] ["alpha"; "logcom"] [] "EWMA"; Rule ["buffer"] [] ["maxlen"] "Buffer";
   Rule ["attention"] [] ["num_heads"] "AttentionBasedStateSelector";
   Rule ["hierarchical"; "state_machine"] [] [] "HierarchicalStateMachine";
   Rule ["composite"; "composition"] [] [] "CompositeStateManager"; Rule [] ["kernel"; "weight"] [] "Dense"]%string.
Definition rule_applies (lower_name : string) (d : list (string * param)) (r : rule) : Prop :=
  (exists w a b, In w (r_words r) /\ lower_name = String.append a (String.append w b)) \/
  (exists k, In k (r_keys r) /\ In k (map fst d)) \/
  (exists w, In w (r_deep r) /\ some_key w (PSub d)).

(** * Hierarchies *)
(** The parent a node is given by its name: what precedes its last dot if that is a node, otherwise the first
    node of type Module whose id begins its own. *)
Definition dot_parent (nodes : list (string * node)) (id p : string) : Prop :=
  In p (map fst nodes) /\ exists b, id = String.append p (String.append "." b) /\ ~ In "."%char (list_ascii_of_string b).
Definition begins (nodes : list (string * node)) (id p : string) : Prop :=
  exists n s, In (p, n) nodes /\ n_type n = "Module"%string /\ id = String.append p s /\ s <> EmptyString.
Definition named_parent (nodes : list (string * node)) (id : string) (parent : option string) : Prop :=
  match parent with
  | Some p => dot_parent nodes id p \/
              (forall q, ~ dot_parent nodes id q) /\
              (begins nodes id p /\ exists l1 n l2, nodes = l1 ++ (p, n) :: l2 /\ forall q, In q (map fst l1) -> ~ begins nodes id q)
  | None => (forall q, ~ dot_parent nodes id q) /\ (forall q, ~ begins nodes id q)
  end.

Definition parent_in (h : hierarchy) (id p : string) : Prop := exists n, In (id, n) h /\ h_parent n = Some p.
Definition is_root (h : hierarchy) (id : string) : Prop := exists n, In (id, n) h /\ h_parent n = None.
(** the number of ancestors *)
Inductive depth_in (h : hierarchy) : string -> nat -> Prop :=
| dep_root id : is_root h id -> depth_in h id 0
| dep_child id p k : parent_in h id p -> depth_in h p k -> depth_in h id (S k).

(** the ids of the nodes of [h] accepted by [f], in order *)
Definition ids_where (f : hnode -> bool) (h : hierarchy) : list string := map fst (filter (fun kv => f (snd kv)) h).
Definition has_parent (p : string) (n : hnode) : bool :=
  match h_parent n with Some q => String.eqb q p | None => false end.

(** The class of a type: the first of these words it contains, once in lower case. *)
Definition word_in (w s : string) : Prop := exists a b, s = String.append a (String.append w b).
Definition class_of (module_type class : string) : Prop :=
  let words := ["ewma"; "buffer"; "state"; "function"; "module"]%string in
  (exists before after, words = before ++ class :: after /\ word_in class (Debug.lower module_type) /\
     forall w, In w before -> ~ word_in w (Debug.lower module_type)) \/
  (class = "unknown"%string /\ forall w, In w words -> ~ word_in w (Debug.lower module_type)).
(** [loose nodes c l]: [l] lists the nodes of class [c] that have no parent by name. *)
Definition loose (nodes : list (string * node)) (class : string) (l : list string) : Prop :=
  NoDup l /\ forall x, In x l <-> exists m, In (x, m) nodes /\ class_of (n_type m) class /\ named_parent nodes x None.
(** Ids as a graph has them: distinct, not empty, and none that looks like the id of a cluster. *)
Definition usual_ids (nodes : list (string * node)) : Prop :=
  NoDup (map fst nodes) /\ forall x, In x (map fst nodes) -> x <> ""%string /\ ~ exists s, x = String.append "cluster_" s.
Definition how_many (f : hnode -> bool) (h : hierarchy) : nat := length (filter (fun kv => f (snd kv)) h).

(** A word with its first letter, if it is one, in upper case. *)
Definition letters : list (ascii * ascii) :=
  combine (list_ascii_of_string "abcdefghijklmnopqrstuvwxyz") (list_ascii_of_string "ABCDEFGHIJKLMNOPQRSTUVWXYZ").
Definition capital (c : ascii) : ascii :=
  match find (fun p => Ascii.eqb (fst p) c) letters with Some p => snd p | None => c end.
Definition titled (s : string) : string := match s with EmptyString => EmptyString | String c r => String (capital c) r end.
