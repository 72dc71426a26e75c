(** C130: the statements of an exported document, written out. *)
From Coq Require Import String Ascii List Bool Arith.
From Verif Require Import Model.Graph Model.Dot Spec.GraphSpec Spec.DotSpec Proofs.DotProofs Proofs.DotProofs2 Proofs.DotProofs3.
From Verif Require Model.Debug.
Import ListNotations.
Local Open Scope string_scope.
Local Open Scope list_scope.

Lemma tuple_texts l : str_tuple l = tuple_text (map repr_elem l).
Proof. destruct l as [|a [|b l]]; unfold str_tuple, tuple_text; cbn [map]; rewrite !cat_cons; reflexivity. Qed.
Lemma no_quote_concat m : Forall (has_no "'") m -> has_no "'" (String.concat ", " m).
Proof.
  induction 1 as [|s m Hs Hm IHm]; [intros []|]. destruct m as [|s' m]; [exact Hs|].
  change (String.concat ", " (s :: s' :: m)) with (s ++ ", " ++ String.concat ", " (s' :: m))%string.
  rewrite !has_no_app. split; [exact Hs|]. split; [|exact IHm]. hn_const.
Qed.
Lemma no_quote_tuple m : Forall (has_no "'") m -> has_no "'" (tuple_text m).
Proof.
  intros H. destruct m as [|a [|b m]]; unfold tuple_text; rewrite !has_no_app.
  - repeat split; hn_const.
  - repeat split; try hn_const. exact (Forall_inv H).
  - repeat split; try hn_const. apply no_quote_concat. exact H.
Qed.
Lemma repr_plain s : has_no BS s -> has_no "'" s -> repr_str s = ("'" ++ s ++ "'")%string.
Proof.
  intros H1 H2. unfold repr_str. destruct (has_char "'" s) eqn:E; [apply has_char_in in E; contradiction|]. cbn [andb].
  rewrite escaped_same by assumption. rewrite !cat_cons. reflexivity.
Qed.
Lemma parts_shape x : clean x -> ~ nested x -> map repr_elem (get_shape x) = parts x.
Proof.
  intros C N. destruct x as [d|n|d|]; cbn [get_shape parts].
  - rewrite map_map. reflexivity.
  - reflexivity.
  - rewrite map_map. apply map_ext_in. intros [k v] I. cbn [repr_elem fst snd]. inversion C as [| | |? HC]; subst.
    destruct (HC _ _ I) as (H1 & H2 & H3).
    assert (P : map repr_elem (get_shape v) = parts v /\ Forall (has_no "'") (parts v) /\ Forall simple (parts v)).
    { destruct v as [d'|n|d'|]; cbn [get_shape parts].
      - split; [rewrite map_map; reflexivity|]. split; apply Forall_map, Forall_forall; intros; apply digits_simple.
      - split; [reflexivity|]. split; (constructor; [apply digits_simple|constructor]).
      - destruct d' as [|kv d']; [split; [reflexivity|split; constructor]|].
        exfalso. apply N. exists d, k, (kv :: d'). repeat split; auto. discriminate.
      - split; [reflexivity|split; constructor]. }
    destruct P as (P1 & P2 & P3). rewrite tuple_texts, P1, repr_plain.
    + rewrite !cat_cons. change (cat []) with "". rewrite sapp_nil, !sapp_assoc. reflexivity.
    + rewrite !cat_cons, !has_no_app. split; [apply H1|]. split; [hn_const|]. split; [|intros []].
      rewrite <- P1, <- tuple_texts. assert (S : simple (str_tuple (get_shape v))); [|apply S].
      apply str_tuple_simple. apply Forall_map. rewrite P1. exact P3.
    + rewrite !cat_cons, !has_no_app. split; [exact H2|]. split; [hn_const|]. split; [|intros []].
      apply no_quote_tuple. exact P2.
  - reflexivity.
Qed.
Lemma node_color_has ty : has_color ty (node_color "#4CAF50" ty).
Proof. exact (color_spec "#4CAF50" ty). Qed.
Lemma node_written x kv : clean x -> ~ nested x ->
  node_statement default_options (dressed x kv) =
  written x (fst kv) (n_name (snd kv)) (n_type (snd kv)) (node_color "#4CAF50" (n_type (snd kv))).
Proof.
  intros C N. destruct kv as [id [name ty]]. unfold node_statement, dressed, pipeline_node, written.
  cbn [fst snd n_name n_type p_color p_style p_shape]. apply f_equal.
  match goal with |- ("label", ?a) :: _ = ("label", ?b) :: _ => assert (E : a = b); [|rewrite E; reflexivity] end.
  unfold expected_label. cbn [p_name p_type p_inputs p_params default_options include_shapes include_parameters max_label_length].
  cbn [block]. rewrite app_nil_r. apply f_equal. apply f_equal. apply f_equal.
  destruct (string_dec id "main") as [->|Ne].
  - change (String.eqb "main" "main") with true. cbn [filter snd fst]. rewrite <- (parts_shape x C N).
    destruct (get_shape x) as [|e l] eqn:E; cbn [length Nat.eqb negb map block]; [reflexivity|]. rewrite tuple_texts. reflexivity.
  - apply String.eqb_neq in Ne. rewrite Ne. reflexivity.
Qed.
Lemma edge_written a b l : edge_statement (pipeline_edge a b l) =
  EdgeDef a b (if string_dec l "" then [] else [("label", l)]).
Proof. unfold edge_statement, pipeline_edge. cbn [q_source q_target q_label q_color q_style]. apply f_equal.
  cbn [filter fst snd]. destruct (string_dec "label" "label") as [_|X]; [|congruence].
  destruct (string_dec "color" "label") as [X|_]; [discriminate|]. destruct (string_dec "color" "color") as [_|X]; [|congruence].
  destruct (string_dec "style" "label") as [X|_]; [discriminate|]. destruct (string_dec "style" "color") as [X|_]; [discriminate|].
  destruct (string_dec "#424242" "#424242") as [_|X]; [|congruence]. destruct (string_dec "solid" "solid") as [_|X]; [|congruence].
  destruct (string_dec l ""); reflexivity. Qed.

Lemma export_written t x : simple_target t -> clean x -> ~ nested x ->
  let g := analyze t empty_graph in
  exists nodes, read_dot (export_graph t x) = Some (Digraph "WAX_ML_Pipeline" (settings ++ nodes ++
      map (fun e => EdgeDef (e_source e) (e_target e) (if string_dec (e_label e) "" then [] else [("label", e_label e)])) (g_edges g))) /\
    Forall2 (fun kv st => exists c, has_color (n_type (snd kv)) c /\ st = written x (fst kv) (n_name (snd kv)) (n_type (snd kv)) c)
      (g_nodes g) nodes.
Proof.
  intros Ht C N g. exists (map (node_statement default_options) (map (dressed x) (g_nodes g))). split.
  - rewrite (export_read t x Ht C N). fold g. f_equal. f_equal. f_equal. f_equal. apply map_ext. intros e. apply edge_written.
  - rewrite map_map. induction (g_nodes g) as [|kv l IH]; cbn [map]; [constructor|]. constructor; [|exact IH].
    exists (node_color "#4CAF50" (n_type (snd kv))). split; [apply node_color_has|]. apply node_written; assumption.
Qed.
