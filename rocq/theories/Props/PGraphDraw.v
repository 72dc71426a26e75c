(** Property theorems C159: the drawing of a computation graph by matplotlib. *)
From Coq Require Import String List Bool Reals Lra.
From Verif Require Import Model.GraphDraw Proofs.GraphDrawProofs.
Import ListNotations.
Local Open Scope string_scope.
Local Open Scope list_scope.

(** C159: what is laid out: the nodes that were added and the ends of the edges, each once. *)
Theorem C159_laid_out :
  forall (nodes : list dnode) (edges : list dedge),
  NoDup (graph_nodes nodes edges) /\
  forall id : string, In id (graph_nodes nodes edges) <->
    (exists n, In n nodes /\ d_id n = id) \/ (exists e, In e edges /\ (e_source e = id \/ e_target e = id)).
Proof. exact @graph_nodes_spec. Qed.
Print Assumptions C159_laid_out.

(** C159: whatever positions the layout gives to those, no position is missing: every node has its box, in its color, around
    its position with its name at it, and every edge its arrow, from the position of its source to that of its target. *)
Theorem C159_drawing :
  forall (layout : list string -> string -> option (R * R)) (nodes : list dnode) (edges : list dedge),
  (forall (l : list string) (id : string), In id l <-> layout l id <> None) ->
  exists at_ : string -> R * R,
  (forall id, In id (graph_nodes nodes edges) -> layout (graph_nodes nodes edges) id = Some (at_ id)) /\
  draw_graph layout nodes edges = Some (
    flat_map (fun n => [MBox (fst (at_ (d_id n)) - 1/10) (snd (at_ (d_id n)) - 1/20) (2/10) (1/10) (d_color n);
                        MName (fst (at_ (d_id n))) (snd (at_ (d_id n))) (d_name n)])%R nodes ++
    map (fun e => MArrow (fst (at_ (e_source e))) (snd (at_ (e_source e))) (fst (at_ (e_target e))) (snd (at_ (e_target e))) (e_color e)) edges).
Proof. exact @draw_graph_spec. Qed.
Print Assumptions C159_drawing.

(** C159, refuted for the labels of the edges: they are not drawn. *)
Theorem C159_labels_refuted :
  forall (layout : list string -> string -> option (R * R)) (nodes : list dnode) (edges edges' : list dedge),
  map (fun e => (e_source e, e_target e, e_color e)) edges = map (fun e => (e_source e, e_target e, e_color e)) edges' ->
  draw_graph layout nodes edges = draw_graph layout nodes edges'.
Proof. exact @draw_labels. Qed.
Print Assumptions C159_labels_refuted.

(** A layout that meets the hypothesis, and an arrow to a node that was not added. *)
Definition on_a_point (l : list string) (id : string) : option (R * R) := if existsb (String.eqb id) l then Some (1, 2)%R else None.
Example C159_layout : forall (l : list string) (id : string), In id l <-> on_a_point l id <> None.
Proof.
  intros l id. unfold on_a_point. destruct (existsb (String.eqb id) l) eqn:E.
  - apply existsb_exists in E. destruct E as (y & I & Ey). apply String.eqb_eq in Ey. subst y. split; [discriminate|auto].
  - split; [|congruence]. intros I. assert (T : existsb (String.eqb id) l = true) by (apply existsb_exists; exists id; split; [exact I|apply String.eqb_refl]). congruence.
Qed.
Example C159_missing_node :
  draw_graph on_a_point [DNode "a" "input" "red"] [DEdge "a" "b" "data" "black"] =
  Some [MBox (1 - 1/10) (2 - 1/20) (2/10) (1/10) "red"; MName 1 2 "input"; MArrow 1 2 1 2 "black"]%R.
Proof. reflexivity. Qed.
