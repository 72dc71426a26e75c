(** Proofs about the drawing of a graph. *)
From Coq Require Import String List Bool Reals Lra.
From Verif Require Import Model.GraphDraw.
Import ListNotations.
Local Open Scope string_scope.
Local Open Scope list_scope.

Lemma put_in id l x : In x (put id l) <-> x = id \/ In x l.
Proof.
  unfold put. destruct (existsb (String.eqb id) l) eqn:E.
  - apply existsb_exists in E. destruct E as (y & I & Ey). apply String.eqb_eq in Ey. subst y. split; [tauto|intros [->|J]; assumption].
  - rewrite in_app_iff. cbn [In]. split; [intros [I|[I|[]]]; [right; exact I|left; symmetry; exact I]|intros [->|I]; tauto].
Qed.
Lemma put_nodup id l : NoDup l -> NoDup (put id l).
Proof.
  intros H. unfold put. destruct (existsb (String.eqb id) l) eqn:E; [exact H|].
  induction l as [|y l IH]; cbn [app]; [constructor; [intros []|constructor]|].
  cbn [existsb] in E. apply orb_false_iff in E. destruct E as [E1 E2]. inversion H; subst. constructor; [|apply IH; assumption].
  rewrite in_app_iff. intros [I|[I|[]]]; [contradiction|]. subst y. rewrite String.eqb_refl in E1. discriminate.
Qed.
Lemma graph_nodes_spec nodes edges : NoDup (graph_nodes nodes edges) /\
  forall id, In id (graph_nodes nodes edges) <->
    (exists n, In n nodes /\ d_id n = id) \/ (exists e, In e edges /\ (e_source e = id \/ e_target e = id)).
Proof.
  unfold graph_nodes.
  assert (A : forall (l : list dnode) acc, (NoDup acc -> NoDup (fold_left (fun l n => put (d_id n) l) l acc)) /\
    forall id, In id (fold_left (fun l n => put (d_id n) l) l acc) <-> In id acc \/ exists n, In n l /\ d_id n = id).
  { induction l as [|n l IH]; intros acc; cbn [fold_left].
    - split; [auto|]. intros id. split; [tauto|intros [I|(n & [] & _)]; exact I].
    - destruct (IH (put (d_id n) acc)) as [D S]. split; [intros H; apply D, put_nodup, H|]. intros id. rewrite S, put_in. cbn [In]. split.
      + intros [[->|I]|(m & I & E)]; [right; exists n; auto|left; exact I|right; exists m; auto].
      + intros [I|(m & [->|I] & E)]; [tauto|left; left; symmetry; exact E|right; exists m; auto]. }
  assert (B : forall (l : list dedge) acc, (NoDup acc -> NoDup (fold_left (fun l e => put (e_target e) (put (e_source e) l)) l acc)) /\
    forall id, In id (fold_left (fun l e => put (e_target e) (put (e_source e) l)) l acc) <->
      In id acc \/ exists e, In e l /\ (e_source e = id \/ e_target e = id)).
  { induction l as [|e l IH]; intros acc; cbn [fold_left].
    - split; [auto|]. intros id. split; [tauto|intros [I|(n & [] & _)]; exact I].
    - destruct (IH (put (e_target e) (put (e_source e) acc))) as [D S]. split; [intros H; apply D, put_nodup, put_nodup, H|].
      intros id. rewrite S, !put_in. cbn [In]. split.
      + intros [[->|[->|I]]|(m & I & E)]; [right; exists e; auto|right; exists e; auto|left; exact I|right; exists m; auto].
      + intros [I|(m & [->|I] & [E|E])]; [tauto|left; right; left; auto|left; left; auto|right; exists m; auto|right; exists m; auto]. }
  destruct (A nodes []) as [D1 S1]. destruct (B edges (fold_left (fun l n => put (d_id n) l) nodes [])) as [D2 S2].
  split; [apply D2, D1; constructor|]. intros id. rewrite S2, S1. cbn [In]. tauto.
Qed.
Definition lays_out (layout : list string -> string -> option (R * R)) : Prop := forall l id, In id l <-> layout l id <> None.
Lemma draw_graph_spec layout nodes edges : lays_out layout -> exists at_ : string -> R * R,
  (forall id, In id (graph_nodes nodes edges) -> layout (graph_nodes nodes edges) id = Some (at_ id)) /\
  draw_graph layout nodes edges = Some (
    flat_map (fun n => [MBox (fst (at_ (d_id n)) - 1/10) (snd (at_ (d_id n)) - 1/20) (2/10) (1/10) (d_color n);
                        MName (fst (at_ (d_id n))) (snd (at_ (d_id n))) (d_name n)])%R nodes ++
    map (fun e => MArrow (fst (at_ (e_source e))) (snd (at_ (e_source e))) (fst (at_ (e_target e))) (snd (at_ (e_target e))) (e_color e)) edges).
Proof.
  intros L. destruct (graph_nodes_spec nodes edges) as [_ S]. unfold draw_graph. set (g := graph_nodes nodes edges) in *.
  exists (fun id => match layout g id with Some p => p | None => (0, 0)%R end). set (at_ := fun id => match layout g id with Some p => p | None => (0, 0)%R end).
  assert (K : forall id, In id g -> layout g id = Some (at_ id)).
  { intros id I. apply L in I. unfold at_. destruct (layout g id); [reflexivity|contradiction]. }
  split; [exact K|].
  assert (A : forall l, incl l nodes -> draw_nodes (layout g) l = Some (
    flat_map (fun n => [MBox (fst (at_ (d_id n)) - 1/10) (snd (at_ (d_id n)) - 1/20) (2/10) (1/10) (d_color n);
                        MName (fst (at_ (d_id n))) (snd (at_ (d_id n))) (d_name n)])%R l)).
  { induction l as [|n l IH]; intros I; [reflexivity|]. cbn [draw_nodes flat_map].
    rewrite (K (d_id n)) by (apply S; left; exists n; split; [apply I; left; reflexivity|reflexivity]).
    rewrite IH by (intros x J; apply I; right; exact J). destruct (at_ (d_id n)) as [x y]. reflexivity. }
  rewrite (A nodes (incl_refl nodes)). cbn [option_map]. do 2 f_equal.
  assert (B : forall l, incl l edges -> flat_map (draw_edge (layout g)) l =
    map (fun e => MArrow (fst (at_ (e_source e))) (snd (at_ (e_source e))) (fst (at_ (e_target e))) (snd (at_ (e_target e))) (e_color e)) l).
  { induction l as [|e l IH]; intros I; [reflexivity|]. cbn [flat_map map].
    rewrite IH by (intros x J; apply I; right; exact J). unfold draw_edge at 1.
    rewrite (K (e_source e)) by (apply S; right; exists e; split; [apply I; left; reflexivity|auto]).
    rewrite (K (e_target e)) by (apply S; right; exists e; split; [apply I; left; reflexivity|auto]).
    destruct (at_ (e_source e)) as [x y], (at_ (e_target e)) as [x2 y2]. reflexivity. }
  exact (B edges (incl_refl edges)).
Qed.
Lemma draw_labels layout nodes edges edges' :
  map (fun e => (e_source e, e_target e, e_color e)) edges = map (fun e => (e_source e, e_target e, e_color e)) edges' ->
  draw_graph layout nodes edges = draw_graph layout nodes edges'.
Proof.
  intros H.
  assert (G : graph_nodes nodes edges = graph_nodes nodes edges').
  { unfold graph_nodes. generalize (fold_left (fun l n => put (d_id n) l) nodes []). revert edges' H.
    induction edges as [|e l IH]; intros [|e' l'] H acc; try discriminate; [reflexivity|]. cbn [map] in H. injection H as E1 E2 _ H.
    cbn [fold_left]. rewrite E1, E2. apply IH. exact H. }
  unfold draw_graph. rewrite G. f_equal. generalize (layout (graph_nodes nodes edges')). intros pos.
  assert (F : flat_map (draw_edge pos) edges = flat_map (draw_edge pos) edges').
  { clear G. revert edges' H. induction edges as [|e l IH]; intros [|e' l'] H; try discriminate; [reflexivity|]. cbn [map] in H.
    injection H as E1 E2 E3 H. cbn [flat_map]. rewrite (IH l' H). unfold draw_edge. rewrite E1, E2, E3. reflexivity. }
  rewrite F. reflexivity.
Qed.
