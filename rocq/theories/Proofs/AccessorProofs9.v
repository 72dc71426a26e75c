(** Dataset accessor: formatted outputs. *)
From Coq Require Import String ZArith List Bool Arith Lia.
From Verif Require Import Model.Tree Model.Unroll Model.Stream Model.Format Model.Accessors
  Spec.StreamSpec Spec.FormatSpec Spec.AccessorSpec Proofs.ListFacts Proofs.TreeProofs Proofs.UnrollProofs Proofs.StreamProofs Proofs.StreamTrace
  Proofs.FormatProofs Proofs.AccessorProofs Proofs.AccessorProofs2 Proofs.AccessorProofs4 Proofs.AccessorProofs7.
Import ListNotations.
Local Open Scope list_scope.

Section D.
  Context {K P S A B C : Type} (split : K -> K * K) (dt : C -> option (list Z)).
  Variables (cfg : stream_cfg) (vars : list (dvar A)) (coords : list (coord C)).
  Variable m : transformed K P S (list (string * seen A)) (list B).

  Lemma dataset_trees shapes rng params state skip ys sF r sF' dims :
    ~ same_structure shapes (names_tree dims) -> ~ same_structure shapes (names_tree (firstn 1 dims)) ->
    stream_apply split dt cfg vars coords m skip rng params state = Some (ys, sF) ->
    Forall (fun y => length y = length (tree_leaves shapes)) ys ->
    dataset_apply split dt cfg vars coords m shapes skip rng params state dims = Some (r, sF') <->
    sF' = sF /\ exists outputs, stacked shapes ys outputs /\
     (((forall x, In x (tree_leaves outputs) -> fits coords dims x) /\
       r = tree_map (labelled_by coords dims) outputs) \/
      (~ (forall x, In x (tree_leaves outputs) -> fits coords dims x) /\ exists first others, dims = first :: others /\
       (forall x, In x (tree_leaves outputs) -> fits coords [first] x) /\
       r = tree_map (labelled_by coords [first]) outputs)).
  Proof.
    intros H1 H2 Hu HF. unfold dataset_apply. rewrite Hu.
    destruct (stack_outputs_spec shapes ys HF) as (o & Ho & Hst). rewrite Ho.
    assert (N1 : ~ same_structure o (names_tree dims)).
    { intros E. apply H1. destruct Hst as [Hst _]. unfold same_structure in *. congruence. }
    assert (N2 : ~ same_structure o (names_tree (firstn 1 dims))).
    { intros E. apply H2. destruct Hst as [Hst _]. unfold same_structure in *. congruence. }
    assert (Hall := fun r => stream_dataarray_format_all coords o dims r N1 N2).
    destruct (stream_dataarray_format coords o dims) as [r'|] eqn:E.
    - destruct (Hall r') as [G _]. specialize (G eq_refl). cbn [option_map]. split.
      + intros Hx. assert (r' = r) by congruence. subst r'. split; [congruence|]. exists o. split; [exact Hst|exact G].
      + intros (-> & o' & Ho' & G'). pose proof (stacked_unique _ _ _ _ Hst Ho') as <-.
        destruct (Hall r) as [_ G2]. specialize (G2 G'). congruence.
    - split; [discriminate|]. intros (-> & o' & Ho' & G'). pose proof (stacked_unique _ _ _ _ Hst Ho') as <-.
      destruct (Hall r) as [_ G2]. specialize (G2 G'). congruence.
  Qed.

  (** the default format_dims *)
  Lemma dataset_default_fails shapes rng params state skip ys sF :
    stream_apply split dt cfg vars coords m skip rng params state = Some (ys, sF) ->
    Forall (fun y => length y = length (tree_leaves shapes)) ys -> tree_leaves shapes <> [] ->
    dataset_apply split dt cfg vars coords m shapes skip rng params state [] = None.
  Proof.
    intros Hu HF Hne.
    assert (N : ~ same_structure shapes (names_tree [])).
    { intros E. apply Hne. unfold same_structure, names_tree, tree_def in E. destruct shapes as [s|[|c r]]; try discriminate. reflexivity. }
    destruct (dataset_apply split dt cfg vars coords m shapes skip rng params state []) as [[r sF']|] eqn:E; [|reflexivity].
    exfalso. apply (dataset_trees shapes rng params state skip ys sF r sF' [] N N Hu HF) in E.
    destruct E as (-> & o & Hst & [[F _]|[_ (f & q & Q & _)]]); [|discriminate].
    destruct Hst as [Hs Hl]. destruct (tree_leaves o) as [|x xs] eqn:Eo.
    - assert (L : length (tree_leaves shapes) = length (tree_leaves o)).
      { unfold same_structure in Hs. rewrite <- (tree_leaves_def_length shapes), <- (tree_leaves_def_length o). rewrite Hs. reflexivity. }
      rewrite Eo in L. destruct (tree_leaves shapes); [tauto|discriminate].
    - destruct (F x (or_introl eq_refl)) as [F1 _].
      destruct (Hl 0 x ltac:(first [reflexivity|rewrite Eo; reflexivity])) as ((s & _ & Hn) & _). rewrite Hn in F1. discriminate.
  Qed.

  Lemma dataset_outputs_length local lts rng params state skip ys sF :
    NoDup (map c_name coords) -> time_axis dt coords local lts ->
    local_time cfg = local \/ (forall d ts, time_axis dt coords d ts -> d = local) ->
    stream_apply split dt cfg vars coords m skip rng params state = Some (ys, sF) ->
    length ys = length lts - (if skip then 1 else 0).
  Proof.
    intros Hnd Hax Hloc Hu. rewrite stream_apply_views in Hu.
    destruct (prepare dt cfg vars coords) as [views|] eqn:Ep; [|discriminate].
    rewrite <- (prepare_length dt cfg vars coords views local lts) by assumption.
    destruct views as [|v0 vs]; [discriminate|].
    unfold unroll, unroll_init in Hu. destruct (t_init m rng v0) as [p0 s0].
    destruct (unroll_apply _ _ _ _ _ _ _) as [y s] eqn:Ea. assert (y = ys) by congruence. subst y.
    unfold unroll_apply in Ea. destruct (lax_scan _ _ _) as [[s' r'] y'] eqn:Es.
    match type of Es with lax_scan ?f ?c ?l = _ => pose proof (lax_scan_length f c l) as E end.
    rewrite Es in E. cbn [snd] in E. assert (ys = y') by congruence. subst y'. rewrite E.
    destruct skip; cbn; lia.
  Qed.

  Lemma dataset_same_shape local lts rest size shape rng params state bs sF :
    NoDup (map c_name coords) -> time_axis dt coords local lts ->
    local_time cfg = local \/ (forall d ts, time_axis dt coords d ts -> d = local) ->
    coords_of_dims size (local :: rest) coords -> size local = length lts -> map size rest = shape ->
    stream_apply split dt cfg vars coords m false rng params state = Some (map (fun b => [b]) bs, sF) ->
    dataset_apply split dt cfg vars coords m (Leaf shape) false rng params state (local :: rest) =
    Some (Leaf (labelled_by coords (local :: rest) (NdArray (length lts :: shape) bs)), sF).
  Proof.
    intros Hnd Hax Hloc Hc Hs Hr Hu. pose proof (dataset_outputs_length _ _ _ _ _ _ _ _ Hnd Hax Hloc Hu) as L.
    rewrite map_length, Nat.sub_0_r in L. unfold dataset_apply. rewrite Hu, stack_leaf, L.
    unfold stream_dataarray_format.
    destruct (format_dataarray_common coords (Leaf (NdArray (length lts :: shape) bs)) (local :: rest)
      (Leaf (labelled_by coords (local :: rest) (NdArray (length lts :: shape) bs)))) as [_ H].
    { apply leaf_not_names. }
    rewrite H; [reflexivity|]. split; [|reflexivity].
    intros x [<-|[]]. apply (coords_fit size); [auto|]. cbn. congruence.
  Qed.
End D.
