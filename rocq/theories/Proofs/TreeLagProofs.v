(** Proofs for C136. *)
From Coq Require Import List Arith Lia.
From Verif Require Import Model.Tree Model.Unroll Model.Modules Model.TreeLag Spec.MiscSpec
  Proofs.ListFacts Proofs.UnrollProofs Proofs.TreeProofs Proofs.RunFacts Proofs.BufferProofs Proofs.SmallProofs.
Import ListNotations.

Section M.
  Context {S A B : Type}.
  Variables (init : A -> S) (step : S -> A -> B * S).

  Lemma map_steps_nth : forall (ss : list S) (ls : list A) i s l,
    nth_error ss i = Some s -> nth_error ls i = Some l ->
    nth_error (fst (map_steps step ss ls)) i = Some (fst (step s l)) /\
    nth_error (snd (map_steps step ss ls)) i = Some (snd (step s l)).
  Proof.
    induction ss as [|s0 ss IH]; intros ls i s l Hs Hl; [destruct i; discriminate|].
    destruct ls as [|l0 ls]; [destruct i; discriminate|]. cbn [map_steps].
    destruct (step s0 l0) as [b s'] eqn:E. destruct (map_steps step ss ls) as [bs ss'] eqn:E'.
    destruct i as [|i]; cbn in Hs, Hl |- *.
    - injection Hs as ->. injection Hl as ->. rewrite E. auto.
    - specialize (IH ls i s l Hs Hl). rewrite E' in IH. exact IH.
  Qed.
  Lemma map_steps_length : forall (ss : list S) (ls : list A), length ss = length ls ->
    length (fst (map_steps step ss ls)) = length ls /\ length (snd (map_steps step ss ls)) = length ls.
  Proof.
    induction ss as [|s0 ss IH]; intros [|l0 ls] H; cbn in H; try discriminate; [auto|]. cbn [map_steps].
    destruct (step s0 l0) as [b s']. specialize (IH ls ltac:(lia)). destruct (map_steps step ss ls). cbn in *. lia.
  Qed.
  Lemma mapped_snd ss t : snd (mapped_step step ss t) = snd (map_steps step ss (tree_leaves t)).
  Proof. unfold mapped_step. destruct (map_steps step ss (tree_leaves t)). reflexivity. Qed.

  Lemma leaves_same {L M} (t : tree L) (t' : tree M) : tree_def t = tree_def t' -> length (tree_leaves t) = length (tree_leaves t').
  Proof. intros H. rewrite <- (tree_leaves_def_length t), <- (tree_leaves_def_length t'), H. reflexivity. Qed.

  Lemma mapped_steps td (pre : list (tree A)) : Forall (fun t => tree_def t = td) pre -> forall ss,
    length ss = length (tree_leaves td) ->
    length (steps (mapped_step step) ss pre) = length (tree_leaves td) /\
    forall i s, nth_error ss i = Some s ->
      nth_error (steps (mapped_step step) ss pre) i = Some (steps step s (column i pre)).
  Proof.
    induction 1 as [|t pre Ht _ IH]; intros ss Hl; [split; auto|]. cbn [steps]. rewrite mapped_snd.
    assert (HL : length ss = length (tree_leaves t)) by (rewrite <- tree_leaves_def_length, Ht; exact Hl).
    destruct (map_steps_length ss (tree_leaves t) HL) as (_ & H2).
    destruct (IH (snd (map_steps step ss (tree_leaves t)))) as (G1 & G2); [congruence|].
    split; [exact G1|]. intros i s Hs.
    assert (Hi : i < length (tree_leaves t)) by (rewrite <- HL; apply nth_error_Some; congruence).
    destruct (nth_error (tree_leaves t) i) as [l|] eqn:El; [|apply nth_error_None in El; lia].
    destruct (map_steps_nth ss (tree_leaves t) i s l Hs El) as (_ & H3).
    rewrite (G2 i _ H3). cbn [column flat_map]. rewrite El. reflexivity.
  Qed.

  Lemma column_app i (a b : list (tree A)) : column i (a ++ b) = column i a ++ column i b.
  Proof. apply flat_map_app. Qed.
  Lemma column_length td i (ts : list (tree A)) : Forall (fun t => tree_def t = td) ts -> i < length (tree_leaves td) ->
    length (column i ts) = length ts /\ forall t x, nth_error ts t = Some x -> nth_error (column i ts) t = nth_error (tree_leaves x) i.
  Proof.
    intros H Hi. induction H as [|t ts Ht H IH]; [split; [reflexivity|intros [|?] ? ?; discriminate]|].
    assert (E : exists v, nth_error (tree_leaves t) i = Some v).
    { destruct (nth_error (tree_leaves t) i) eqn:E; [eauto|]. apply nth_error_None in E.
      rewrite <- tree_leaves_def_length, Ht in E. lia. }
    destruct E as (v & E). cbn [column flat_map]. rewrite E. cbn [app length]. destruct IH as (I1 & I2).
    split; [f_equal; exact I1|]. intros [|k] x Hx; cbn in Hx |- *; [congruence|]. apply I2. exact Hx.
  Qed.
  Lemma column_firstn td i (ts : list (tree A)) n : Forall (fun t => tree_def t = td) ts -> i < length (tree_leaves td) ->
    column i (firstn n ts) = firstn n (column i ts).
  Proof.
    intros H Hi. revert n. induction H as [|t ts Ht H IH]; intros n; [rewrite !firstn_nil; reflexivity|].
    destruct n as [|n]; [reflexivity|].
    assert (E : exists v, nth_error (tree_leaves t) i = Some v).
    { destruct (nth_error (tree_leaves t) i) eqn:E; [eauto|]. apply nth_error_None in E.
      rewrite <- tree_leaves_def_length, Ht in E. lia. }
    destruct E as (v & E). cbn [firstn column flat_map]. rewrite E. cbn [app firstn]. f_equal. apply IH.
  Qed.

  Lemma tree_mapped_run x0 xs ys sF :
    Forall (fun t => tree_def t = tree_def x0) xs ->
    run (TreeMapped init step) (x0 :: xs) = Some (ys, sF) ->
    length ys = length (x0 :: xs) /\
    forall t y, nth_error ys t = Some y -> exists tr,
      y = Some tr /\ tree_def tr = tree_def x0 /\
      forall i zs sG, i < length (tree_leaves x0) ->
        run (hk_module init step) (column i (x0 :: xs)) = Some (zs, sG) ->
        nth_error (tree_leaves tr) i = nth_error zs t.
  Proof.
    intros HF E. unfold TreeMapped in E.
    assert (HF' : Forall (fun t => tree_def t = tree_def x0) (x0 :: xs)) by (constructor; [reflexivity|exact HF]).
    destruct (run_nth _ _ _ _ _ _ E) as (L & _ & H). split; [exact L|]. intros t y Hy.
    assert (Ht : t < length (x0 :: xs)) by (rewrite <- L; apply nth_error_Some; congruence).
    destruct (nth_error (x0 :: xs) t) as [x|] eqn:Ex; [|apply nth_error_None in Ex; lia].
    specialize (H t x Ex). rewrite Hy in H. apply (f_equal (fun o => match o with Some v => v | None => None end)) in H.
    set (pre := firstn t (x0 :: xs)) in *.
    assert (Dx : tree_def x = tree_def x0).
    { rewrite Forall_forall in HF'. apply HF', (nth_error_In _ _ Ex). }
    assert (HP : Forall (fun t => tree_def t = tree_def x0) pre).
    { clear - HF'. unfold pre. rewrite <- (firstn_skipn t (x0 :: xs)) in HF'. apply Forall_app in HF'. tauto. }
    assert (HL0 : length (mapped_init init x0) = length (tree_leaves (tree_def x0))).
    { unfold mapped_init. rewrite map_length, tree_leaves_def_length. reflexivity. }
    destruct (mapped_steps (tree_def x0) pre HP (mapped_init init x0) HL0) as (G1 & G2).
    set (st := steps (mapped_step step) (mapped_init init x0) pre) in *.
    unfold mapped_step in H. cbv beta in H.
    destruct (map_steps_length st (tree_leaves x)) as (M1 & _).
    { rewrite G1, <- (tree_leaves_def_length x), Dx. reflexivity. }
    destruct (map_steps step st (tree_leaves x)) as [bs ss'] eqn:EM. cbn [fst] in H, M1.
    destruct (tree_unflatten_total (tree_def x) bs) as (tr & T1 & T2 & T3); [rewrite tree_leaves_def_length; exact M1|].
    exists tr. split; [congruence|]. split; [congruence|]. intros i zs sG Hi EZ.
    destruct (column_length (tree_def x0) i (x0 :: xs) HF' ltac:(rewrite tree_leaves_def_length; exact Hi)) as (C1 & C2).
    destruct (nth_error (tree_leaves x0) i) as [l0|] eqn:El0; [|apply nth_error_None in El0; lia].
    assert (EC : column i (x0 :: xs) = l0 :: column i xs) by (cbn [column flat_map]; rewrite El0; reflexivity).
    rewrite EC in EZ. destruct (run_nth _ _ _ _ _ _ EZ) as (_ & _ & HZ).
    assert (Hxi : exists l, nth_error (tree_leaves x) i = Some l).
    { destruct (nth_error (tree_leaves x) i) eqn:Q; [eauto|]. apply nth_error_None in Q. rewrite (leaves_same x x0 Dx) in Q. lia. }
    destruct Hxi as (l & Hl).
    assert (Q : nth_error (l0 :: column i xs) t = Some l) by (rewrite <- EC, (C2 t x Ex); exact Hl).
    rewrite (HZ t l Q).
    assert (Hs0 : nth_error (mapped_init init x0) i = Some (init l0)) by (unfold mapped_init; apply map_nth_error; exact El0).
    specialize (G2 i _ Hs0).
    destruct (map_steps_nth st (tree_leaves x) i _ l G2 Hl) as (R1 & _). rewrite EM in R1. cbn [fst] in R1.
    rewrite T2, R1. do 2 f_equal. f_equal. rewrite <- EC. unfold pre.
    rewrite <- (column_firstn (tree_def x0) i (x0 :: xs) t HF' ltac:(rewrite tree_leaves_def_length; exact Hi)). reflexivity.
  Qed.
End M.

Lemma tree_lag_as_mapped {A} shift (full : A -> A) (xs : list (list (tree A))) :
  run (tree_lag shift full) xs =
  run (TreeMapped (fun x0 => buffer_init (shift + 1) (full x0)) (lag_step shift)) (map Node xs).
Proof.
  destruct xs as [|x0 xs]; [reflexivity|]. unfold tree_lag, TreeMapped. cbn [map]. rewrite !run_eq.
  assert (G : forall (l : list (list (tree A))) s,
    lax_scan (stepf (fun ss args => mapped_step (lag_step shift) ss (Node args))) s l =
    lax_scan (stepf (mapped_step (lag_step shift))) s (map Node l)).
  { induction l as [|a l IH]; intros s; [reflexivity|]. cbn [lax_scan map]. unfold stepf at 1 3.
    destruct (mapped_step (lag_step shift) s (Node a)) as [o s']. cbn [fst snd]. rewrite IH. reflexivity. }
  specialize (G (x0 :: xs) (mapped_init (fun x0 => buffer_init (shift + 1) (full x0)) (Node x0))). cbn [map] in G.
  rewrite G. reflexivity.
Qed.

Lemma tree_lag_run {A} shift (full : A -> A) (x0 : list (tree A)) xs ys sF :
  Forall (fun x => tree_def (Node x) = tree_def (Node x0)) xs ->
  run (tree_lag shift full) (x0 :: xs) = Some (ys, sF) ->
  length ys = length (x0 :: xs) /\
  forall t, t < length (x0 :: xs) -> exists args,
    nth_error ys t = Some (Some (Node (map (tree_map Some) args))) /\
    (t < shift -> args = map (tree_map full) x0) /\
    (shift <= t -> nth_error (x0 :: xs) (t - shift) = Some args).
Proof.
  intros HF E. rewrite tree_lag_as_mapped in E. cbn [map] in E.
  assert (HF2 : Forall (fun t => tree_def t = tree_def (Node x0)) (map Node xs)) by (apply Forall_map; exact HF).
  destruct (tree_mapped_run _ _ _ _ _ _ HF2 E) as (L & H).
  assert (HF' : Forall (fun t => tree_def t = tree_def (Node x0)) (Node x0 :: map Node xs)) by (constructor; [reflexivity|exact HF2]).
  split; [rewrite L; cbn; rewrite map_length; reflexivity|]. intros t Ht.
  assert (Hy : exists y, nth_error ys t = Some y).
  { destruct (nth_error ys t) eqn:Q; [eauto|]. apply nth_error_None in Q. rewrite L in Q. cbn in Q, Ht. rewrite map_length in Q. lia. }
  destruct Hy as (y & Hy). destruct (H t y Hy) as (tr & -> & HD & HT).
  set (args := if t <? shift then map (tree_map full) x0 else nth (t - shift) (x0 :: xs) []).
  exists args.
  assert (HA : args = map (tree_map full) x0 /\ t < shift \/ shift <= t /\ nth_error (x0 :: xs) (t - shift) = Some args).
  { unfold args. destruct (Nat.ltb_spec t shift); [left; auto|right]. split; [assumption|].
    apply nth_error_nth'. lia. }
  clearbody args.
  assert (DA : tree_def (Node args) = tree_def (Node x0)).
  { destruct HA as [[-> _]|[_ HA]].
    - change (Node (map (tree_map full) x0)) with (tree_map full (Node x0)). apply tree_def_map.
    - assert (I : In (Node args) (Node x0 :: map Node xs)) by (apply nth_error_In in HA; destruct HA as [->|HA]; [left; reflexivity|right; apply in_map; exact HA]).
      rewrite Forall_forall in HF'. exact (HF' _ I). }
  assert (ET : tr = Node (map (tree_map Some) args)).
  { change (Node (map (tree_map Some) args)) with (tree_map (@Some A) (Node args)). apply tree_ext; [rewrite HD, tree_def_map; congruence|].
    rewrite tree_leaves_map.
    apply nth_error_ext. intros i.
    destruct (Nat.lt_ge_cases i (length (tree_leaves (Node x0)))) as [Hi|Hi].
    - assert (C : exists l0 cs, column i (Node x0 :: map Node xs) = l0 :: cs /\ nth_error (tree_leaves (Node x0)) i = Some l0).
      { destruct (nth_error (tree_leaves (Node x0)) i) as [l0|] eqn:El; [|apply nth_error_None in El; lia].
        exists l0, (column i (map Node xs)). cbn [column flat_map]. rewrite El. auto. }
      destruct C as (l0 & cs & EC & El0).
      destruct (run_total (fun x0 => buffer_init (shift + 1) (full x0)) (lag_step shift) l0 cs) as (zs & sG & EZ).
      rewrite (HT i zs sG Hi) by (rewrite EC; exact EZ).
      destruct (lag_run _ _ _ _ _ _ EZ) as (LZ & HZ).
      destruct (column_length (tree_def (Node x0)) i _ HF' ltac:(rewrite tree_leaves_def_length; exact Hi)) as (C1 & C2).
      rewrite EC in C1, C2.
      assert (Htc : t < length (l0 :: cs)) by (rewrite C1; cbn; rewrite map_length; exact Ht).
      rewrite (HZ t Htc). destruct HA as [[EA Hlt]|[Hge EA]].
      + rewrite (proj2 (Nat.ltb_lt _ _) Hlt). symmetry. rewrite EA.
        change (Node (map (tree_map full) x0)) with (tree_map full (Node x0)). rewrite tree_leaves_map, map_map.
        exact (map_nth_error (fun x => Some (full x)) i _ El0).
      + destruct (Nat.ltb_spec t shift); [lia|].
        assert (Q : nth_error (Node x0 :: map Node xs) (t - shift) = Some (Node args)).
        { change (Node x0 :: map Node xs) with (map Node (x0 :: xs)). apply map_nth_error. exact EA. }
        rewrite (C2 (t - shift) _ Q).
        destruct (nth_error (tree_leaves (Node args)) i) as [v|] eqn:Ev.
        * symmetry. exact (map_nth_error Some i _ Ev).
        * apply nth_error_None in Ev. rewrite (leaves_same _ _ DA) in Ev. lia.
    - rewrite (proj2 (nth_error_None _ _)), (proj2 (nth_error_None _ _)); [reflexivity| |].
      + rewrite map_length, (leaves_same _ _ DA). exact Hi.
      + rewrite (leaves_same _ _ HD). exact Hi. }
  subst tr. split; [exact Hy|]. split.
  - intros Hlt. destruct HA as [[EA _]|[Hge _]]; [exact EA|lia].
  - intros Hge. destruct HA as [[_ Hlt]|[_ EA]]; [lia|exact EA].
Qed.
