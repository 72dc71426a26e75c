(** Proofs about the gym loop (C46, C47, C59). *)
From Coq Require Import List Bool ZArith Lia.
From Verif Require Import Model.Unroll Model.Gym Spec.DynSpec Spec.GymSpec Proofs.ListFacts.
Import ListNotations.

Section Gym.
  Context {W O A R I : Type}.
  Local Notation event := (@event O A R I).
  Local Notation gym_state := (@gym_state O A R I).
  Local Notation agent := (@agent W O A).
  Local Notation environment := (@environment W O A R I).
  Local Notation callback := (@callback W O A R I).

  Lemma run_start_log (cbs : list (O -> W -> W)) o : forall k w,
    snd (@run_start W O A R I k cbs o w) = map (fun k => EStart k o) (seq k (length cbs)).
  Proof.
    induction cbs as [|c r IH]; intros k w; cbn; auto.
    specialize (IH (S k) (c o w)). destruct (run_start (S k) r o (c o w)). cbn in *. now rewrite IH.
  Qed.
  Lemma run_act_log (cbs : list (O -> A -> W -> W)) o a : forall k w,
    snd (@run_act W O A R I k cbs o a w) = map (fun k => EAct k o a) (seq k (length cbs)).
  Proof.
    induction cbs as [|c r IH]; intros k w; cbn; auto.
    specialize (IH (S k) (c o a w)). destruct (run_act (S k) r o a (c o a w)). cbn in *. now rewrite IH.
  Qed.
  Lemma run_end_log (cbs : list (W -> W)) : forall k w,
    snd (@run_end W O A R I k cbs w) = map EEnd (seq k (length cbs)).
  Proof.
    induction cbs as [|c r IH]; intros k w; cbn; auto.
    specialize (IH (S k) (c w)). destruct (run_end (S k) r (c w)). cbn in *. now rewrite IH.
  Qed.
  Lemma run_step_log (cbs : list (gym_state -> W -> bool * W)) s : forall k d w d' w' l,
    run_step k cbs s d w = (d', w', l) ->
    exists rets, length rets = length cbs /\ d' = d || existsb (fun b => b) rets /\
      l = map (fun ka => EOnStep (fst ka) s (snd ka)) (combine (seq k (length rets)) rets).
  Proof.
    induction cbs as [|c r IH]; intros k d w d' w' l H; cbn in H.
    - injection H as <- <- <-. exists []. cbn. now rewrite orb_false_r.
    - destruct (c s w) as [sd w1]. destruct (run_step (S k) r s (d || sd) w1) as [[d2 w2] l2] eqn:E.
      injection H as <- <- <-. destruct (IH _ _ _ _ _ _ E) as (rets & Hl & Hd & ->).
      exists (sd :: rets). cbn. rewrite Hl. split; auto. split; [|reflexivity].
      rewrite Hd. now rewrite orb_assoc.
  Qed.

  (** One iteration from the world [w] to [w'] *)
  Definition iter_rel (ag : agent) (env : environment) acts steps (w : W) (it : iteration) (w' : W) : Prop :=
    exists w1 w2 (l2 : list event) w3 (l4 : list event), act ag (seen it) w = (action (state it), w1) /\
      run_act 0 acts (seen it) (action (state it)) w1 = (w2, l2) /\
      step env (action (state it)) w2 =
        (obs (state it), rw (state it), done (state it), info (state it), w3) /\
      run_step 0 steps (state it) (done (state it)) w3 = (final it, w', l4) /\
      length (answers it) = length steps /\
      l4 = map (fun ka => EOnStep (fst ka) (state it) (snd ka)) (combine (seq 0 (length (answers it))) (answers it)).
  Fixpoint links ag env acts steps (w : W) (its : list iteration) (w' : W) : Prop :=
    match its with
    | [] => w = w'
    | it :: r => exists w1, iter_rel ag env acts steps w it w1 /\ links ag env acts steps w1 r w'
    end.

  Lemma loop_log ag (env : environment) acts steps : forall fuel o (w : W) s w' l,
    loop ag env acts steps fuel o w = Some (s, w', l) ->
    exists its, chained o its /\ links ag env acts steps w its w' /\ length its <= fuel /\
      l = flat_map (iteration_log (length acts)) its /\
      option_map state (hd_error (rev its)) = Some s.
  Proof.
    induction fuel as [|fuel IH]; intros o w s w' l H; cbn in H; [discriminate|].
    destruct (act ag o w) as [a w1] eqn:Ea.
    pose proof (run_act_log acts o a 0 w1) as Hl2.
    destruct (run_act 0 acts o a w1) as [w2 l2] eqn:E2. cbn in Hl2.
    destruct (step env a w2) as [[[[o' r] d] i] w3] eqn:E3.
    destruct (run_step 0 steps (GymState r o' a d i) d w3) as [[d' w4] l4] eqn:E4.
    destruct (run_step_log _ _ _ _ _ _ _ _ E4) as (rets & Hlr & Hd' & Hl4).
    set (it := Iter o (GymState r o' a d i) rets).
    assert (Hit : EAgent o a :: l2 ++ EStep a o' r d i :: l4 = iteration_log (length acts) it).
    { unfold iteration_log, it. cbn. now rewrite Hl2, Hl4. }
    assert (Hrel : iter_rel ag env acts steps w it w4).
    { exists w1, w2, l2, w3, l4. unfold it. cbn. unfold final. cbn. rewrite <- Hd'. repeat split; auto. }
    destruct d'.
    - assert (s = GymState r o' a d i) by congruence. assert (l = EAgent o a :: l2 ++ EStep a o' r d i :: l4) by congruence.
      assert (w' = w4) by congruence. subst s l w'. exists [it]. cbn [chained flat_map rev app hd_error option_map links].
      rewrite app_nil_r. split; [split; [auto|unfold final; cbn; auto]|]. split; [eauto|]. split; [cbn; lia|auto].
    - destruct (loop ag env acts steps fuel o' w4) as [[[s' w''] l']|] eqn:El; [|discriminate].
      destruct (IH _ _ _ _ _ El) as (its & Hc & HF & Hlen & Hl' & Hs).
      assert (s = s') by congruence. assert (w' = w'') by congruence. subst s' w''.
      assert (El' : l = (EAgent o a :: l2 ++ EStep a o' r d i :: l4) ++ l') by (cbn; congruence).
      exists (it :: its). split; [|split; [|split; [|split]]].
      + cbn [chained]. split; auto. destruct its as [|it2 its]; [destruct Hc|].
        split; [unfold final; cbn; auto|exact Hc].
      + cbn [links]. eauto.
      + cbn. lia.
      + cbn [flat_map]. now rewrite <- Hit, <- Hl'.
      + cbn [rev]. destruct (rev its) as [|x rr] eqn:Er; cbn in *; [discriminate|auto].
  Qed.

  Lemma somes_count {B} (l : list (option B)) : length (somes l) = count_some l.
  Proof. unfold somes, count_some. induction l as [|[b|] l IH]; cbn; auto. Qed.

  (** The world between the callbacks on_train_start and the loop, and after the loop *)
  Definition start_world (env : environment) (o : option O) (cbs : list callback) (w : W) : O * W :=
    let '(o, w0) := match o with None => reset env w | Some o => (o, w) end in
    (o, fst (@run_start W O A R I 0 (somes (map on_train_start cbs)) o w0)).

  Lemma gym_unroll_inv ag (env : environment) o (cbs : list callback) fuel (w : W) s w' l :
    gym_unroll ag env o cbs fuel w = Some (s, w', l) ->
    exists its w2,
      let o0 := fst (start_world env o cbs w) in
      chained o0 its /\
      links ag env (somes (map on_act cbs)) (somes (map on_step cbs)) (snd (start_world env o cbs w)) its w2 /\
      length its <= fuel /\
      option_map state (hd_error (rev its)) = Some s /\
      w' = close env (fst (@run_end W O A R I 0 (somes (map on_train_end cbs)) w2)) /\
      l = run_log (match o with Some _ => true | None => false end) o0 (count_some (map on_train_start cbs))
            (count_some (map on_act cbs)) (count_some (map on_train_end cbs)) its.
  Proof.
    unfold gym_unroll, unpack_callbacks, start_world, run_log. rewrite <- !somes_count. intros H.
    destruct o as [o|]; [|destruct (reset env w) as [o w0']]; cbn [fst snd];
    match type of H with context [run_start 0 ?l ?o ?w] =>
      pose proof (run_start_log l o 0 w) as Hl1; destruct (run_start 0 l o w) as [w1 l1] end; cbn in Hl1 |- *;
    (destruct (loop ag env _ _ fuel o w1) as [[[s' w2] l2]|] eqn:El; [|discriminate]);
    pose proof (run_end_log (somes (map on_train_end cbs)) 0 w2) as Hl3;
    destruct (run_end 0 _ w2) as [w3 l3] eqn:E3; cbn in Hl3;
    destruct (loop_log _ _ _ _ _ _ _ _ _ _ El) as (its & Hc & HF & Hlen & Hl2 & Hs);
    exists its, w2; rewrite E3; cbn [fst];
    (split; [auto|]); (split; [auto|]); (split; [auto|]); (split; [congruence|]); (split; [congruence|]);
    rewrite <- Hl1, <- Hl2, <- Hl3; cbn in H |- *; congruence.
  Qed.

  (** C46: the shape of a run *)
  Lemma gym_unroll_log ag (env : environment) o (cbs : list callback) fuel (w : W) s w' l :
    gym_unroll ag env o cbs fuel w = Some (s, w', l) ->
    exists o0 its,
      match o with Some o => o0 = o | None => o0 = fst (reset env w) end /\
      chained o0 its /\
      (forall it, In it its -> length (answers it) = count_some (map on_step cbs)) /\
      option_map state (hd_error (rev its)) = Some s /\
      l = run_log (match o with Some _ => true | None => false end) o0 (count_some (map on_train_start cbs))
            (count_some (map on_act cbs)) (count_some (map on_train_end cbs)) its.
  Proof.
    intros H. destruct (gym_unroll_inv _ _ _ _ _ _ _ _ _ H) as (its & w2 & Hc & Hl & _ & Hs & _ & El).
    exists (fst (start_world env o cbs w)), its. split.
    { unfold start_world. destruct o; auto. now destruct (reset env w). }
    split; auto. split; auto.
    revert Hl. rewrite <- somes_count. clear. generalize (snd (start_world env o cbs w)).
    induction its as [|it its IH]; intros w1 Hl; cbn; [tauto|]. destruct Hl as (w3 & Hr & Hl).
    intros it' [<-|Hin]; [|eapply IH; eauto].
    destruct Hr as (? & ? & ? & ? & ? & ? & ? & ? & ? & ? & ?). auto.
  Qed.

  (** C46: the fuel does not matter *)
  Lemma loop_fuel ag (env : environment) acts steps fuel : forall fuel' o (w : W) x,
    loop ag env acts steps fuel o w = Some x -> fuel <= fuel' -> loop ag env acts steps fuel' o w = Some x.
  Proof.
    induction fuel as [|fuel IH]; intros fuel' o w x H Hle; [discriminate|].
    destruct fuel' as [|fuel']; [lia|]. cbn in *.
    destruct (act ag o w) as [a w1]. destruct (run_act 0 acts o a w1) as [w2 l2].
    destruct (step env a w2) as [[[[o' r] d] i] w3].
    destruct (run_step 0 steps (GymState r o' a d i) d w3) as [[d' w4] l4]. destruct d'; auto.
    destruct (loop ag env acts steps fuel o' w4) as [[[s' w''] l']|] eqn:El; [|discriminate].
    apply (IH fuel') in El; [|lia]. rewrite El. exact H.
  Qed.
  Lemma gym_unroll_fuel ag (env : environment) o (cbs : list callback) fuel fuel' (w : W) x :
    gym_unroll ag env o cbs fuel w = Some x -> fuel <= fuel' -> gym_unroll ag env o cbs fuel' w = Some x.
  Proof.
    unfold gym_unroll, unpack_callbacks. intros H Hle.
    destruct (match o with None => _ | Some o => _ end) as [[o0 w0] l0].
    destruct (run_start 0 _ o0 w0) as [w1 l1].
    destruct (loop ag env _ _ fuel o0 w1) as [y|] eqn:El; [|discriminate].
    erewrite loop_fuel; eauto.
  Qed.

  (** Effects of the callbacks on a part of the world *)
  Section Part.
    Context {T : Type} (get : W -> T).
    Lemma run_start_get (cbs : list (O -> W -> W)) o : (forall c w, In c cbs -> get (c o w) = get w) ->
      forall k w, get (fst (@run_start W O A R I k cbs o w)) = get w.
    Proof.
      induction cbs as [|c r IH]; intros H k w; cbn; auto.
      specialize (IH ltac:(intros; apply H; cbn; auto) (S k) (c o w)).
      destruct (run_start (S k) r o (c o w)). cbn in *. rewrite IH. apply H. cbn. auto.
    Qed.
    Lemma run_act_get (cbs : list (O -> A -> W -> W)) o a : (forall c w, In c cbs -> get (c o a w) = get w) ->
      forall k w, get (fst (@run_act W O A R I k cbs o a w)) = get w.
    Proof.
      induction cbs as [|c r IH]; intros H k w; cbn; auto.
      specialize (IH ltac:(intros; apply H; cbn; auto) (S k) (c o a w)).
      destruct (run_act (S k) r o a (c o a w)). cbn in *. rewrite IH. apply H. cbn. auto.
    Qed.
    Lemma run_end_get (cbs : list (W -> W)) : (forall c w, In c cbs -> get (c w) = get w) ->
      forall k w, get (fst (@run_end W O A R I k cbs w)) = get w.
    Proof.
      induction cbs as [|c r IH]; intros H k w; cbn; auto.
      specialize (IH ltac:(intros; apply H; cbn; auto) (S k) (c w)).
      destruct (run_end (S k) r (c w)). cbn in *. rewrite IH. apply H. cbn. auto.
    Qed.
    Lemma run_step_get (cbs : list (gym_state -> W -> bool * W)) s :
      (forall c w, In c cbs -> get (snd (c s w)) = get w) ->
      forall k d w, get (snd (fst (run_step k cbs s d w))) = get w.
    Proof.
      induction cbs as [|c r IH]; intros H k d w; cbn; auto.
      specialize (H c w (or_introl eq_refl)) as Hc.
      destruct (c s w) as [sd w1] eqn:E. cbn in Hc.
      specialize (IH ltac:(intros; apply H; cbn; auto) (S k) (d || sd) w1).
      destruct (run_step (S k) r s (d || sd) w1) as [[d2 w2] l2]. cbn in *. now rewrite IH.
    Qed.
    Lemma run_step_app (c1 c2 : list (gym_state -> W -> bool * W)) s : forall k d w,
      run_step k (c1 ++ c2) s d w =
      let '(d1, w1, l1) := run_step k c1 s d w in
      let '(d2, w2, l2) := run_step (k + length c1) c2 s d1 w1 in (d2, w2, l1 ++ l2).
    Proof.
      induction c1 as [|c r IH]; intros k d w; cbn.
      - rewrite Nat.add_0_r. now destruct (run_step k c2 s d w) as [[? ?] ?].
      - destruct (c s w) as [sd w1]. rewrite IH.
        destruct (run_step (S k) r s (d || sd) w1) as [[d1 w2] l1].
        replace (S k + length r) with (k + S (length r)) by lia.
        destruct (run_step (k + S (length r)) c2 s d1 w2) as [[? ?] ?]. reflexivity.
    Qed.
  End Part.

  Lemma somes_app {B} (l l' : list (option B)) : somes (l ++ l') = somes l ++ somes l'.
  Proof. unfold somes. apply flat_map_app. Qed.
  Lemma in_somes {B} (l : list (option B)) b : In b (somes l) <-> In (Some b) l.
  Proof.
    unfold somes. rewrite in_flat_map. split.
    - intros ([x|] & H & Hb); cbn in Hb; [destruct Hb as [->|[]]; auto|destruct Hb].
    - intros H. exists (Some b). cbn. auto.
  Qed.

  (** *** A part of the world which only the callback in the middle changes *)
  Section Middle.
    Context {T : Type} (get : W -> T).
    Variables (ag : agent) (env : environment) (cbs1 cbs2 : list callback) (cb : callback).
    Variable f : gym_state -> W -> bool * W.
    Hypothesis Hcb : cb = Cb None None (Some f) None.
    Hypothesis Henv : untouched get ag env.
    Hypothesis Hcbs : callbacks_leave get (cbs1 ++ cbs2).
    Let cbs := cbs1 ++ cb :: cbs2.

    Lemma start_world_get o w : get (snd (start_world env o cbs w)) = get w.
    Proof.
      unfold start_world. destruct Henv as (Hr & _).
      assert (H : forall o w, get (fst (@run_start W O A R I 0 (somes (map on_train_start cbs)) o w)) = get w).
      { intros o1 w1. apply run_start_get. intros c w2 Hc%in_somes. apply in_map_iff in Hc as (x & Hx & Hin).
        apply in_app_or in Hin as [Hin|[Hin|Hin]].
        - destruct (Hcbs x ltac:(apply in_or_app; auto)) as (H1 & H2 & H3 & H4); eauto.
        - subst x. rewrite Hcb in Hx. discriminate.
        - destruct (Hcbs x ltac:(apply in_or_app; auto)) as (H1 & H2 & H3 & H4); eauto. }
      destruct o as [o|]; cbn.
      - apply H.
      - specialize (Hr w). destruct (reset env w) as [o w0]. cbn in *. now rewrite H.
    Qed.
    Lemma end_world_get w : get (close env (fst (@run_end W O A R I 0 (somes (map on_train_end cbs)) w))) = get w.
    Proof.
      destruct Henv as (_ & Hcl & _). rewrite Hcl.
      apply run_end_get. intros c w2 Hc%in_somes. apply in_map_iff in Hc as (x & Hx & Hin).
      apply in_app_or in Hin as [Hin|[Hin|Hin]].
      - destruct (Hcbs x ltac:(apply in_or_app; auto)) as (H1 & H2 & H3 & H4); eauto.
      - subst x. rewrite Hcb in Hx. discriminate.
      - destruct (Hcbs x ltac:(apply in_or_app; auto)) as (H1 & H2 & H3 & H4); eauto.
    Qed.
    Lemma acts_get o a k w :
      get (fst (@run_act W O A R I k (somes (map on_act cbs)) o a w)) = get w.
    Proof.
      apply run_act_get. intros c w2 Hc%in_somes. apply in_map_iff in Hc as (x & Hx & Hin).
      apply in_app_or in Hin as [Hin|[Hin|Hin]].
      - destruct (Hcbs x ltac:(apply in_or_app; auto)) as (H1 & H2 & H3 & H4); eauto.
      - subst x. rewrite Hcb in Hx. discriminate.
      - destruct (Hcbs x ltac:(apply in_or_app; auto)) as (H1 & H2 & H3 & H4); eauto.
    Qed.
    Lemma steps_get cbs' s k d w : (forall c, In c cbs' -> In c (cbs1 ++ cbs2)) ->
      get (snd (fst (run_step k (somes (map on_step cbs')) s d w))) = get w.
    Proof.
      intros Hsub. apply run_step_get. intros c w2 Hc%in_somes. apply in_map_iff in Hc as (x & Hx & Hin).
      destruct (Hcbs x ltac:(auto)) as (H1 & H2 & H3 & H4); eauto.
    Qed.
    Lemma steps_split : somes (map on_step cbs) = somes (map on_step cbs1) ++ f :: somes (map on_step cbs2).
    Proof. unfold cbs. rewrite map_app, somes_app. cbn. now rewrite Hcb. Qed.

    (** one iteration applies [f] once, in a world where the part is the one of the beginning; the answer
        of [f] is at its position *)
    Lemma iter_middle w it w' :
      iter_rel ag env (somes (map on_act cbs)) (somes (map on_step cbs)) w it w' ->
      exists wf, get wf = get w /\ get w' = get (snd (f (state it) wf)) /\
        nth_error (answers it) (count_some (map on_step cbs1)) = Some (fst (f (state it) wf)).
    Proof.
      intros (w1 & w2 & l2 & w3 & l4 & Ha & H2 & H3 & H4 & Hlen & Hl4).
      destruct Henv as (_ & _ & Hag & Hst).
      pose proof (Hag (seen it) w) as G1. rewrite Ha in G1. cbn in G1.
      pose proof (acts_get (seen it) (action (state it)) 0 w1) as G2. rewrite H2 in G2. cbn in G2.
      pose proof (Hst (action (state it)) w2) as G3. rewrite H3 in G3. cbn in G3.
      rewrite steps_split, run_step_app in H4.
      pose proof (steps_get cbs1 (state it) 0 (done (state it)) w3 ltac:(intros; apply in_or_app; auto)) as G4.
      destruct (run_step 0 (somes (map on_step cbs1)) (state it) (done (state it)) w3) as [[d1 wf] l1] eqn:E1.
      cbn in G4. cbn [run_step] in H4.
      exists wf. split; [congruence|].
      destruct (f (state it) wf) as [sd w5] eqn:Ef.
      match type of H4 with context [run_step ?k ?c ?s ?d ?w] =>
        pose proof (steps_get cbs2 s k d w ltac:(intros; apply in_or_app; auto)) as G5;
        destruct (run_step k c s d w) as [[d2 w6] l2'] eqn:E5 end.
      cbn in G5. assert (w' = w6) by congruence. subst w6. cbn [fst snd]. split; auto.
      destruct (run_step_log _ _ _ _ _ _ _ _ E1) as (rets & Hr & _ & Hl1).
      assert (Hll : length l1 = length (somes (map on_step cbs1))).
      { rewrite Hl1, map_length, combine_length, seq_length. lia. }
      assert (E : l4 = l1 ++ EOnStep (length (somes (map on_step cbs1))) (state it) sd :: l2') by (cbn in H4; congruence).
      assert (En : nth_error l4 (length (somes (map on_step cbs1))) =
                   Some (EOnStep (length (somes (map on_step cbs1))) (state it) sd)).
      { rewrite E, nth_error_app2 by lia. now rewrite Hll, Nat.sub_diag. }
      rewrite Hl4 in En. rewrite <- somes_count.
      set (p := length (somes (map on_step cbs1))) in *.
      assert (Hp : p < length (answers it)). { rewrite Hlen, steps_split, app_length. cbn. fold p. lia. }
      destruct (nth_error_lt (answers it) p Hp) as (b & Hb).
      assert (Hc : nth_error (combine (seq 0 (length (answers it))) (answers it)) p = Some (p, b)).
      { assert (G : forall (l : list bool) k p b, nth_error l p = Some b ->
          nth_error (combine (seq k (length l)) l) p = Some (k + p, b)).
        { clear. induction l as [|x l IH]; intros k [|p] b H; cbn in *; try discriminate.
          - rewrite Nat.add_0_r. congruence.
          - rewrite (IH (S k) p b H). f_equal. f_equal. lia. }
        rewrite (G _ 0 p b Hb). reflexivity. }
      erewrite map_nth_error in En; [|exact Hc]. cbn in En. congruence.
    Qed.
  End Middle.
End Gym.
