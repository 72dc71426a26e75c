(** Proofs about Stop, Record, callback scopes, HaikuAgent and HaikuEnv (C46, C47, C59). *)
From Coq Require Import List Bool ZArith Lia.
From Verif Require Import Model.Unroll Model.Gym Spec.DynSpec Spec.GymSpec Proofs.ListFacts Proofs.GymProofs.
Import ListNotations.

Section Gym.
  Context {W O A R I : Type}.
  Local Notation event := (@event O A R I).
  Local Notation gym_state := (@gym_state O A R I).
  Local Notation agent := (@agent W O A).
  Local Notation environment := (@environment W O A R I).
  Local Notation callback := (@callback W O A R I).

  Lemma loop_unfold (ag : agent) (env : environment) acts steps fuel o (w : W) :
    exists it w1, seen it = o /\ iter_rel ag env acts steps w it w1 /\
      loop ag env acts steps (S fuel) o w =
      if final it then Some (state it, w1, iteration_log (length acts) it)
      else match loop ag env acts steps fuel (obs (state it)) w1 with
           | None => None
           | Some (s, w', l') => Some (s, w', iteration_log (length acts) it ++ l')
           end.
  Proof.
    cbn [loop]. destruct (act ag o w) as [a w1] eqn:Ea.
    pose proof (@run_act_log W O A R I acts o a 0 w1) as Hl2.
    destruct (run_act 0 acts o a w1) as [w2 l2] eqn:E2. cbn in Hl2.
    destruct (step env a w2) as [[[[o' r] d] i] w3] eqn:E3.
    destruct (run_step 0 steps (GymState r o' a d i) d w3) as [[d' w4] l4] eqn:E4.
    destruct (run_step_log _ _ _ _ _ _ _ _ E4) as (rets & Hlr & Hd' & Hl4).
    exists (Iter o (GymState r o' a d i) rets), w4. split; [auto|].
    assert (Hit : EAgent o a :: l2 ++ EStep a o' r d i :: l4 =
       iteration_log (length acts) (Iter o (GymState r o' a d i) rets)).
    { unfold iteration_log. cbn. now rewrite Hl2, Hl4. }
    split.
    - exists w1, w2, l2, w3, l4. cbn. unfold final. cbn. rewrite <- Hd'. repeat split; auto.
    - unfold final. cbn [state done answers obs]. rewrite <- Hd', <- Hit. reflexivity.
  Qed.

  Lemma loop_terminates (ag : agent) (env : environment) acts steps (m : W -> nat) :
    (forall w it w1, iter_rel ag env acts steps w it w1 -> final it = false -> m w1 < m w) ->
    forall fuel o w, m w < fuel -> loop ag env acts steps fuel o w <> None.
  Proof.
    intros Hm. induction fuel as [|fuel IH]; intros o w Hlt; [lia|].
    destruct (loop_unfold ag env acts steps fuel o w) as (it & w1 & _ & Hr & ->).
    destruct (final it) eqn:Ef; [discriminate|].
    specialize (Hm _ _ _ Hr Ef). specialize (IH (obs (state it)) w1 ltac:(lia)).
    destruct (loop ag env acts steps fuel (obs (state it)) w1) as [[[s w'] l']|]; congruence.
  Qed.
  Lemma gym_unroll_defined (ag : agent) (env : environment) o (cbs : list callback) fuel w :
    loop ag env (somes (map on_act cbs)) (somes (map on_step cbs)) fuel
      (fst (start_world env o cbs w)) (snd (start_world env o cbs w)) <> None ->
    exists r, gym_unroll ag env o cbs fuel w = Some r.
  Proof.
    unfold gym_unroll, unpack_callbacks, start_world. intros H.
    destruct o as [o|]; [|destruct (reset env w) as [o w0']];
    match goal with |- context [run_start 0 ?l ?o ?w] =>
      destruct (run_start 0 l o w) as [w1 l1] end; cbn in H |- *;
    (destruct (loop ag env _ _ fuel o w1) as [[[s' w2] l2]|]; [|congruence]);
    destruct (run_end 0 _ w2) as [w3 l3]; eauto.
  Qed.

  Section Stop.
    Variables (ag : agent) (env : environment) (cbs1 cbs2 : list callback).
    Variables (t : W -> Z) (set_t : Z -> W -> W) (n : Z).
    Hypothesis Hset : forall v w, t (set_t v w) = v.
    Hypothesis Henv : untouched t ag env.
    Hypothesis Hcbs : callbacks_leave t (cbs1 ++ cbs2).
    Let cbs := cbs1 ++ stop_callback t set_t n :: cbs2.

    Lemma iter_stop w it w' :
      iter_rel ag env (somes (map on_act cbs)) (somes (map on_step cbs)) w it w' ->
      t w' = (t w + 1)%Z /\
      nth_error (answers it) (count_some (map on_step cbs1)) = Some (n <=? t w + 1)%Z.
    Proof.
      intros H.
      destruct (iter_middle t ag env cbs1 cbs2 (stop_callback t set_t n) _ eq_refl Henv Hcbs _ _ _ H)
        as (wf & G1 & G2 & G3). cbn in G2, G3. rewrite Hset in G2. rewrite G1 in *. auto.
    Qed.

    Lemma links_stop its : forall w w',
      links ag env (somes (map on_act cbs)) (somes (map on_step cbs)) w its w' ->
      t w' = (t w + Z.of_nat (length its))%Z /\
      forall i it, nth_error its i = Some it ->
        nth_error (answers it) (count_some (map on_step cbs1)) = Some (n <=? t w + Z.of_nat i + 1)%Z.
    Proof.
      induction its as [|it its IH]; intros w w' H; cbn [links] in H.
      - subst w'. split; [cbn; lia|]. intros [|i] it Hi; discriminate.
      - destruct H as (w1 & Hr & Hl). destruct (iter_stop _ _ _ Hr) as [Ht Ha].
        destruct (IH _ _ Hl) as [Ht' Ha']. split.
        + rewrite Ht', Ht. cbn [length]. lia.
        + intros [|i] it' Hi; cbn in Hi.
          * assert (it' = it) by congruence. subst. rewrite Ha. f_equal. f_equal. lia.
          * rewrite (Ha' _ _ Hi), Ht. f_equal. f_equal. lia.
    Qed.

    Lemma chained_not_final o (its : list (@iteration O A R I)) : chained o its ->
      forall i it, nth_error its i = Some it -> final it = Nat.eqb (S i) (length its).
    Proof.
      revert o. induction its as [|it its IH]; intros o Hc i it' Hi; [destruct Hc|].
      destruct Hc as [_ Hc]. destruct its as [|it2 its].
      - destruct i as [|[|i]]; cbn in Hi; try discriminate. injection Hi as <-. auto.
      - destruct Hc as [Hf Hc]. destruct i as [|i]; cbn in Hi.
        + injection Hi as <-. auto.
        + rewrite (IH _ Hc i it' Hi). reflexivity.
    Qed.
    Lemma answers_final (it : @iteration O A R I) p : nth_error (answers it) p = Some true -> final it = true.
    Proof.
      intros H. unfold final. apply orb_true_iff. right. apply existsb_exists. exists true.
      split; auto. eapply nth_error_In; eauto.
    Qed.

    Lemma stop_unroll o fuel (w : W) s w' l :
      gym_unroll ag env o cbs fuel w = Some (s, w', l) ->
      exists o0 its,
        l = run_log (match o with Some _ => true | None => false end) o0 (count_some (map on_train_start cbs))
            (count_some (map on_act cbs)) (count_some (map on_train_end cbs)) its /\
        chained o0 its /\
        t w' = (t w + Z.of_nat (length its))%Z /\
        (Z.of_nat (length its) <= Z.max 1 (n - t w))%Z /\
        (forall i it, nth_error its i = Some it ->
          nth_error (answers it) (count_some (map on_step cbs1)) = Some (n <=? t w + Z.of_nat i + 1)%Z).
    Proof.
      intros H. destruct (gym_unroll_inv _ _ _ _ _ _ _ _ _ H) as (its & w2 & Hc & Hl & _ & Hs & Hw & El).
      exists (fst (start_world env o cbs w)), its. split; auto. split; auto.
      destruct (links_stop _ _ _ Hl) as [Ht Ha].
      pose proof (start_world_get t ag env cbs1 cbs2 (stop_callback t set_t n) _ eq_refl Henv Hcbs o w) as G.
      fold cbs in G. rewrite G in *.
      pose proof (end_world_get t ag env cbs1 cbs2 (stop_callback t set_t n) _ eq_refl Henv Hcbs w2) as G2. fold cbs in G2.
      rewrite <- Hw in G2. split; [lia|]. split; auto.
      destruct (Z.le_gt_cases (Z.of_nat (length its)) (Z.max 1 (n - t w))) as [|Hgt]; auto. exfalso.
      set (i := Z.to_nat (Z.max 1 (n - t w) - 1)).
      assert (Hi : i < length its) by lia.
      destruct (nth_error_lt its i Hi) as (it & Hit).
      pose proof (Ha i it Hit) as Hai.
      rewrite (proj2 (Z.leb_le _ _)) in Hai by lia.
      apply answers_final in Hai. rewrite (chained_not_final _ _ Hc i it Hit) in Hai.
      apply Nat.eqb_eq in Hai. lia.
    Qed.

    (** the bound is reached unless something else ends the run *)
    Lemma stop_exact o fuel (w : W) s w' l :
      gym_unroll ag env o cbs fuel w = Some (s, w', l) ->
      exists o0 its it,
        l = run_log (match o with Some _ => true | None => false end) o0 (count_some (map on_train_start cbs))
            (count_some (map on_act cbs)) (count_some (map on_train_end cbs)) its /\
        chained o0 its /\ hd_error (rev its) = Some it /\
        (Z.of_nat (length its) = Z.max 1 (n - t w)%Z \/ done (state it) = true \/
         exists k, k <> count_some (map on_step cbs1) /\ nth_error (answers it) k = Some true).
    Proof.
      intros H. destruct (stop_unroll _ _ _ _ _ _ H) as (o0 & its & El & Hc & Ht & Hle & Ha).
      destruct (snoc_cases its) as [->|(its' & it & ->)]; [destruct Hc|].
      exists o0, (its' ++ [it]), it. split; auto. split; auto. rewrite rev_app_distr. split; [reflexivity|].
      assert (Hi : nth_error (its' ++ [it]) (length its') = Some it).
      { now rewrite nth_error_app2, Nat.sub_diag by lia. }
      specialize (Ha _ _ Hi). pose proof (chained_not_final _ _ Hc _ _ Hi) as Hf.
      rewrite app_length in *. cbn in *.
      rewrite Nat.add_1_r, Nat.eqb_refl in Hf.
      destruct (n <=? t w + Z.of_nat (length its') + 1)%Z eqn:En.
      - left. apply Z.leb_le in En. lia.
      - right. unfold final in Hf. apply orb_true_iff in Hf as [Hf|Hf]; auto. right.
        apply existsb_exists in Hf as (b & Hb & Hbt). subst b. apply In_nth_error in Hb as [k Hk].
        exists k. split; auto. intros ->. congruence.
    Qed.

    Lemma stop_terminates o (w : W) :
      exists r, gym_unroll ag env o cbs (Z.to_nat (Z.max 1 (n - t w))) w = Some r.
    Proof.
      apply gym_unroll_defined.
      pose proof (start_world_get t ag env cbs1 cbs2 (stop_callback t set_t n) _ eq_refl Henv Hcbs o w) as G. fold cbs in G.
      apply loop_terminates with (m := fun w => Z.to_nat (n - t w - 1)).
      - intros w0 it w1 Hr Hf. destruct (iter_stop _ _ _ Hr) as [Ht Ha]. rewrite Ht.
        destruct (n <=? t w0 + 1)%Z eqn:E; [apply answers_final in Ha; congruence|].
        apply Z.leb_gt in E. lia.
      - rewrite G. lia.
    Qed.
  End Stop.

  Section Record.
    Variables (ag : agent) (env : environment) (cbs1 cbs2 : list callback).
    Variables (is_none : A -> bool) (return_obs return_action : bool).
    Variables (rows : W -> list (@row O A R)) (set_rows : list (@row O A R) -> W -> W).
    Hypothesis Hset : forall v w, rows (set_rows v w) = v.
    Hypothesis Henv : untouched rows ag env.
    Hypothesis Hcbs : callbacks_leave rows (cbs1 ++ cbs2).
    Let cbs := cbs1 ++ record_callback is_none return_obs return_action rows set_rows :: cbs2.

    Lemma iter_record w it w' :
      iter_rel ag env (somes (map on_act cbs)) (somes (map on_step cbs)) w it w' ->
      rows w' = rows w ++ (if negb (done (state it)) && negb (is_none (action (state it)))
        then [format_output return_obs return_action (rw (state it)) (obs (state it)) (action (state it))]
        else []) /\
      nth_error (answers it) (count_some (map on_step cbs1)) = Some false.
    Proof.
      intros H.
      destruct (iter_middle rows ag env cbs1 cbs2 (record_callback is_none return_obs return_action rows set_rows)
         _ eq_refl Henv Hcbs _ _ _ H) as (wf & G1 & G2 & G3). cbn in G2, G3.
      destruct (done (state it)); cbn in *.
      - rewrite app_nil_r. split; [congruence|auto].
      - destruct (is_none (action (state it))); cbn in *.
        + rewrite app_nil_r. split; [congruence|auto].
        + rewrite Hset, G1 in G2. auto.
    Qed.

    Lemma record_unroll o fuel (w : W) s w' l :
      gym_unroll ag env o cbs fuel w = Some (s, w', l) ->
      exists o0 its,
        l = run_log (match o with Some _ => true | None => false end) o0 (count_some (map on_train_start cbs))
            (count_some (map on_act cbs)) (count_some (map on_train_end cbs)) its /\
        chained o0 its /\
        rows w' = rows w ++
          map (fun it => recorded_row return_obs return_action (rw (state it)) (obs (state it)) (action (state it)))
            (filter (fun it => negb (done (state it)) && negb (is_none (action (state it)))) its).
    Proof.
      intros H. destruct (gym_unroll_inv _ _ _ _ _ _ _ _ _ H) as (its & w2 & Hc & Hl & _ & Hs & Hw & El).
      exists (fst (start_world env o cbs w)), its. split; auto. split; auto.
      pose proof (start_world_get rows ag env cbs1 cbs2 (record_callback is_none return_obs return_action rows set_rows) _ eq_refl Henv Hcbs o w) as G. fold cbs in G.
      pose proof (end_world_get rows ag env cbs1 cbs2 (record_callback is_none return_obs return_action rows set_rows) _ eq_refl Henv Hcbs w2) as G2. fold cbs in G2.
      rewrite <- Hw in G2. rewrite G2, <- G. clear -Hl Hset Henv Hcbs.
      revert Hl. generalize (snd (start_world env o cbs w)).
      induction its as [|it its IH]; intros w1 Hl; cbn [links] in Hl.
      - subst. cbn. now rewrite app_nil_r.
      - destruct Hl as (w3 & Hr & Hl). apply iter_record in Hr as [Hr _]. rewrite (IH _ Hl), Hr, <- app_assoc.
        f_equal. cbn [filter]. unfold format_output, recorded_row.
        destruct (_ && _); destruct return_obs, return_action; reflexivity.
    Qed.
  End Record.

  (** Termination by the environment *)
  Lemma env_terminates (ag : agent) (env : environment) (cbs : list callback) (m : W -> nat) o (w : W) :
    (forall w, m (snd (reset env w)) <= m w) -> (forall o w, m (snd (act ag o w)) = m w) ->
    (forall a w, snd (fst (fst (step env a w))) = true \/ m (snd (step env a w)) < m w) ->
    callbacks_leave m cbs ->
    exists r, gym_unroll ag env o cbs (S (m w)) w = Some r.
  Proof.
    intros Hr Ha Hs Hc. apply gym_unroll_defined.
    assert (Hcb : forall (sel : callback -> option (O -> W -> W)), True) by auto. clear Hcb.
    assert (Hstart : m (snd (start_world env o cbs w)) <= m w).
    { unfold start_world.
      assert (H : forall o w, m (fst (@run_start W O A R I 0 (somes (map on_train_start cbs)) o w)) = m w).
      { intros o1 w1. apply run_start_get. intros c w2 Hc'%in_somes. apply in_map_iff in Hc' as (x & Hx & Hin).
        destruct (Hc x Hin) as (H1 & _). auto. }
      destruct o as [o|]; cbn.
      - now rewrite H.
      - specialize (Hr w). destruct (reset env w) as [o w0]. cbn in *. now rewrite H. }
    apply loop_terminates with (m := m); [|lia].
    intros w0 it w1 (wa & w2 & l2 & w3 & l4 & Ea & E2 & E3 & E4 & _) Hf.
    pose proof (Ha (seen it) w0) as G1. rewrite Ea in G1. cbn in G1.
    assert (G2 : m w2 = m wa).
    { change w2 with (fst (w2, l2)). rewrite <- E2.
      apply run_act_get. intros c w' Hc'%in_somes. apply in_map_iff in Hc' as (x & Hx & Hin).
      destruct (Hc x Hin) as (_ & H2 & _). auto. }
    assert (G4 : m w1 = m w3).
    { change w1 with (snd (fst (final it, w1, l4))). rewrite <- E4.
      apply run_step_get. intros c w' Hc'%in_somes. apply in_map_iff in Hc' as (x & Hx & Hin).
      destruct (Hc x Hin) as (_ & _ & H3 & _). auto. }
    destruct (Hs (action (state it)) w2) as [Hd|Hd]; rewrite E3 in Hd; cbn in Hd.
    - unfold final in Hf. rewrite Hd in Hf. discriminate.
    - lia.
  Qed.
End Gym.

(** *** Callback scopes *)
Lemma existsb_eqb_In c l : existsb (Nat.eqb c) l = true <-> In c l.
Proof.
  rewrite existsb_exists. split.
  - intros (x & Hx & E). apply Nat.eqb_eq in E. now subst.
  - intros H. exists c. now rewrite Nat.eqb_refl.
Qed.
Lemma update_spec s l c : update s l c = true <-> s c = true \/ In c l.
Proof. unfold update. now rewrite orb_true_iff, existsb_eqb_In. Qed.
Lemma discard_spec s l c : discard s l c = true <-> s c = true /\ ~ In c l.
Proof.
  unfold discard. rewrite andb_true_iff, negb_true_iff. rewrite <- existsb_eqb_In.
  now destruct (existsb (Nat.eqb c) l).
Qed.

Lemma no_reinstall_ext p : forall P Q, (forall c, P c <-> Q c) -> no_reinstall P p -> no_reinstall Q p.
Proof.
  induction p as [| p IHp q IHq | | p IHp | cbs p IHp | cr | cu | o p IHp]; intros P Q0 HPQ; cbn; auto.
  - intros [H1 H2]. split; eauto.
  - eauto.
  - intros [H1 H2]. split.
    + intros c Hc HQ. apply (H1 c Hc). now apply HPQ.
    + eapply IHp; [|exact H2]. intros c. cbn. now rewrite HPQ.
  - destruct o; eauto.
Qed.

(** C47: scopes restore the set, with or without exceptions *)
Lemma scoped_restores p : forall active s e l, scoped p -> no_reinstall (fun c => active c = true) p ->
  exec p active = (s, e, l) -> forall c, s c = active c.
Proof.
  induction p as [| p IHp q IHq | | p IHp | cbs p IHp | cr | cu | o p IHp]; intros active s e l Hs Hn H c; cbn in Hs, Hn, H.
  - congruence.
  - destruct Hs as [Hs1 Hs2], Hn as [Hn1 Hn2]. destruct (exec p active) as [[s1 e1] l1] eqn:E1.
    pose proof (IHp _ _ _ _ Hs1 Hn1 E1) as G1. destruct e1.
    + assert (s = s1) by congruence. subst. auto.
    + destruct (exec q s1) as [[s2 e2] l2] eqn:E2. assert (s = s2) by congruence. subst.
      rewrite <- G1. eapply IHq; eauto. eapply no_reinstall_ext; [|exact Hn2]. intros x. cbn. now rewrite G1.
  - congruence.
  - destruct (exec p active) as [[s1 e1] l1] eqn:E1. assert (s = s1) by congruence. subst. eauto.
  - destruct Hn as [Hn1 Hn2]. destruct (exec p (update active cbs)) as [[s1 e1] l1] eqn:E1.
    assert (s = discard s1 cbs) by congruence. subst.
    assert (G : forall c, s1 c = update active cbs c).
    { eapply IHp; eauto. eapply no_reinstall_ext; [|exact Hn2]. intros x. cbn. now rewrite update_spec. }
    apply eq_true_iff_eq. rewrite discard_spec, G, update_spec. split.
    + intros [[H1|H1] H2]; tauto.
    + intros H1. split; auto. intros Hc. apply (Hn1 c Hc H1).
  - destruct Hs.
  - destruct Hs.
  - destruct o as [cbs|].
    + destruct (exec p active) as [[s1 e1] l1] eqn:E1. assert (s = s1) by congruence. subst. eauto.
    + destruct (exec p empty) as [[s1 e1] l1]. congruence.
Qed.

(** C47: after a [with] its callbacks are not active, whatever happened inside *)
Lemma with_removes cbs p active s e l : exec (With cbs p) active = (s, e, l) ->
  forall c, In c cbs -> s c = false.
Proof.
  cbn. destruct (exec p (update active cbs)) as [[s1 e1] l1]. intros H c Hc.
  assert (s = discard s1 cbs) by congruence. subst.
  destruct (discard s1 cbs c) eqn:E; auto. apply discard_spec in E. tauto.
Qed.
(** C47: inside a [with] an unroll uses its callbacks *)
Lemma with_installs cbs p active s e l : exec (With cbs (Unroll None p)) active = (s, e, l) ->
  exists used r, l = used :: r /\ forall c, used c = true <-> active c = true \/ In c cbs.
Proof.
  cbn. destruct (exec p empty) as [[s1 e1] l1]. intros H. exists (update active cbs), l1.
  split; [congruence|]. apply update_spec.
Qed.
(** C47: an unroll without explicit callbacks uses the active set, restores it, with or without
    exception, and propagates the exception *)
Lemma unroll_restores p active : exists e l, exec (Unroll None p) active = (active, e, active :: l).
Proof. cbn. destruct (exec p empty) as [[s1 e1] l1]. eauto. Qed.
(** C47: what is used by unrolls *)
Lemma used_mentioned p : forall active s e l, exec p active = (s, e, l) ->
  (forall c, s c = true -> active c = true \/ mentions p c) /\
  forall used c, In used l -> used c = true -> active c = true \/ mentions p c.
Proof.
  induction p as [| p IHp q IHq | | p IHp | cbs p IHp | cr | cu | o p IHp]; intros active s e l H; cbn in H |- *.
  - injection H as <- <- <-. cbn. tauto.
  - destruct (exec p active) as [[s1 e1] l1] eqn:E1. destruct (IHp _ _ _ _ E1) as [A1 B1]. destruct e1.
    + injection H as <- <- <-. split; [intros c Hc; destruct (A1 c Hc); auto|].
      intros used c Hu Hc. destruct (B1 used c Hu Hc); auto.
    + destruct (exec q s1) as [[s2 e2] l2] eqn:E2. destruct (IHq _ _ _ _ E2) as [A2 B2].
      injection H as <- <- <-. split.
      * intros c Hc. destruct (A2 c Hc) as [H|H]; auto. destruct (A1 c H); auto.
      * intros used c Hu Hc. apply in_app_or in Hu as [Hu|Hu].
        -- destruct (B1 used c Hu Hc); auto.
        -- destruct (B2 used c Hu Hc) as [H|H]; auto. destruct (A1 c H); auto.
  - injection H as <- <- <-. cbn. tauto.
  - destruct (exec p active) as [[s1 e1] l1] eqn:E1. destruct (IHp _ _ _ _ E1) as [A1 B1].
    injection H as <- <- <-. auto.
  - destruct (exec p (update active cbs)) as [[s1 e1] l1] eqn:E1. destruct (IHp _ _ _ _ E1) as [A1 B1].
    injection H as <- <- <-. split.
    + intros c Hc. apply discard_spec in Hc as [Hc _]. destruct (A1 c Hc) as [H|H]; auto.
      apply update_spec in H as [H|H]; auto.
    + intros used c Hu Hc. destruct (B1 used c Hu Hc) as [H|H]; auto. apply update_spec in H as [H|H]; auto.
  - injection H as <- <- <-. split; [|cbn; tauto]. intros c' Hc. apply update_spec in Hc as [Hc|[Hc|[]]]; auto.
  - destruct (active cu) eqn:Ec; injection H as <- <- <-; split; try (cbn; tauto); auto.
    intros c' Hc. apply discard_spec in Hc as [Hc _]. auto.
  - destruct o as [cbs|].
    + destruct (exec p active) as [[s1 e1] l1] eqn:E1. destruct (IHp _ _ _ _ E1) as [A1 B1].
      injection H as <- <- <-. split.
      * intros c Hc. destruct (A1 c Hc); auto.
      * intros used c [Hu|Hu] Hc.
        -- subst used. apply update_spec in Hc as [Hc|Hc]; [discriminate|auto].
        -- destruct (B1 used c Hu Hc); auto.
    + destruct (exec p empty) as [[s1 e1] l1] eqn:E1. destruct (IHp _ _ _ _ E1) as [A1 B1].
      injection H as <- <- <-. split; auto. intros used c [Hu|Hu] Hc.
      * subst used. auto.
      * destruct (B1 used c Hu Hc) as [H|H]; auto. discriminate.
Qed.
(** C47: nested unrolls do not see the active callbacks *)
Lemma nested_unrolls p active s e l : exec (Unroll None p) active = (s, e, active :: l) ->
  forall used c, In used l -> used c = true -> mentions p c.
Proof.
  cbn. destruct (exec p empty) as [[s1 e1] l1] eqn:E1. intros H used c Hu Hc.
  assert (l = l1) by congruence. subst. destruct (used_mentioned p _ _ _ _ E1) as [_ B].
  destruct (B used c Hu Hc); auto. discriminate.
Qed.
(** C47: an unroll with explicit callbacks does not use the active ones, and leaves them active for
    nested unrolls *)
Lemma explicit_callbacks cbs p q active s e l :
  exec (Unroll (Some cbs) (Seq (Unroll None p) q)) active = (s, e, l) ->
  exists u1 u2 r, l = u1 :: u2 :: r /\ (forall c, u1 c = true <-> In c cbs) /\ u2 = active.
Proof.
  cbn. destruct (exec p empty) as [[s1 e1] l1]. intros H.
  assert (E : exists r, l = update empty cbs :: active :: r).
  { destruct e1; [|destruct (exec q active) as [[s2 e2] l2]]; eexists; symmetry; exact (f_equal snd H). }
  destruct E as (r & ->). do 3 eexists. split; [reflexivity|]. split; [|reflexivity].
  intros c; rewrite update_spec; unfold empty; intuition discriminate.
Qed.
(** C47: a callback installed twice is removed by the end of the inner scope *)
Lemma reinstall_removes c p active : active c = true ->
  forall s e l, exec (With [c] p) active = (s, e, l) -> s c = false.
Proof. intros _ s e l H. eapply with_removes; eauto. cbn. auto. Qed.

(** *** HaikuAgent, HaikuEnv *)
Section Haiku.
  Context {Q K P S O A R D I : Type}.
  Variable next_key : Q -> K * Q.

  Lemma agent_calls_init (ag : transformed K P S O A) os : forall q p s,
    fst (agent_calls next_key ag os (AgentObj q (Some (p, s)))) =
    fst (drive ag p s (combine (map Some (take_keys next_key q (length os))) os)).
  Proof.
    induction os as [|o os IH]; intros q p s; cbn; auto.
    unfold agent_call. cbn. destruct (next_key q) as [k q'] eqn:Ek. cbn.
    destruct (t_apply ag p s (Some k) o) as [a s'].
    specialize (IH q' p s'). destruct (agent_calls next_key ag os (AgentObj q' (Some (p, s')))). cbn in IH.
    destruct (drive ag p s' _). cbn in *. now rewrite IH.
  Qed.
  (** C59 *)
  Lemma agent_is_unroll (ag : transformed K P S O A) o os q k0 ks p s :
    take_keys next_key q (length (o :: os) + 1) = k0 :: ks -> t_init ag (Some k0) o = (p, s) ->
    fst (agent_calls next_key ag (o :: os) (AgentObj q None)) =
    fst (drive ag p s (combine (map Some ks) (o :: os))).
  Proof.
    intros Hk Hi. rewrite Nat.add_1_r in Hk. cbn [take_keys] in Hk.
    destruct (next_key q) as [k1 q1] eqn:E1. assert (k1 = k0) by congruence.
    assert (Hks : take_keys next_key q1 (length (o :: os)) = ks) by congruence. subst k1.
    rewrite <- Hks, <- (agent_calls_init ag (o :: os) q1 p s). cbn.
    unfold agent_call. cbn. rewrite E1, Hi. reflexivity.
  Qed.
  Fixpoint adv (q : Q) (n : nat) : Q := match n with 0 => q | Datatypes.S n => adv (snd (next_key q)) n end.
  Lemma take_keys_adv m : forall q n,
    take_keys next_key (adv q m) n = skipn m (take_keys next_key q (m + n)).
  Proof.
    induction m as [|m IH]; intros q n; cbn; auto. rewrite IH. now destruct (next_key q).
  Qed.
  Lemma agent_calls_seq (ag : transformed K P S O A) os : forall q ps,
    exists ps', snd (agent_calls next_key ag os (AgentObj q (Some ps))) = AgentObj (adv q (length os)) (Some ps').
  Proof.
    induction os as [|o os IH]; intros q ps; cbn; eauto.
    unfold agent_call. cbn. destruct (next_key q) as [k q'] eqn:E. cbn.
    destruct (t_apply ag (fst ps) (snd ps) (Some k) o) as [a s'].
    destruct (IH q' (fst ps, s')) as (ps' & G).
    destruct (agent_calls next_key ag os (AgentObj q' (Some (fst ps, s')))) as [x st]. cbn in G |- *. eauto.
  Qed.
  (** reset: params and state are forgotten, the sequence of keys goes on *)
  Lemma agent_reset_restarts (ag : transformed K P S O A) (o : O) (before after : list O) q :
    let st := snd (agent_calls next_key ag (o :: before) (AgentObj q None)) in
    exists q',
      (forall n, take_keys next_key q' n =
                 skipn (length (o :: before) + 1) (take_keys next_key q (length (o :: before) + 1 + n))) /\
      fst (agent_calls next_key ag after (agent_reset st)) =
      fst (agent_calls next_key ag after (AgentObj q' None)).
  Proof.
    intros st. exists (adv q (length (o :: before) + 1)). split; [intros; apply take_keys_adv|].
    assert (E : a_seq st = adv q (length (o :: before) + 1)).
    { unfold st. cbn. unfold agent_call. cbn. rewrite Nat.add_1_r. cbn.
      destruct (next_key q) as [k q1]. cbn. destruct (next_key q1) as [k1 q2] eqn:E2. cbn.
      destruct (t_init ag (Some k) o) as [p s]. cbn. destruct (t_apply ag p s (Some k1) o) as [a s'].
      destruct (agent_calls_seq ag before q2 (p, s')) as (ps' & G).
      destruct (agent_calls next_key ag before (AgentObj q2 (Some (p, s')))) as [x st1]. cbn in G |- *.
      now rewrite G. }
    unfold agent_reset. now rewrite E.
  Qed.
  (** ... which does not show for functions which do not use their key *)
  Lemma agent_calls_keyless (ag : transformed K P S O A) :
    (forall k k' o, t_init ag k o = t_init ag k' o) ->
    (forall p s k k' o, t_apply ag p s k o = t_apply ag p s k' o) ->
    forall os q q' ps, fst (agent_calls next_key ag os (AgentObj q ps)) =
                       fst (agent_calls next_key ag os (AgentObj q' ps)).
  Proof.
    intros Hi Ha. induction os as [|o os IH]; intros q q' ps; cbn; auto.
    unfold agent_call. cbn.
    assert (E : exists a ps', forall q, exists q'',
      (let '(ps0, seq) := match ps with
         | Some ps => (ps, q)
         | None => let '(k, seq) := next_key q in (t_init ag (Some k) o, seq) end in
       let '(k, seq) := next_key seq in
       let '(a, s') := t_apply ag (fst ps0) (snd ps0) (Some k) o in
       (a, AgentObj seq (Some (fst ps0, s')))) = (a, AgentObj q'' (Some ps'))).
    { destruct ps as [[p s]|].
      - exists (fst (t_apply ag p s None o)), (p, snd (t_apply ag p s None o)). intros q0.
        destruct (next_key q0) as [k q1]. cbn. rewrite (Ha p s (Some k) None). destruct (t_apply ag p s None o).
        eauto.
      - destruct (t_init ag None o) as [p s] eqn:E.
        exists (fst (t_apply ag p s None o)), (p, snd (t_apply ag p s None o)). intros q0.
        destruct (next_key q0) as [k q1]. destruct (next_key q1) as [k' q2].
        rewrite (Hi (Some k) None), E. cbn.
        rewrite (Ha p s (Some k') None). destruct (t_apply ag p s None o). eauto. }
    destruct E as (a & ps' & E). destruct (E q) as [q1 ->]. destruct (E q') as [q2 ->].
    specialize (IH q1 q2 (Some ps')).
    destruct (agent_calls next_key ag os (AgentObj q1 (Some ps'))), (agent_calls next_key ag os (AgentObj q2 (Some ps'))).
    cbn in *. congruence.
  Qed.

  (** the environment *)
  Variables (rw0 : R) (env : transformed K P S (A * D) (R * O)).
  Lemma env_steps_init as_ : forall q p s (data : list (D * I)) i,
    length as_ <= length data ->
    fst (env_steps next_key rw0 env as_ (EnvObj q (Some (p, s)) data i)) =
    map (fun xi => (Some (snd (fst xi)), fst (fst xi), false, snd xi))
      (combine (fst (drive env p s (combine (map Some (take_keys next_key q (length as_)))
                                            (combine as_ (map fst data))))) (map snd data)).
  Proof.
    induction as_ as [|a as_ IH]; intros q p s data i Hl; cbn; auto.
    destruct data as [|[d i'] data]; cbn in Hl; [lia|].
    unfold env_step. cbn. destruct (next_key q) as [k q'] eqn:Ek. cbn.
    destruct (t_apply env p s (Some k) (a, d)) as [[r o] s'].
    specialize (IH q' p s' data i' ltac:(lia)).
    destruct (env_steps next_key rw0 env as_ (EnvObj q' (Some (p, s')) data i')). cbn in IH.
    destruct (drive env p s' _). cbn in *. now rewrite IH.
  Qed.
  Lemma env_is_unroll a as_ q k0 ks p s d i0 (data : list (D * I)) i :
    length as_ <= length data ->
    take_keys next_key q (length (a :: as_) + 1) = k0 :: ks -> t_init env (Some k0) (a, d) = (p, s) ->
    fst (env_steps next_key rw0 env (a :: as_) (EnvObj q None ((d, i0) :: data) i)) =
    map (fun xi => (Some (snd (fst xi)), fst (fst xi), false, snd xi))
      (combine (fst (drive env p s (combine (map Some ks) (combine (a :: as_) (d :: map fst data)))))
               (i0 :: map snd data)).
  Proof.
    intros Hl Hk Hi. rewrite Nat.add_1_r in Hk. cbn [take_keys] in Hk.
    destruct (next_key q) as [k1 q1] eqn:E1. assert (k1 = k0) by congruence.
    assert (Hks : take_keys next_key q1 (length (a :: as_)) = ks) by congruence. subst k1.
    pose proof (env_steps_init (a :: as_) q1 p s ((d, i0) :: data) i ltac:(cbn; lia)) as G.
    rewrite Hks in G. cbn [map fst snd] in G. etransitivity; [|exact G].
    cbn. unfold env_step. cbn. rewrite E1, Hi. reflexivity.
  Qed.
  (** done exactly when the generator is exhausted *)
  Lemma env_done as_ : forall (st : @env_obj Q P S D I) j x,
    nth_error (fst (env_steps next_key rw0 env as_ st)) j = Some x ->
    snd (fst x) = (length (e_data st) <=? j) /\
    (length (e_data st) <= j -> fst (fst x) = (None, rw0) /\
       snd x = last (map snd (e_data st)) (e_info st)).
  Proof.
    induction as_ as [|a as_ IH]; intros st j x Hj; cbn in Hj; [now destruct j|].
    destruct (env_step next_key rw0 env a st) as [y st1] eqn:Es.
    assert (Hst : e_data st1 = tl (e_data st) /\ snd (fst y) = (length (e_data st) <=? 0) /\
       match e_data st with [] => y = (None, rw0, true, e_info st) /\ e_info st1 = e_info st
       | di :: _ => e_info st1 = snd di end).
    { unfold env_step in Es. destruct (e_data st) as [|[d i'] r] eqn:Ed.
      - injection Es as <- <-. now rewrite Ed.
      - destruct (match e_ps st with Some ps => _ | None => _ end) as [ps seq].
        destruct (next_key seq) as [k seq']. destruct (t_apply env _ _ _ _) as [[r0 o0] s'].
        injection Es as <- <-. cbn. auto. }
    destruct Hst as (Hd & Hdn & Hi).
    destruct (env_steps next_key rw0 env as_ st1) as [xs st2] eqn:E2. cbn in Hj.
    destruct j as [|j]; cbn in Hj.
    - injection Hj as <-. split; auto. intros Hl. destruct (e_data st); [|cbn in Hl; lia].
      destruct Hi as [-> _]. auto.
    - assert (Hj' : nth_error (fst (env_steps next_key rw0 env as_ st1)) j = Some x) by now rewrite E2.
      destruct (IH _ _ _ Hj') as [H1 H2]. rewrite Hd in H1, H2.
      destruct (e_data st) as [|di r]; cbn in *.
      + rewrite H1. split; auto. intros _. destruct (H2 ltac:(lia)) as [G1 G2]. split; auto.
        rewrite G2. tauto.
      + split; auto. intros Hl. destruct (H2 ltac:(lia)) as [G1 G2]. split; auto. rewrite G2, Hi.
        clear. destruct (map snd r) as [|z zs] eqn:E; auto.
        assert (forall (a b : I) l, l <> [] -> last l a = last l b).
        { clear. induction l as [|x [|y l] IH]; intros H; auto; [congruence|]. cbn in *. apply IH. discriminate. }
        apply H. discriminate.
  Qed.
End Haiku.

(** *** gym_unroll with HaikuAgent and HaikuEnv *)
Section Loop.
  Context {Q K P S P' S' O A R I X : Type}.
  Variable next_key : Q -> K * Q.
  Variables (a0 : A) (rw0 : R) (ag : transformed K P S O A) (env : transformed K P' S' (A * O) (R * O)).
  Local Notation W := (X * (@agent_obj Q P S * @env_obj Q P' S' O I))%type.
  Local Notation callback := (@callback W (option O) A R I).
  Local Notation hag := (haiku_agent (X := X) (T := @env_obj Q P' S' O I) next_key a0 ag).
  Local Notation henv := (haiku_env (I := I) (X := X) (T := @agent_obj Q P S) next_key rw0 env).

  Definition result_of (s : @gym_state (option O) A R I) : option O * R * bool * I :=
    (obs s, rw s, done s, info s).

  Lemma haiku_iter (cbs : list callback) w it w' : callbacks_leave snd cbs ->
    iter_rel hag henv (somes (map on_act cbs)) (somes (map on_step cbs)) w it w' ->
    forall o, seen it = Some o ->
    exists ast est, agent_call next_key ag o (fst (snd w)) = (action (state it), ast) /\
      env_step next_key rw0 env (action (state it)) (snd (snd w)) = (result_of (state it), est) /\
      snd w' = (ast, est).
  Proof.
    intros Hc (w1 & w2 & l2 & w3 & l4 & Ea & E2 & E3 & E4 & _) o Ho.
    assert (G2 : snd w2 = snd w1).
    { change w2 with (fst (w2, l2)). rewrite <- E2.
      apply (run_act_get snd). intros c w0 Hc'%in_somes. apply in_map_iff in Hc' as (x & Hx & Hin).
      destruct (Hc x Hin) as (_ & H2 & _). auto. }
    assert (G4 : snd w' = snd w3).
    { change w' with (snd (fst (final it, w', l4))). rewrite <- E4.
      apply (run_step_get snd). intros c w0 Hc'%in_somes. apply in_map_iff in Hc' as (x & Hx & Hin).
      destruct (Hc x Hin) as (_ & _ & H3 & _). auto. }
    unfold haiku_agent in Ea. cbn in Ea. rewrite Ho in Ea.
    destruct (agent_call next_key ag o (fst (snd w))) as [a ast].
    assert (a = action (state it)) by congruence. subst a.
    assert (Hw1 : snd w1 = (ast, snd (snd w))) by (assert (w1 = (fst w, (ast, snd (snd w)))) by congruence; now subst w1).
    unfold haiku_env in E3. cbn in E3. rewrite G2, Hw1 in E3. cbn in E3.
    destruct (env_step next_key rw0 env (action (state it)) (snd (snd w))) as [x est].
    exists ast, est. split; auto. split.
    - unfold result_of. congruence.
    - rewrite G4. assert (Hw3 : w3 = (fst w2, (ast, est))) by congruence. now rewrite Hw3.
  Qed.

  Lemma env_step_obs a (st : @env_obj Q P' S' O I) x st' : env_step next_key rw0 env a st = (x, st') ->
    snd (fst x) = false -> exists o, fst (fst (fst x)) = Some o.
  Proof.
    unfold env_step. destruct (e_data st) as [|[d i] r].
    - intros [= <- <-]. discriminate.
    - intros H _. destruct (e_ps st) as [ps|]; [|destruct (next_key (e_seq st)) as [k0 q0]];
      match type of H with context [next_key ?q] => destruct (next_key q) as [k1 q1] end;
      match type of H with context [t_apply env ?a ?b ?c ?d] => destruct (t_apply env a b c d) as [[r0 o0] s'] end;
      injection H as <- <-; cbn; eauto.
  Qed.

  Lemma haiku_links (cbs : list callback) its : callbacks_leave snd cbs -> forall o w w',
    chained (Some o) its ->
    links hag henv (somes (map on_act cbs)) (somes (map on_step cbs)) w its w' ->
    exists os, map seen its = map Some os /\
      map (fun it => action (state it)) its = fst (agent_calls next_key ag os (fst (snd w))) /\
      map (fun it => result_of (state it)) its =
        fst (env_steps next_key rw0 env (map (fun it => action (state it)) its) (snd (snd w))).
  Proof.
    intros Hcb. induction its as [|it its IH]; intros o w w' Hc Hl; [destruct Hc|].
    cbn [links] in Hl. destruct Hl as (w1 & Hr & Hl).
    destruct Hc as [Hseen Hc]. destruct (haiku_iter cbs w it w1 Hcb Hr o Hseen) as (ast & est & E1 & E2 & E3).
    destruct its as [|it2 its].
    - exists [o]. cbn. rewrite Hseen, E1, E2. cbn. auto.
    - destruct Hc as [Hf Hc].
      assert (Hd : done (state it) = false). { unfold final in Hf. now apply orb_false_iff in Hf. }
      destruct (env_step_obs _ _ _ _ E2 Hd) as (o1 & Ho1). cbn in Ho1. rewrite Ho1 in Hc.
      destruct (IH o1 w1 w' Hc Hl) as (os & G1 & G2 & G3). rewrite E3 in G2, G3. cbn [fst snd] in G2, G3.
      exists (o :: os). set (rest := it2 :: its) in *. cbn [map agent_calls env_steps]. rewrite E1, E2, G1, Hseen.
      destruct (agent_calls next_key ag os ast) as [as_ st2] eqn:Ea. cbn [fst] in G2. rewrite G2 in *.
      split; auto. split; auto.
      destruct (env_steps next_key rw0 env as_ est) as [xs st3] eqn:Ex.
      cbn [fst] in *. now rewrite G3.
  Qed.

  Lemma env_steps_length as_ : forall (st : @env_obj Q P' S' O I),
    length (fst (env_steps next_key rw0 env as_ st)) = length as_.
  Proof.
    induction as_ as [|a as_ IH]; intros st; cbn; auto.
    destruct (env_step next_key rw0 env a st) as [x st1]. specialize (IH st1).
    destruct (env_steps next_key rw0 env as_ st1). cbn in *. auto.
  Qed.

  (** C59: the agent is the unrolled agent function on the observations, the environment the unrolled
      environment function on the actions and the data; the end is the end of the data *)
  Lemma haiku_unroll (cbs : list callback) fuel (x : X) qa (es : @env_obj Q P' S' O I) d0 i0 data s w' l :
    callbacks_leave snd cbs -> e_data es = (d0, i0) :: data ->
    gym_unroll hag henv None cbs fuel (x, (AgentObj qa None, es)) = Some (s, w', l) ->
    exists its os,
      l = run_log false (Some d0) (count_some (map on_train_start cbs))
            (count_some (map on_act cbs)) (count_some (map on_train_end cbs)) its /\
      chained (Some d0) its /\
      map seen its = map Some os /\
      map (fun it => action (state it)) its = fst (agent_calls next_key ag os (AgentObj qa None)) /\
      map (fun it => (obs (state it), rw (state it), done (state it), info (state it))) its =
        fst (env_steps next_key rw0 env (map (fun it => action (state it)) its) (EnvObj (e_seq es) None data i0)) /\
      (length its <= length data + 1) /\
      (length its = length data + 1 \/ exists it, hd_error (rev its) = Some it /\ In true (answers it)).
  Proof.
    intros Hcb Hdata H.
    destruct (gym_unroll_inv _ _ _ _ _ _ _ _ _ H) as (its & w2 & Hc & Hl & _ & Hs & Hw & El).
    assert (G : fst (start_world henv None cbs (x, (AgentObj qa None, es))) = Some d0 /\
                snd (snd (start_world henv None cbs (x, (AgentObj qa None, es)))) =
                  (AgentObj qa None, EnvObj (e_seq es) None data i0)).
    { unfold start_world. cbn. unfold env_reset. rewrite Hdata. cbn. split; auto.
      rewrite (run_start_get snd).
      - reflexivity.
      - intros c w0 Hc'%in_somes. apply in_map_iff in Hc' as (y & Hy & Hin).
        destruct (Hcb y Hin) as (H1 & _). auto. }
    destruct G as [G1 G2]. rewrite G1 in Hc, El.
    destruct (haiku_links cbs its Hcb d0 _ _ Hc Hl) as (os & Hos & Has & Hes). rewrite G2 in Has, Hes.
    cbn [fst snd] in Has, Hes.
    exists its, os. split; auto. split; auto. split; auto. split; auto. split; auto.
    assert (Hdone : forall i it, nth_error its i = Some it -> done (state it) = (length data <=? i)).
    { intros i it Hi.
      pose proof (map_nth_error (fun it => result_of (state it)) i its Hi) as Hm. rewrite Hes in Hm.
      apply env_done in Hm. cbn in Hm. tauto. }
    assert (Hle : length its <= length data + 1).
    { destruct (le_lt_dec (length its) (length data + 1)) as [|Hlt]; auto. exfalso.
      destruct (nth_error_lt its (length data)) as (it & Hit); [lia|].
      pose proof (Hdone _ _ Hit) as Hd. rewrite Nat.leb_refl in Hd.
      pose proof (chained_not_final _ _ Hc _ _ Hit) as Hf. unfold final in Hf. rewrite Hd, orb_true_l in Hf.
      symmetry in Hf. apply Nat.eqb_eq in Hf. lia. }
    split; auto.
    destruct (snoc_cases its) as [->|(its' & it & ->)]; [destruct Hc|].
    assert (Hi : nth_error (its' ++ [it]) (length its') = Some it).
    { now rewrite nth_error_app2, Nat.sub_diag by lia. }
    pose proof (chained_not_final _ _ Hc _ _ Hi) as Hf. pose proof (Hdone _ _ Hi) as Hd.
    rewrite app_length in *. cbn [length] in Hf, Hle |- *. rewrite Nat.add_1_r, Nat.eqb_refl in Hf.
    unfold final in Hf. rewrite Hd in Hf.
    destruct (Nat.leb_spec (length data) (length its')) as [Hl1|Hl1].
    - left. lia.
    - right. exists it. rewrite rev_app_distr. split; auto. cbn in Hf.
      apply existsb_exists in Hf as (b & Hb & ->). auto.
  Qed.

  Lemma haiku_unroll_runs (cbs : list callback) (x : X) (st : @agent_obj Q P S) (es : @env_obj Q P' S' O I) o :
    callbacks_leave (fun w : W => length (e_data (snd (snd w)))) cbs ->
    exists r, gym_unroll hag henv o cbs (length (e_data es) + 1) (x, (st, es)) = Some r.
  Proof.
    intros Hcb. rewrite Nat.add_1_r.
    apply (env_terminates hag henv cbs (fun w => length (e_data (snd (snd w)))) o (x, (st, es))); auto.
    - intros w. cbn. unfold env_reset. destruct (e_data (snd (snd w))) as [|[d i] r] eqn:E; cbn; rewrite ?E; cbn; auto.
    - intros [o'|] w; cbn; auto. destruct (agent_call next_key ag o' (fst (snd w))). reflexivity.
    - intros a w. unfold haiku_env. cbn. unfold env_step. destruct (e_data (snd (snd w))) as [|[d i] r]; [left; reflexivity|].
      right. destruct (match e_ps _ with Some ps => _ | None => _ end) as [ps seq].
      destruct (next_key seq). destruct (t_apply env _ _ _ _) as [[r0 o0] s']. cbn. auto.
  Qed.
End Loop.
