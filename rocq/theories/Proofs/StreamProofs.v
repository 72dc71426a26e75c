(** Proofs about merged streams (C40-C45). *)
From Coq Require Import ZArith List Bool Lia.
From Verif Require Import Model.Encode Model.Stream Spec.StreamSpec Proofs.ListFacts Proofs.EncodeProofs.
Import ListNotations.

Lemma skipn_skipn' {A} (l : list A) a b : skipn a (skipn b l) = skipn (b + a) l.
Proof.
  revert l; induction b as [|b IH]; intros [|x l]; cbn; auto.
  now destruct a.
Qed.

Lemma lastn_snoc {A} n (l : list A) c :
  skipn (length (lastn n l ++ [c]) - n) (lastn n l ++ [c]) = lastn n (l ++ [c]).
Proof.
  unfold lastn. rewrite !app_length, skipn_length. cbn [length].
  destruct (le_lt_dec n (length l)) as [H|H].
  - replace (length l - (length l - n) + 1 - n) with 1 by lia.
    replace (length l + 1 - n) with (length l - n + 1) by lia.
    rewrite (skipn_app (length l - n + 1)).
    destruct (Nat.eq_dec n 0) as [->|Hn].
    + rewrite Nat.sub_0_r, (skipn_all2 l (n := length l)) by lia. cbn.
      rewrite (skipn_all2 l) by lia.
      replace (length l + 1 - length l) with 1 by lia. reflexivity.
    + replace (length l - n + 1 - length l) with 0 by lia. rewrite skipn_O.
      rewrite skipn_app, skipn_length.
      replace (1 - (length l - (length l - n))) with 0 by lia. rewrite skipn_O.
      rewrite skipn_skipn'. reflexivity.
  - replace (length l - n) with 0 by lia. cbn [skipn].
    replace (length l - 0 + 1 - n) with 0 by lia. replace (length l + 1 - n) with 0 by lia. reflexivity.
Qed.

Lemma nth_firstn_if {A} (l : list A) n i :
  nth_error (firstn n l) i = if i <? n then nth_error l i else None.
Proof.
  destruct (Nat.ltb_spec i n) as [H|H]; [now apply nth_error_firstn|].
  apply nth_error_None. rewrite firstn_length. lia.
Qed.

Lemma nth_map_inv {A B} (f : A -> B) l i b : nth_error (map f l) i = Some b ->
  exists a, nth_error l i = Some a /\ b = f a.
Proof.
  revert i; induction l as [|x l IH]; intros [|i]; cbn; try discriminate; eauto.
  intros [= <-]. eauto.
Qed.

Lemma skipn_repeat {A} (x : A) n m : skipn m (repeat x n) = repeat x (n - m).
Proof. revert n; induction m; intros [|n]; cbn; auto. Qed.

Lemma pad_lastn {A} n (x : A) (l : list A) : n <> 0 ->
  repeat x (n - length (lastn n (x :: l))) ++ lastn n (x :: l) = lastn n (repeat x n ++ l).
Proof.
  intros Hn. unfold lastn. rewrite skipn_length, app_length, repeat_length. cbn [length].
  replace (n + length l - n) with (length l) by lia.
  rewrite (skipn_app (length l)), repeat_length, skipn_repeat.
  destruct (le_lt_dec n (S (length l))) as [H|H].
  - replace (n - (S (length l) - (S (length l) - n))) with 0 by lia. cbn [repeat app].
    destruct (Nat.eq_dec n (S (length l))) as [->|H'].
    + replace (S (length l) - S (length l)) with 0 by lia.
      replace (S (length l) - length l) with 1 by lia.
      replace (length l - S (length l)) with 0 by lia. reflexivity.
    + replace (n - length l) with 0 by lia.
      replace (S (length l) - n) with (S (length l - n)) by lia. reflexivity.
  - replace (S (length l) - n) with 0 by lia. replace (length l - n) with 0 by lia. cbn [skipn].
    replace (n - (S (length l) - 0)) with (n - length l - 1) by lia.
    replace (n - length l) with ((n - length l - 1) + 1) at 2 by lia.
    rewrite repeat_app. cbn [repeat]. now rewrite <- app_assoc.
Qed.

Section P.
  Context {V : Type}.
  Local Notation obs := (@obs V).
  Local Notation cell := (@cell V).
  Local Notation sec_cfg := (@sec_cfg V).
  Local Notation sec_state := (@sec_state V).

  Fixpoint takeW (T : Z) (Q : list obs) : list obs :=
    match Q with [] => [] | o :: r => if Z.ltb (fst o) T then o :: takeW T r else [] end.
  Fixpoint dropW (T : Z) (Q : list obs) : list obs :=
    match Q with [] => [] | o :: r => if Z.ltb (fst o) T then dropW T r else Q end.

  Definition out_of (cfg : sec_cfg) (P : list obs) : out :=
    match maxlen cfg with
    | Some n => Win (padded_window n (init_obs cfg) P)
    | None => One (last (map real P) (init_obs cfg))
    end.
  Definition dq (cfg : sec_cfg) (P : list obs) : list cell :=
    match maxlen cfg with Some n => lastn n (init_obs cfg :: map real P) | None => [] end.
  Definition okcfg (cfg : sec_cfg) : Prop := maxlen cfg <> Some 0.
  Definition pend (Q : list obs) := match Q with [] => None | o :: r => Some (o, r) end.

  Lemma buffer_out_spec cfg P o : okcfg cfg ->
    buffer_out cfg (dq cfg P) (real o) = (out_of cfg (P ++ [o]), dq cfg (P ++ [o])).
  Proof.
    intros Hok. unfold buffer_out, dq, out_of, okcfg in *.
    destruct (maxlen cfg) as [n|].
    - assert (n <> 0) by congruence. unfold deque_append, deque_to_list, padded_window.
      rewrite lastn_snoc, map_app. cbn [map].
      change ((init_obs cfg :: map real P) ++ [real o]) with (init_obs cfg :: (map real P ++ [real o])).
      now rewrite pad_lastn.
    - rewrite map_app. cbn. now rewrite last_last.
  Qed.

  Lemma read_loop_spec cfg T Q : forall P, okcfg cfg ->
    read_loop cfg T Q (dq cfg P) (out_of cfg P) =
    (pend (dropW (embed cfg T) Q), dq cfg (P ++ takeW (embed cfg T) Q), out_of cfg (P ++ takeW (embed cfg T) Q)).
  Proof.
    induction Q as [|o Q IH]; intros P Hok; cbn [read_loop takeW dropW].
    - now rewrite app_nil_r.
    - unfold timestamp_is_before_local. destruct (fst o <? embed cfg T)%Z.
      + rewrite buffer_out_spec by auto. rewrite IH by auto. now rewrite <- !app_assoc.
      + now rewrite app_nil_r.
  Qed.

  Definition rep (cfg : sec_cfg) (st : sec_state) (P Q : list obs) : Prop :=
    pending st = pend Q /\ deque st = dq cfg P /\ stored st = out_of cfg (if ffill cfg then P else []).

  (** The output of one step, which reads [tw] after [P] *)
  Definition result (cfg : sec_cfg) (P tw : list obs) : out :=
    if ffill cfg then out_of cfg (P ++ tw)
    else match tw with [] => out_of cfg [] | _ => out_of cfg (P ++ tw) end.

  Lemma sec_step_spec cfg st P Q T : okcfg cfg -> rep cfg st P Q ->
    fst (sec_step cfg st T) = result cfg P (takeW (embed cfg T) Q) /\
    rep cfg (snd (sec_step cfg st T)) (P ++ takeW (embed cfg T) Q) (dropW (embed cfg T) Q).
  Proof.
    intros Hok (Hp & Hd & Hs). unfold sec_step, result, rep. rewrite Hp, Hd.
    destruct Q as [|o r]; cbn [pend takeW dropW].
    - rewrite app_nil_r. cbn. rewrite Hp, Hd, Hs. repeat split; now destruct (ffill cfg).
    - unfold timestamp_is_before_local. destruct (fst o <? embed cfg T)%Z eqn:E.
      + rewrite buffer_out_spec, read_loop_spec by auto. cbn.
        rewrite <- app_assoc. cbn. rewrite Hs. repeat split; now destruct (ffill cfg).
      + cbn. rewrite app_nil_r, Hs. repeat split; now destruct (ffill cfg).
  Qed.

  (** What is read at the successive times *)
  Fixpoint con (e : Z -> Z) (Ts : list Z) (Q : list obs) : list obs * list obs :=
    match Ts with
    | [] => ([], Q)
    | T :: Ts => let '(P, Q') := con e Ts (dropW (e T) Q) in (takeW (e T) Q ++ P, Q')
    end.

  Lemma merge_loop_local (locals : list obs) : forall (cfgs : list sec_cfg) sts, map fst (merge_loop cfgs sts locals) = locals.
  Proof. induction locals as [|o l IH]; intros; cbn; [|rewrite IH]; auto. Qed.

  Lemma merge_loop_outs (locals : list obs) : forall cfgs sts (Hl : length sts = length cfgs) j o outs,
    nth_error (merge_loop cfgs sts locals) j = Some (o, outs) -> length outs = length cfgs.
  Proof.
    induction locals as [|lo l IH]; intros cfgs sts Hl j o outs Hj; cbn in Hj.
    - now destruct j.
    - destruct j as [|j]; cbn in Hj.
      + assert (outs = map fst (map (fun cs : sec_cfg * sec_state => sec_step (fst cs) (snd cs) (fst lo)) (combine cfgs sts)))
          by congruence. subst. rewrite !map_length, combine_length. lia.
      + eapply IH in Hj; auto. rewrite !map_length, combine_length. lia.
  Qed.

  Lemma nth_error_combine {A B} : forall (l : list A) (l' : list B) i a b,
    nth_error l i = Some a -> nth_error l' i = Some b -> nth_error (combine l l') i = Some (a, b).
  Proof.
    induction l as [|x l IH]; intros [|y l'] [|i] a b Ha Hb; cbn in *; try discriminate; auto.
    congruence.
  Qed.

  Lemma merge_loop_lane (locals : list obs) : forall cfgs sts i cfg st P Q j o outs,
    length sts = length cfgs -> nth_error cfgs i = Some cfg -> nth_error sts i = Some st ->
    okcfg cfg -> rep cfg st P Q ->
    nth_error (merge_loop cfgs sts locals) j = Some (o, outs) ->
    let c := con (embed cfg) (map fst (firstn j locals)) Q in
    nth_error locals j = Some o /\
    nth_error outs i = Some (result cfg (P ++ fst c) (takeW (embed cfg (fst o)) (snd c))).
  Proof.
    induction locals as [|lo l IH]; intros cfgs sts i cfg st P Q j o outs Hl Hc Hs Hok Hrep Hj;
      cbn [merge_loop] in Hj; [now destruct j|].
    destruct (sec_step_spec cfg st P Q (fst lo) Hok Hrep) as [Hout Hrep'].
    pose proof (nth_error_combine _ _ _ _ _ Hc Hs) as Hcs.
    destruct j as [|j]; cbn [nth_error] in Hj.
    - cbn. assert (lo = o) by congruence. subst lo. split; auto.
      assert (E : outs = map fst (map (fun cs : sec_cfg * sec_state => sec_step (fst cs) (snd cs) (fst o)) (combine cfgs sts)))
          by congruence.
      rewrite E, map_map. erewrite map_nth_error; [|exact Hcs]. cbn. now rewrite Hout, app_nil_r.
    - cbn [firstn map con]. eapply IH in Hj; eauto.
      + cbn [nth_error]. destruct (con (embed cfg) (map fst (firstn j l)) (dropW (embed cfg (fst lo)) Q)) as [P' Q'].
        cbn in Hj |- *. rewrite <- app_assoc in Hj. exact Hj.
      + rewrite !map_length, combine_length. lia.
      + rewrite map_map. erewrite map_nth_error; [|exact Hcs]. reflexivity.
  Qed.

  Lemma sec_init_spec cfg g st : sec_init cfg g = Some st -> g <> [] /\ okcfg cfg /\ rep cfg st [] g.
  Proof.
    unfold sec_init, okcfg, rep. destruct g as [|o r]; [discriminate|].
    destruct (maxlen cfg) as [[|n]|] eqn:E; [discriminate| |]; unfold buffer_out; rewrite E; cbn [app];
      intros H; assert (st = SecState (pending st) (deque st) (stored st)) by now destruct st.
    - remember (deque_append (S n) [] (init_obs cfg)) as d. injection H as <-. cbn [pending deque stored].
      split; [discriminate|]. split; [discriminate|]. split; [reflexivity|]. subst d.
      unfold dq, out_of. rewrite E. split.
      + reflexivity.
      + replace (if ffill cfg then [] else []) with (@nil obs) by now destruct (ffill cfg).
        unfold padded_window. cbn [map]. f_equal.
        unfold deque_to_list. rewrite <- pad_lastn by discriminate. reflexivity.
    - injection H as <-. cbn [pending deque stored]. split; [discriminate|]. split; [discriminate|].
      split; [reflexivity|]. unfold dq, out_of. rewrite E. split; auto. now destruct (ffill cfg).
  Qed.

  Lemma merge_inv (local : list obs) secs items : merge local secs = Some items ->
    exists l0 locals sts, local = l0 :: locals /\
      Forall2 (fun cg st => sec_init (fst cg) (snd cg) = Some st) secs sts /\
      items = merge_loop (map fst secs) sts locals.
  Proof.
    unfold merge. destruct local as [|l0 locals]; [discriminate|].
    destruct (mapM _ secs) as [sts|] eqn:E; [|discriminate]. intros H.
    exists l0, locals, sts. split; auto. split; [|congruence]. now apply mapM_Forall2 in E.
  Qed.

  Lemma F2_nth {A B} (Rl : A -> B -> Prop) l l' : Forall2 Rl l l' -> forall i a, nth_error l i = Some a ->
    exists b, nth_error l' i = Some b /\ Rl a b.
  Proof.
    induction 1; intros [|i] a Hi; cbn in *; try discriminate; eauto.
    injection Hi as <-. eauto.
  Qed.
  Lemma F2_len {A B} (Rl : A -> B -> Prop) l l' : Forall2 Rl l l' -> length l = length l'.
  Proof. induction 1; cbn; auto. Qed.

  Lemma merge_local (local : list obs) secs items : merge local secs = Some items -> map fst items = tl local.
  Proof.
    intros H. apply merge_inv in H as (l0 & locals & sts & -> & HF & ->). now rewrite merge_loop_local.
  Qed.

  Lemma merge_outs (local : list obs) secs items j o outs : merge local secs = Some items ->
    nth_error items j = Some (o, outs) -> length outs = length secs.
  Proof.
    intros H Hj. apply merge_inv in H as (l0 & locals & sts & -> & HF & ->).
    apply F2_len in HF. erewrite merge_loop_outs; eauto; rewrite map_length; auto.
  Qed.

  Lemma merge_lane (local : list obs) secs items j o outs i cfg g : merge local secs = Some items ->
    nth_error items j = Some (o, outs) -> nth_error secs i = Some (cfg, g) ->
    let c := con (embed cfg) (map fst (firstn j (tl local))) g in
    nth_error (tl local) j = Some o /\
    nth_error outs i = Some (result cfg (fst c) (takeW (embed cfg (fst o)) (snd c))).
  Proof.
    intros H Hj Hi. apply merge_inv in H as (l0 & locals & sts & -> & HF & ->). cbn [tl].
    destruct (F2_nth _ _ _ HF _ _ Hi) as (st & Hst & Hinit). cbn in Hinit.
    apply sec_init_spec in Hinit as (_ & Hok & Hrep).
    refine (merge_loop_lane locals _ _ i cfg st [] g j o outs _ _ Hst Hok Hrep Hj).
    - apply F2_len in HF. rewrite map_length. auto.
    - erewrite map_nth_error; [|exact Hi]. reflexivity.
  Qed.

  (** *** Read prefixes and times *)
  Lemma take_drop T Q : takeW T Q ++ dropW T Q = Q.
  Proof. induction Q as [|o Q IH]; cbn; auto. destruct (_ <? _)%Z; cbn; congruence. Qed.
  Lemma takeW_before T Q o : In o (takeW T Q) -> (fst o < T)%Z.
  Proof.
    induction Q as [|x Q IH]; cbn; [tauto|]. destruct (Z.ltb_spec (fst x) T); cbn; [|tauto].
    intros [->|]; auto.
  Qed.
  Lemma con_split e Ts : forall Q, fst (con e Ts Q) ++ snd (con e Ts Q) = Q.
  Proof.
    induction Ts as [|T Ts IH]; intros Q; cbn; auto.
    specialize (IH (dropW (e T) Q)). destruct (con e Ts (dropW (e T) Q)) as [P Q']. cbn in *.
    rewrite <- app_assoc, IH. apply take_drop.
  Qed.
  Lemma con_before e Ts : forall Q o, In o (fst (con e Ts Q)) -> exists T, In T Ts /\ (fst o < e T)%Z.
  Proof.
    induction Ts as [|T Ts IH]; intros Q o; cbn; [tauto|].
    specialize (IH (dropW (e T) Q)). destruct (con e Ts (dropW (e T) Q)) as [P Q']. cbn in *.
    intros [H|H]%in_app_or.
    - apply takeW_before in H. eauto.
    - destruct (IH _ H) as (T' & ? & ?). eauto.
  Qed.
  Lemma con_snoc e Ts T Q : con e (Ts ++ [T]) Q =
    (fst (con e Ts Q) ++ takeW (e T) (snd (con e Ts Q)), dropW (e T) (snd (con e Ts Q))).
  Proof.
    revert Q. induction Ts as [|T0 Ts IH]; intros Q; cbn.
    - now rewrite app_nil_r.
    - rewrite IH. destruct (con e Ts (dropW (e T0) Q)) as [P Q']. cbn. now rewrite app_assoc.
  Qed.

  Lemma out_cells cfg P t v : In (Some t, v) (cells (out_of cfg P)) -> In (t, v) P.
  Proof.
    unfold out_of. destruct (maxlen cfg) as [n|]; cbn.
    - unfold padded_window, lastn. intros H.
      assert (Hin : In (Some t, v) (repeat (init_obs cfg) n ++ map real P)).
      { rewrite <- (firstn_skipn (length (repeat (init_obs cfg) n ++ map real P) - n)).
        apply in_or_app. now right. }
      apply in_app_or in Hin as [Hin|Hin].
      + apply repeat_spec in Hin. discriminate.
      + apply in_map_iff in Hin as ([t' v'] & E & Hin). unfold real in E. cbn in E. injection E as -> ->. exact Hin.
    - intros [H|[]]. destruct (snoc_cases P) as [->|(P' & [t' v'] & ->)].
      + discriminate.
      + rewrite map_app in H. cbn in H. rewrite last_last in H. unfold real in H. cbn in H.
        apply in_or_app. right. left. congruence.
  Qed.

  Lemma result_cells cfg P tw t v : In (Some t, v) (cells (result cfg P tw)) -> In (t, v) (P ++ tw).
  Proof.
    unfold result. destruct (ffill cfg).
    - apply out_cells.
    - destruct tw; intros H; [apply out_cells in H; destruct H|now apply out_cells in H].
  Qed.

  (** C40 *)
  Lemma merge_shows_past (local : list obs) secs items j o outs i cfg g out t v : merge local secs = Some items ->
    nth_error items j = Some (o, outs) -> nth_error secs i = Some (cfg, g) ->
    nth_error outs i = Some out -> In (Some t, v) (cells out) ->
    In (t, v) g /\ exists T, In T (map fst (firstn (S j) (tl local))) /\ (t < embed cfg T)%Z.
  Proof.
    intros H Hj Hi Ho Hin. destruct (merge_lane _ _ _ _ _ _ _ _ _ H Hj Hi) as [Hoj Hr].
    rewrite Ho in Hr. assert (E : out = result cfg
       (fst (con (embed cfg) (map fst (firstn j (tl local))) g))
       (takeW (embed cfg (fst o)) (snd (con (embed cfg) (map fst (firstn j (tl local))) g)))) by congruence.
    subst out. apply result_cells in Hin.
    set (Ts := map fst (firstn j (tl local))) in *.
    assert (Hin' : In (t, v) (fst (con (embed cfg) (Ts ++ [fst o]) g))) by (rewrite con_snoc; exact Hin).
    split.
    - rewrite <- (con_split (embed cfg) (Ts ++ [fst o]) g). apply in_or_app. now left.
    - apply con_before in Hin' as (T & HT & Hb). exists T. split; auto.
      erewrite firstn_snoc by eauto. now rewrite map_app.
  Qed.

  Lemma takeW_future T P F : (forall o, In o F -> (T <= fst o)%Z) ->
    takeW T (P ++ F) = takeW T P /\ dropW T (P ++ F) = dropW T P ++ F.
  Proof.
    intros HF. induction P as [|o P IH]; cbn.
    - destruct F as [|o F]; cbn; auto. specialize (HF o (or_introl eq_refl)).
      destruct (Z.ltb_spec (fst o) T); [lia|auto].
    - destruct IH as [-> ->]. destruct (_ <? _)%Z; auto.
  Qed.
  Lemma con_future e F Ts : (forall T o, In T Ts -> In o F -> (e T <= fst o)%Z) -> forall P,
    con e Ts (P ++ F) = (fst (con e Ts P), snd (con e Ts P) ++ F).
  Proof.
    induction Ts as [|T Ts IH]; intros HF P; cbn; auto.
    destruct (takeW_future (e T) P F) as [-> ->]. { intros; apply HF; cbn; auto. }
    rewrite IH by (intros; apply HF; cbn; auto).
    now destruct (con e Ts (dropW (e T) P)).
  Qed.

  Lemma merge_causal (first first' : obs) past future future' secs secs' items items' :
    merge (first :: past ++ future) secs = Some items ->
    merge (first' :: past ++ future') secs' = Some items' ->
    same_past (map fst past) secs secs' ->
    firstn (length past) items = firstn (length past) items'.
  Proof.
    intros H H' Hsame. pose proof (merge_local _ _ _ H) as HL. pose proof (merge_local _ _ _ H') as HL'.
    cbn [tl] in *.
    assert (Hlen : length past <= length items).
    { rewrite <- (map_length fst items), HL, app_length. lia. }
    assert (Hlen' : length past <= length items').
    { rewrite <- (map_length fst items'), HL', app_length. lia. }
    apply nth_error_ext. intros j.
    rewrite !nth_firstn_if.
    destruct (Nat.ltb_spec j (length past)) as [Hj|Hj]; [|reflexivity].
    destruct (nth_error_lt items j) as ([o outs] & Ej); [lia|].
    destruct (nth_error_lt items' j) as ([o' outs'] & Ej'); [lia|].
    rewrite Ej, Ej'.
    assert (Eo : nth_error past j = Some o).
    { pose proof (map_nth_error fst _ _ Ej) as E. rewrite HL, nth_error_app1 in E by lia. exact E. }
    assert (Eo' : nth_error past j = Some o').
    { pose proof (map_nth_error fst _ _ Ej') as E. rewrite HL', nth_error_app1 in E by lia. exact E. }
    assert (o' = o) by congruence. subst o'. do 2 f_equal.
    apply nth_error_ext. intros i.
    pose proof (F2_len _ _ _ Hsame) as Hll.
    destruct (nth_error secs i) as [[cfg g]|] eqn:Es.
    - destruct (F2_nth _ _ _ Hsame _ _ Es) as ([cfg' g'] & Es' & Hcfg & pst & fut & fut' & Hg & Hg' & Hfut).
      cbn in Hcfg, Hg, Hg', Hfut. subst cfg'.
      destruct (merge_lane _ _ _ _ _ _ _ _ _ H Ej Es) as [_ R1].
      destruct (merge_lane _ _ _ _ _ _ _ _ _ H' Ej' Es') as [_ R2].
      rewrite R1, R2. cbn [tl].
      rewrite !firstn_app. replace (j - length past) with 0 by lia. cbn [firstn]. rewrite !app_nil_r.
      assert (HinT : forall T, In T (map fst (firstn j past)) -> In T (map fst past)).
      { intros T (x & <- & Hx)%in_map_iff. apply in_map.
        rewrite <- (firstn_skipn j past). apply in_or_app. now left. }
      assert (Hino : In (fst o) (map fst past)). { apply in_map. eapply nth_error_In; eauto. }
      subst g g'. rewrite !con_future.
      2:{ intros; apply Hfut; auto. apply in_or_app; auto. }
      2:{ intros; apply Hfut; auto. apply in_or_app; auto. }
      cbn [fst snd].
      f_equal. f_equal.
      transitivity (takeW (embed cfg (fst o)) (snd (con (embed cfg) (map fst (firstn j past)) pst))).
      + apply takeW_future. intros; apply Hfut; auto. apply in_or_app; auto.
      + symmetry. apply takeW_future. intros; apply Hfut; auto. apply in_or_app; auto.
    - apply nth_error_None in Es.
      pose proof (merge_outs _ _ _ _ _ _ H Ej). pose proof (merge_outs _ _ _ _ _ _ H' Ej').
      transitivity (@None (@out V)); [|symmetry]; apply nth_error_None.
      + etransitivity; [|exact Es]. now apply Nat.eq_le_incl.
      + etransitivity; [|exact Es]. apply Nat.eq_le_incl. etransitivity; [eassumption|]. now symmetry.
  Qed.

  (** *** Chronological streams *)
  Lemma chrono_cons (o : obs) g : chronological (o :: g) -> chronological g /\ forall x, In x g -> (fst o <= fst x)%Z.
  Proof.
    intros H. split.
    - intros i j a b Hij Ha Hb. apply (H (S i) (S j) a b); auto. lia.
    - intros x [i Hi]%In_nth_error. apply (H 0 (S i) o x); auto. lia.
  Qed.
  Lemma filter_none {A} (p : A -> bool) l : (forall x, In x l -> p x = false) -> filter p l = [].
  Proof.
    induction l as [|a l IH]; cbn; intros H; auto. rewrite H by auto. apply IH. auto.
  Qed.
  Lemma takeW_filter T g : chronological g -> takeW T g = strictly_before T g.
  Proof.
    unfold strictly_before. induction g as [|o g IH]; intros Hc; cbn; auto.
    apply chrono_cons in Hc as [Hc Hle]. destruct (Z.ltb_spec (fst o) T) as [Hlt|Hge].
    - now rewrite IH.
    - symmetry. apply filter_none. intros x Hx. specialize (Hle x Hx). apply Z.ltb_ge. lia.
  Qed.
  Lemma chrono_dropW T g : chronological g -> chronological (dropW T g).
  Proof.
    induction g as [|o g IH]; intros Hc; cbn; auto. destruct (_ <? _)%Z; auto.
    apply IH. now apply chrono_cons in Hc.
  Qed.
  Lemma takeW_takeW a b g : (a <= b)%Z ->
    takeW a g ++ takeW b (dropW a g) = takeW b g /\ dropW b (dropW a g) = dropW b g.
  Proof.
    intros Hab. induction g as [|o g [IH1 IH2]]; cbn; auto.
    destruct (Z.ltb_spec (fst o) a) as [Hlt|Hge].
    - destruct (Z.ltb_spec (fst o) b); [|lia]. cbn. rewrite IH1. auto.
    - cbn. auto.
  Qed.
  Lemma between_take a b g : chronological g -> takeW b (dropW a g) = between a b g.
  Proof.
    intros Hc. rewrite (takeW_filter b) by now apply chrono_dropW.
    unfold strictly_before, between. induction g as [|o g IH]; cbn; auto.
    apply chrono_cons in Hc as [Hc Hle]. rewrite Z.ltb_antisym.
    destruct (Z.leb_spec a (fst o)) as [Hge|Hlt]; cbn [negb andb].
    - cbn [filter]. assert (E : filter (fun o0 : obs => (a <=? fst o0)%Z && (fst o0 <? b)%Z) g =
        filter (fun o0 : obs => (fst o0 <? b)%Z) g).
      { apply filter_ext_in. intros x Hx. specialize (Hle x Hx). now rewrite (proj2 (Z.leb_le a (fst x))) by lia. }
      destruct (fst o <? b)%Z; [f_equal|]; symmetry; exact E.
    - now apply IH.
  Qed.

  Lemma con_sorted e (L : list Z) Ts g : monotone_on L e -> (forall a, In a Ts -> In a L) ->
    (forall i j a b, i < j -> nth_error Ts i = Some a -> nth_error Ts j = Some b -> (a <= b)%Z) ->
    forall T, In T L -> (forall a, In a Ts -> (a <= T)%Z) ->
    con e (Ts ++ [T]) g = (takeW (e T) g, dropW (e T) g).
  Proof.
    intros He. induction Ts as [|T0 Ts IH] using rev_ind; intros HL Hs T HTL HT.
    - cbn. now rewrite app_nil_r.
    - rewrite con_snoc.
      assert (HT0 : (e T0 <= e T)%Z). { apply He; auto; [apply HL|apply HT]; apply in_or_app; cbn; auto. }
      rewrite IH; cbn [fst snd]; try (apply HL, in_or_app; cbn; auto; fail).
      + destruct (takeW_takeW (e T0) (e T) g HT0) as [-> ->]. reflexivity.
      + intros a Ha. apply HL, in_or_app. auto.
      + intros i j a b Hij Ha Hb. apply (Hs i j); auto; rewrite nth_error_app1; auto;
          apply nth_error_Some; congruence.
      + intros a [i Hi]%In_nth_error. apply (Hs i (length Ts)).
        * apply nth_error_Some. congruence.
        * rewrite nth_error_app1; auto. apply nth_error_Some. congruence.
        * now rewrite nth_error_app2, Nat.sub_diag by lia.
  Qed.

  Lemma chrono_times g i j a b : chronological g -> i < j ->
    nth_error (map fst g) i = Some a -> nth_error (map (@fst Z V) g) j = Some b -> (a <= b)%Z.
  Proof.
    intros Hc Hij (x & Hx & ->)%nth_map_inv (y & Hy & ->)%nth_map_inv. exact (Hc i j x y Hij Hx Hy).
  Qed.
  Lemma chrono_firstn (g : list obs) n : chronological g -> chronological (firstn n g).
  Proof.
    intros Hc i j a b Hij Ha Hb. rewrite nth_firstn_if in Ha, Hb.
    destruct (i <? n); destruct (j <? n); try discriminate. now apply (Hc i j).
  Qed.

  (** Position of step [j]: what was read before ([P]) and at this step ([tw]) *)
  Lemma merge_chrono (local : list obs) secs items j o outs i cfg g : merge local secs = Some items ->
    nth_error items j = Some (o, outs) -> nth_error secs i = Some (cfg, g) ->
    chronological (tl local) -> chronological g -> monotone_on (map fst (tl local)) (embed cfg) ->
    nth_error outs i = Some (
      match j with
      | 0 => result cfg [] (strictly_before (embed cfg (fst o)) g)
      | S k => match nth_error (tl local) k with
               | None => result cfg [] []
               | Some p => result cfg (strictly_before (embed cfg (fst p)) g)
                                      (between (embed cfg (fst p)) (embed cfg (fst o)) g)
               end
      end).
  Proof.
    intros H Hj Hi Hcl Hcg He.
    destruct (merge_lane _ _ _ _ _ _ _ _ _ H Hj Hi) as [Ho ->]. f_equal.
    destruct j as [|k].
    - cbn. now rewrite takeW_filter.
    - destruct (nth_error (tl local) k) as [p|] eqn:Ep.
      + erewrite firstn_snoc by eauto. rewrite map_app. cbn [map].
        rewrite (con_sorted _ (map fst (tl local))); auto; cbn [fst snd].
        * now rewrite takeW_filter, between_take.
        * intros a (x & <- & Hx)%in_map_iff. apply in_map. rewrite <- (firstn_skipn k (tl local)).
          apply in_or_app. auto.
        * intros a b x y Hab Hx Hy.
          apply (chrono_times (firstn k (tl local)) a b x y); auto. now apply chrono_firstn.
        * apply in_map. eapply nth_error_In; eauto.
        * intros a (x & <- & Hx)%in_map_iff. apply In_nth_error in Hx as [n Hn].
          rewrite nth_firstn_if in Hn. destruct (Nat.ltb_spec n k); [|discriminate].
          now apply (Hcl n k).
      + apply nth_error_None in Ep. assert (nth_error (tl local) (S k) = None) by (apply nth_error_None; lia).
        congruence.
  Qed.

  Lemma before_between a b (g : list obs) : chronological g -> (a <= b)%Z ->
    strictly_before a g ++ between a b g = strictly_before b g.
  Proof.
    intros Hc Hab. rewrite <- between_take, <- !takeW_filter by auto. now apply takeW_takeW.
  Qed.

  Lemma merge_chrono_full (local : list obs) secs items j o outs i cfg g : merge local secs = Some items ->
    nth_error items j = Some (o, outs) -> nth_error secs i = Some (cfg, g) ->
    chronological (tl local) -> chronological g -> monotone_on (map fst (tl local)) (embed cfg) -> ffill cfg = true ->
    nth_error outs i = Some (out_of cfg (strictly_before (embed cfg (fst o)) g)).
  Proof.
    intros H Hj Hi Hcl Hcg He Hf.
    destruct (merge_lane _ _ _ _ _ _ _ _ _ H Hj Hi) as [Ho _].
    rewrite (merge_chrono _ _ _ _ _ _ _ _ _ H Hj Hi Hcl Hcg He). f_equal.
    unfold result. rewrite Hf. destruct j as [|k]; auto.
    destruct (nth_error (tl local) k) as [p|] eqn:Ep.
    - rewrite before_between; auto. apply He; [eapply in_map, nth_error_In; eassumption ..|]. apply (Hcl k (S k)); auto.
    - apply nth_error_None in Ep. assert (nth_error (tl local) (S k) = None) by (apply nth_error_None; lia).
      congruence.
  Qed.

  (** C41 *)
  Lemma merge_ffill (local : list obs) secs items j o outs i cfg g : merge local secs = Some items ->
    nth_error items j = Some (o, outs) -> nth_error secs i = Some (cfg, g) ->
    chronological (tl local) -> chronological g -> monotone_on (map fst (tl local)) (embed cfg) ->
    ffill cfg = true -> maxlen cfg = None ->
    nth_error outs i =
      Some (One (last (map real (strictly_before (embed cfg (fst o)) g)) (None, default cfg))).
  Proof.
    intros H Hj Hi Hcl Hcg He Hf Hm.
    rewrite (merge_chrono_full _ _ _ _ _ _ _ _ _ H Hj Hi Hcl Hcg He Hf).
    unfold out_of. now rewrite Hm.
  Qed.

  (** C42 *)
  Lemma merge_no_ffill_first (local : list obs) secs items o outs i cfg g : merge local secs = Some items ->
    nth_error items 0 = Some (o, outs) -> nth_error secs i = Some (cfg, g) ->
    chronological g -> ffill cfg = false -> maxlen cfg = None ->
    nth_error outs i =
      Some (One (last (map real (strictly_before (embed cfg (fst o)) g)) (None, default cfg))).
  Proof.
    intros H Hj Hi Hcg Hf Hm.
    destruct (merge_lane _ _ _ _ _ _ _ _ _ H Hj Hi) as [_ ->]. cbn.
    rewrite takeW_filter by auto. unfold result, out_of. rewrite Hf, Hm. cbn.
    now destruct (strictly_before (embed cfg (fst o)) g).
  Qed.
  Lemma last_app {A} (l l' : list A) d : l' <> [] -> last (l ++ l') d = last l' d.
  Proof.
    intros H. destruct (snoc_cases l') as [->|(l1 & a & ->)]; [congruence|].
    now rewrite app_assoc, !last_last.
  Qed.
  Lemma merge_no_ffill (local : list obs) secs items k p o pouts outs i cfg g : merge local secs = Some items ->
    nth_error items k = Some (p, pouts) ->
    nth_error items (S k) = Some (o, outs) -> nth_error secs i = Some (cfg, g) ->
    chronological (tl local) -> chronological g -> monotone_on (map fst (tl local)) (embed cfg) ->
    ffill cfg = false -> maxlen cfg = None ->
    nth_error outs i =
      Some (One (last (map real (between (embed cfg (fst p)) (embed cfg (fst o)) g)) (None, default cfg))).
  Proof.
    intros H Hk Hj Hi Hcl Hcg He Hf Hm.
    destruct (merge_lane _ _ _ _ _ _ _ _ _ H Hk Hi) as [Hp _].
    rewrite (merge_chrono _ _ _ _ _ _ _ _ _ H Hj Hi Hcl Hcg He), Hp. f_equal.
    unfold result, out_of. rewrite Hf, Hm.
    destruct (between (embed cfg (fst p)) (embed cfg (fst o)) g) as [|x l] eqn:E; auto.
    rewrite map_app, last_app; [reflexivity|discriminate].
  Qed.

  (** C43 *)
  Lemma merge_window_ffill (local : list obs) secs items j o outs i cfg g n : merge local secs = Some items ->
    nth_error items j = Some (o, outs) -> nth_error secs i = Some (cfg, g) ->
    chronological (tl local) -> chronological g -> monotone_on (map fst (tl local)) (embed cfg) ->
    ffill cfg = true -> maxlen cfg = Some n ->
    nth_error outs i =
      Some (Win (padded_window n (None, default cfg) (strictly_before (embed cfg (fst o)) g))).
  Proof.
    intros H Hj Hi Hcl Hcg He Hf Hm.
    rewrite (merge_chrono_full _ _ _ _ _ _ _ _ _ H Hj Hi Hcl Hcg He Hf).
    unfold out_of. now rewrite Hm.
  Qed.
  Lemma padded_window_nil n (fill : cell) : padded_window n fill [] = repeat fill n.
  Proof.
    unfold padded_window, lastn. cbn. rewrite app_nil_r, repeat_length, Nat.sub_diag. reflexivity.
  Qed.
  Lemma merge_window_no_ffill (local : list obs) secs items k p o pouts outs i cfg g n : merge local secs = Some items ->
    nth_error items k = Some (p, pouts) ->
    nth_error items (S k) = Some (o, outs) -> nth_error secs i = Some (cfg, g) ->
    chronological (tl local) -> chronological g -> monotone_on (map fst (tl local)) (embed cfg) ->
    ffill cfg = false -> maxlen cfg = Some n ->
    nth_error outs i = Some (Win (
      if between (embed cfg (fst p)) (embed cfg (fst o)) g
      then repeat (None, default cfg) n
      else padded_window n (None, default cfg) (strictly_before (embed cfg (fst o)) g))).
  Proof.
    intros H Hk Hj Hi Hcl Hcg He Hf Hm.
    destruct (merge_lane _ _ _ _ _ _ _ _ _ H Hk Hi) as [Hp _].
    destruct (merge_lane _ _ _ _ _ _ _ _ _ H Hj Hi) as [Ho _].
    rewrite (merge_chrono _ _ _ _ _ _ _ _ _ H Hj Hi Hcl Hcg He), Hp. f_equal.
    unfold result, out_of. rewrite Hf, Hm.
    destruct (between (embed cfg (fst p)) (embed cfg (fst o)) g) as [|x l] eqn:E.
    - now rewrite padded_window_nil.
    - rewrite <- E, before_between; auto. apply He; [eapply in_map, nth_error_In; eassumption ..|]. apply (Hcl k (S k)); auto.
  Qed.
  Lemma merge_window_no_ffill_first (local : list obs) secs items o outs i cfg g n : merge local secs = Some items ->
    nth_error items 0 = Some (o, outs) -> nth_error secs i = Some (cfg, g) ->
    chronological g -> ffill cfg = false -> maxlen cfg = Some n ->
    nth_error outs i =
      Some (Win (padded_window n (None, default cfg) (strictly_before (embed cfg (fst o)) g))).
  Proof.
    intros H Hj Hi Hcg Hf Hm.
    destruct (merge_lane _ _ _ _ _ _ _ _ _ H Hj Hi) as [_ ->]. cbn.
    rewrite takeW_filter by auto. unfold result, out_of. rewrite Hf, Hm. cbn.
    now destruct (strictly_before (embed cfg (fst o)) g).
  Qed.

  Lemma dataset_chronological (data g : list obs) : start_dataset_stream data = Some g ->
    chronological data -> chronological g.
  Proof.
    destruct data as [|o r]; [discriminate|]. cbn. intros E Hc.
    assert (g = o :: o :: r) by congruence. subst g.
    apply chrono_cons in Hc as Hc'. destruct Hc' as [_ Hle].
    intros i j a b Hij Ha Hb. destruct i as [|i], j as [|j]; try lia; cbn [nth_error] in Ha, Hb.
    - assert (a = o) by congruence. subst. apply nth_error_In in Hb. destruct Hb as [->|Hb]; [lia|auto].
    - apply (Hc i j); auto. lia.
  Qed.

  Lemma lastn_app {A} n (l l' : list A) : n <= length l' -> lastn n (l ++ l') = lastn n l'.
  Proof.
    intros H. unfold lastn. rewrite app_length, skipn_app.
    rewrite skipn_all2 by lia. cbn. f_equal. lia.
  Qed.

  (** the stream of a dataset sees the first observation twice, which shows as long as the window is
      not full *)
  Lemma dataset_window (data g : list obs) o r T n fill : data = o :: r -> start_dataset_stream data = Some g ->
    (fst o < T)%Z ->
    padded_window n fill (strictly_before T g) =
    if n <=? length (strictly_before T data) then lastn n (map real (strictly_before T data))
    else repeat fill (n - S (length (strictly_before T data))) ++ real o :: map real (strictly_before T data).
  Proof.
    intros Hd Hg Ho. subst data. assert (g = o :: o :: r) by (cbn in Hg; congruence). subst g.
    set (d := strictly_before T (o :: r)).
    assert (E : strictly_before T (o :: o :: r) = o :: d).
    { unfold strictly_before at 1. cbn [filter]. rewrite (proj2 (Z.ltb_lt _ _) Ho).
      unfold d, strictly_before. cbn [filter]. now rewrite (proj2 (Z.ltb_lt _ _) Ho). }
    rewrite E. unfold padded_window. cbn [map].
    destruct (Nat.leb_spec n (length d)) as [Hle|Hlt].
    - change (real o :: map real d) with ([real o] ++ map real d).
      rewrite app_assoc, lastn_app by now rewrite map_length. reflexivity.
    - unfold lastn. rewrite app_length, repeat_length. cbn [length]. rewrite map_length.
      replace (n + S (length d) - n) with (S (length d)) by lia.
      rewrite skipn_app, repeat_length, skipn_repeat.
      replace (S (length d) - n) with 0 by lia. reflexivity.
  Qed.

  (** C45 *)
  Lemma merge_defined (local : list obs) secs :
    (exists items, merge local secs = Some items) <->
    local <> [] /\ forall cfg g, In (cfg, g) secs -> g <> [] /\ maxlen cfg <> Some 0.
  Proof.
    split.
    - intros (items & H). apply merge_inv in H as (l0 & locals & sts & -> & HF & ->). split; [discriminate|].
      intros cfg g Hin. apply In_nth_error in Hin as [i Hi].
      destruct (F2_nth _ _ _ HF _ _ Hi) as (st & _ & E). apply sec_init_spec in E as (? & ? & ?). auto.
    - intros [Hl Hs]. unfold merge. destruct local as [|l0 locals]; [congruence|].
      destruct (mapM_total (fun cg : sec_cfg * list obs => sec_init (fst cg) (snd cg)) secs) as (sts & ->).
      + intros [cfg g] Hin. destruct (Hs cfg g Hin) as [Hg Hm]. cbn. unfold sec_init.
        destruct g as [|o r]; [congruence|].
        destruct (maxlen cfg) as [[|n]|]; [congruence| |];
          (destruct (buffer_out cfg [] (init_obs cfg)) as [a b]; eauto).
      + eauto.
  Qed.
End P.

(** *** The frequency "d" *)
Lemma floor_day_eq t : (- 106751 * day <= t < 2 ^ 63)%Z -> floor_day t = (t / day * day)%Z.
Proof. intros H. unfold floor_day. now rewrite floor_datetime_eq. Qed.
Lemma floor_day_monotone Ts : (forall T, In T Ts -> (- 106751 * day <= T < 2 ^ 63)%Z) ->
  monotone_on Ts floor_day.
Proof.
  intros H a b Ha Hb Hab. rewrite !floor_day_eq by auto.
  apply Z.mul_le_mono_nonneg_r; [pose proof day_pos; lia|]. apply Z.div_le_mono; [apply day_pos|auto].
Qed.
Lemma floor_day_le t o : (- 106751 * day <= t < 2 ^ 63)%Z -> (o < floor_day t)%Z ->
  (o < t)%Z /\ (o / day < t / day)%Z.
Proof.
  intros H. rewrite floor_day_eq by auto. pose proof day_pos. pose proof (Z.mul_div_le t day day_pos).
  intros Ho. split; [lia|]. apply Z.div_lt_upper_bound; lia.
Qed.
