(** Proofs for C135: the progress bar. *)
From Coq Require Import List Bool Arith Lia.
From Verif Require Import Spec.MiscSpec Model.Unroll Model.Gym Model.Progress Spec.GymSpec Proofs.ListFacts Proofs.GymProofs.
Import ListNotations.

Lemma iter_r {T} (f : T -> T) n x : Nat.iter n f (f x) = f (Nat.iter n f x).
Proof. induction n as [|n IH]; [reflexivity|]. change (f (Nat.iter n f (f x)) = f (f (Nat.iter n f x))). rewrite IH. reflexivity. Qed.

Section G.
  Context {W O A R I : Type}.
  Local Notation agent := (@agent W O A).
  Local Notation environment := (@environment W O A R I).
  Local Notation callback := (@callback W O A R I).

  Lemma run_start_app (c1 c2 : list (O -> W -> W)) o : forall k w,
    fst (@run_start W O A R I k (c1 ++ c2) o w) =
    fst (@run_start W O A R I 0 c2 o (fst (@run_start W O A R I 0 c1 o w))).
  Proof.
    assert (K : forall (c : list (O -> W -> W)) k w, fst (@run_start W O A R I k c o w) = fst (@run_start W O A R I 0 c o w)).
    { induction c as [|c r IH]; intros k w; cbn; auto. pose proof (IH (S k) (c o w)) as H1. pose proof (IH 1 (c o w)) as H2.
      destruct (run_start (S k) r o (c o w)), (run_start 1 r o (c o w)). cbn in *. congruence. }
    induction c1 as [|c r IH]; intros k w; cbn.
    - apply K.
    - pose proof (IH (S k) (c o w)) as H1. pose proof (K r 1 (c o w)) as H2.
      destruct (run_start (S k) (r ++ c2) o (c o w)). destruct (run_start 1 r o (c o w)). cbn in *. rewrite H2. exact H1.
  Qed.
  Lemma run_end_app (c1 c2 : list (W -> W)) : forall k w,
    fst (@run_end W O A R I k (c1 ++ c2) w) =
    fst (@run_end W O A R I 0 c2 (fst (@run_end W O A R I 0 c1 w))).
  Proof.
    assert (K : forall (c : list (W -> W)) k w, fst (@run_end W O A R I k c w) = fst (@run_end W O A R I 0 c w)).
    { induction c as [|c r IH]; intros k w; cbn; auto. pose proof (IH (S k) (c w)) as H1. pose proof (IH 1 (c w)) as H2.
      destruct (run_end (S k) r (c w)), (run_end 1 r (c w)). cbn in *. congruence. }
    induction c1 as [|c r IH]; intros k w; cbn.
    - apply K.
    - pose proof (IH (S k) (c w)) as H1. pose proof (K r 1 (c w)) as H2.
      destruct (run_end (S k) (r ++ c2) (c w)). destruct (run_end 1 r (c w)). cbn in *. rewrite H2. exact H1.
  Qed.

  Lemma start_leaves {T} (get : W -> T) (cbs : list callback) o w : callbacks_leave get cbs ->
    get (fst (@run_start W O A R I 0 (somes (map on_train_start cbs)) o w)) = get w.
  Proof.
    intros H. apply run_start_get. intros c w2 Hc%in_somes. apply in_map_iff in Hc as (x & Hx & Hin).
    destruct (H x Hin) as (H1 & _). eauto.
  Qed.
  Lemma end_leaves {T} (get : W -> T) (cbs : list callback) w : callbacks_leave get cbs ->
    get (fst (@run_end W O A R I 0 (somes (map on_train_end cbs)) w)) = get w.
  Proof.
    intros H. apply run_end_get. intros c w2 Hc%in_somes. apply in_map_iff in Hc as (x & Hx & Hin).
    destruct (H x Hin) as (_ & _ & _ & H1). eauto.
  Qed.
  Lemma leave_l {T} (get : W -> T) (a b : list callback) : callbacks_leave get (a ++ b) -> callbacks_leave get a.
  Proof. intros H c Hc. apply H, in_or_app. auto. Qed.
  Lemma leave_r {T} (get : W -> T) (a b : list callback) : callbacks_leave get (a ++ b) -> callbacks_leave get b.
  Proof. intros H c Hc. apply H, in_or_app. auto. Qed.

  Section Bar.
    Variables (ag : agent) (env : environment) (cbs1 cbs2 : list callback).
    Variables (get : W -> pbar_obj) (set : pbar_obj -> W -> W) (len : W -> option nat).
    Hypothesis Hset : forall v w, get (set v w) = v.
    Hypothesis Henv : untouched get ag env.
    Hypothesis Hcbs : callbacks_leave get (cbs1 ++ cbs2).
    Let pb : callback := progress_bar get set len.
    Let cbs := cbs1 ++ pb :: cbs2.

    Lemma bar_start o w : get (fst (@run_start W O A R I 0 (somes (map on_train_start cbs)) o w)) =
      pbar_start (len (fst (@run_start W O A R I 0 (somes (map on_train_start cbs1)) o w))) (get w).
    Proof.
      unfold cbs. rewrite map_app, somes_app. cbn [map somes flat_map app]. rewrite run_start_app.
      pose proof (start_leaves get cbs1 o w (leave_l _ _ _ Hcbs)) as H1.
      set (w1 := fst (run_start 0 (somes (map on_train_start cbs1)) o w)) in *.
      change (flat_map _ (map on_train_start cbs2)) with (somes (map (@on_train_start W O A R I) cbs2)).
      change (set (pbar_start (len w1) (get w1)) w1) with (set (pbar_start (len w1) (get w1)) w1).
      pose proof (run_start_app [fun _ w => set (pbar_start (len w) (get w)) w] (somes (map on_train_start cbs2)) o 0 w1) as H2.
      cbn [app] in H2. cbn [app] in *.
      transitivity (get (fst (@run_start W O A R I 0 (somes (map on_train_start cbs2)) o (set (pbar_start (len w1) (get w1)) w1)))).
      - f_equal. exact H2.
      - rewrite (start_leaves get cbs2 o _ (leave_r _ _ _ Hcbs)), Hset, H1. reflexivity.
    Qed.

    Lemma bar_end w : get (fst (@run_end W O A R I 0 (somes (map on_train_end cbs)) w)) = pbar_end (get w).
    Proof.
      unfold cbs. rewrite map_app, somes_app. cbn [map somes flat_map app]. rewrite run_end_app.
      pose proof (end_leaves get cbs1 w (leave_l _ _ _ Hcbs)) as H1.
      set (w1 := fst (run_end 0 (somes (map on_train_end cbs1)) w)) in *.
      pose proof (run_end_app [fun w => set (pbar_end (get w)) w] (somes (map on_train_end cbs2)) 0 w1) as H2.
      transitivity (get (fst (@run_end W O A R I 0 (somes (map on_train_end cbs2)) (set (pbar_end (get w1)) w1)))).
      - f_equal. exact H2.
      - rewrite (end_leaves get cbs2 _ (leave_r _ _ _ Hcbs)), Hset, H1. reflexivity.
    Qed.

    Lemma bar_iter w it w' :
      iter_rel ag env (somes (map on_act cbs)) (somes (map on_step cbs)) w it w' ->
      get w' = pbar_step (get w) /\ nth_error (answers it) (count_some (map on_step cbs1)) = Some false /\
      length (answers it) = count_some (map on_step cbs).
    Proof.
      set (f := fun (_ : @gym_state O A R I) w => (false, set (pbar_step (get w)) w)).
      pose (cb := Cb (W := W) (O := O) (A := A) (R := R) (I := I) None None (Some f) None).
      intros H.
      assert (E1 : map on_act cbs = map on_act (cbs1 ++ cb :: cbs2)) by (unfold cbs; rewrite !map_app; reflexivity).
      assert (E2 : map on_step cbs = map on_step (cbs1 ++ cb :: cbs2)) by (unfold cbs; rewrite !map_app; reflexivity).
      rewrite E1, E2 in H.
      destruct (iter_middle get ag env cbs1 cbs2 cb f eq_refl Henv Hcbs w it w' H) as (wf & G1 & G2 & G3).
      split; [|split; [exact G3|rewrite E2; clear - H; destruct H as (? & ? & ? & ? & ? & ? & ? & ? & ? & H & ?); rewrite H, somes_count; reflexivity]]. rewrite G2. cbn [f snd]. rewrite Hset, G1. reflexivity.
    Qed.
    Lemma bar_links its : forall w w',
      links ag env (somes (map on_act cbs)) (somes (map on_step cbs)) w its w' ->
      get w' = Nat.iter (length its) pbar_step (get w) /\
      Forall (fun it => nth_error (answers it) (count_some (map on_step cbs1)) = Some false /\ length (answers it) = count_some (map on_step cbs)) its.
    Proof.
      induction its as [|it its IH]; intros w w' H; cbn [links] in H.
      - subst. split; [reflexivity|constructor].
      - destruct H as (w1 & H1 & H2). destruct (IH _ _ H2) as [E F]. destruct (bar_iter _ _ _ H1) as [E' F'].
        split; [|constructor; assumption]. rewrite E, E'. cbn [length]. apply iter_r.
    Qed.
    Lemma iter_some n : forall b e, Nat.iter n pbar_step (Pbar (Some b) e) =
      Pbar (Some (Tqdm (b_total b) (if b_closed b then b_n b else b_n b + n) (b_closed b))) e.
    Proof.
      induction n as [|n IH]; intros b e.
      - cbn [Nat.iter nat_rect]. destruct b as [t k c]. cbn. destruct c; [reflexivity|]. rewrite Nat.add_0_r. reflexivity.
      - change (Nat.iter (S n) pbar_step (Pbar (Some b) e)) with (pbar_step (Nat.iter n pbar_step (Pbar (Some b) e))).
        rewrite IH. destruct b as [t k c]. unfold pbar_step, tqdm_update. cbn [p_bar p_error b_total b_n b_closed].
        destruct c; cbn [b_closed b_total b_n]; [reflexivity|]. replace (k + n + 1) with (k + S n) by lia. reflexivity.
    Qed.

    Lemma bar_unroll o fuel (w : W) s w' l : callbacks_leave len cbs1 ->
      gym_unroll ag env o cbs fuel w = Some (s, w', l) ->
      exists o0 its,
        l = run_log (match o with Some _ => true | None => false end) o0 (count_some (map on_train_start cbs))
            (count_some (map on_act cbs)) (count_some (map on_train_end cbs)) its /\
        chained o0 its /\
        Forall (fun it => nth_error (answers it) (count_some (map on_step cbs1)) = Some false /\ length (answers it) = count_some (map on_step cbs)) its /\
        get w' = match p_bar (get w) with
                 | None => Pbar (Some (Tqdm (len (before_start env o w)) (length its) true)) (p_error (get w))
                 | Some b => Pbar (Some (Tqdm (b_total b) (if b_closed b then b_n b else b_n b + length its) true)) (p_error (get w))
                 end.
    Proof.
      intros Hlen H. destruct (gym_unroll_inv _ _ _ _ _ _ _ _ _ H) as (its & w2 & Hc & Hl & _ & Hs & Hw & El).
      exists (fst (start_world env o cbs w)), its. split; auto. split; auto.
      destruct (bar_links _ _ _ Hl) as [EL FL]. split; [exact FL|].
      destruct Henv as (Hr & Hcl & _). rewrite Hw, Hcl, bar_end, EL.
      assert (E : get (snd (start_world env o cbs w)) = pbar_start (len (before_start env o w)) (get w)).
      { unfold start_world, before_start. destruct o as [o|]; cbn [snd].
        - rewrite bar_start, (start_leaves len cbs1 o w Hlen). reflexivity.
        - specialize (Hr w). destruct (reset env w) as [o w0]. cbn [snd] in *.
          rewrite bar_start, (start_leaves len cbs1 o w0 Hlen), Hr. reflexivity. }
      rewrite E. unfold pbar_start. destruct (get w) as [[b|] e]; cbn [p_bar p_error].
      - rewrite iter_some. reflexivity.
      - unfold tqdm_new. rewrite iter_some. reflexivity.
    Qed.
  End Bar.

  (** reading a log *)
  Lemma env_steps_of_log g (o : O) ns na ne its : length (filter (@is_env_step O A R I) (run_log g o ns na ne its)) = length its.
  Proof.
    assert (Z : forall (l : list (@event O A R I)), Forall (fun e => is_env_step e = false) l -> filter is_env_step l = []).
    { induction 1 as [|e l H _ IH]; cbn; [reflexivity|]. rewrite H. exact IH. }
    assert (M : forall B (f : B -> @event O A R I) l, (forall b, is_env_step (f b) = false) -> filter is_env_step (map f l) = []).
    { intros B f l H. apply Z, Forall_map, Forall_forall. intros b _. apply H. }
    unfold run_log. rewrite !filter_app, !M by reflexivity.
    replace (filter (@is_env_step O A R I) (if g then [] else [EReset o])) with (@nil (@event O A R I)) by (destruct g; reflexivity).
    cbn [app filter is_env_step]. rewrite app_nil_r.
    induction its as [|it its IH]; [reflexivity|]. cbn [flat_map]. rewrite filter_app, app_length, IH.
    unfold iteration_log. cbn [filter is_env_step]. rewrite filter_app, M by reflexivity. cbn [filter is_env_step app].
    rewrite M by reflexivity. reflexivity.
  Qed.
  Lemma answer_in_log g (o : O) ns na ne (its : list (@iteration O A R I)) it b :
    In it its -> In b (answers it) -> exists k, In (EOnStep k (state it) b) (run_log g o ns na ne its).
  Proof.
    intros Hi Hb. destruct (In_nth_error _ _ Hb) as (k & Hk). exists k.
    unfold run_log. apply in_or_app. right. apply in_or_app. right. apply in_or_app. left.
    apply in_flat_map. exists it. split; [exact Hi|]. unfold iteration_log. right. apply in_or_app. right. right.
    apply in_map_iff. exists (k, b). split; [reflexivity|].
    assert (G : forall (l : list bool) j k, nth_error l k = Some b -> In (j + k, b) (combine (seq j (length l)) l)).
    { clear. induction l as [|x l IH]; intros j [|k] H; cbn in *; try discriminate.
      - left. f_equal; [lia|congruence].
      - right. replace (j + S k) with (S j + k) by lia. apply IH. exact H. }
    exact (G (answers it) 0 k Hk).
  Qed.
  Lemma log_answer g (o : O) ns na ne (its : list (@iteration O A R I)) k s b :
    In (EOnStep k s b) (run_log g o ns na ne its) -> exists it, In it its /\ In b (answers it).
  Proof.
    unfold run_log. intros H. apply in_app_or in H as [H|H]; [destruct g; [destruct H|destruct H as [H|[]]; discriminate]|].
    apply in_app_or in H as [H|H]; [apply in_map_iff in H as (? & ? & _); discriminate|].
    apply in_app_or in H as [H|H]; [|apply in_app_or in H as [H|[H|[]]]; [apply in_map_iff in H as (? & ? & _)|]; discriminate].
    apply in_flat_map in H as (it & Hi & H). exists it. split; [exact Hi|]. unfold iteration_log in H.
    destruct H as [H|H]; [discriminate|]. apply in_app_or in H as [H|[H|H]]; [apply in_map_iff in H as (? & ? & _); discriminate|discriminate|].
    apply in_map_iff in H as ([k' b'] & E & H). apply in_combine_r in H. cbn in E. congruence.
  Qed.
End G.

Section Counts.
  Context {W O A R I : Type}.
  Variables (ag : @agent W O A) (env : @environment W O A R I) (cbs1 cbs2 : list (@callback W O A R I)).
  Variables (get : W -> pbar_obj) (set : pbar_obj -> W -> W) (len : W -> option nat).

  Lemma bar_counts o fuel (w : W) s w' l :
    (forall v w, get (set v w) = v) -> untouched get ag env -> callbacks_leave get (cbs1 ++ cbs2) -> callbacks_leave len cbs1 ->
    gym_unroll ag env o (cbs1 ++ progress_bar get set len :: cbs2) fuel w = Some (s, w', l) ->
    let n := length (filter is_env_step l) in
    get w' = match p_bar (get w) with
             | None => Pbar (Some (Tqdm (len (before_start env o w)) n true)) (p_error (get w))
             | Some b => Pbar (Some (Tqdm (b_total b) (if b_closed b then b_n b else b_n b + n) true)) (p_error (get w))
             end.
  Proof.
    intros Hs Hu Hc Hl H. destruct (bar_unroll ag env cbs1 cbs2 get set len Hs Hu Hc o fuel w s w' l Hl H) as (o0 & its & El & _ & _ & Hg).
    cbv zeta. rewrite El, env_steps_of_log. exact Hg.
  Qed.
  Lemma bar_silent o fuel (w : W) s w' l st b :
    (forall v w, get (set v w) = v) -> untouched get ag env -> callbacks_leave get (cbs1 ++ cbs2) -> callbacks_leave len cbs1 ->
    gym_unroll ag env o (cbs1 ++ progress_bar get set len :: cbs2) fuel w = Some (s, w', l) ->
    In (EOnStep (count_some (map on_step cbs1)) st b) l -> b = false.
  Proof.
    intros Hs Hu Hc Hl H Hin. destruct (bar_unroll ag env cbs1 cbs2 get set len Hs Hu Hc o fuel w s w' l Hl H) as (o0 & its & El & _ & Ha & _).
    rewrite El in Hin. unfold run_log in Hin.
    apply in_app_or in Hin as [Hin|Hin]; [destruct o; [destruct Hin|destruct Hin as [Hin|[]]; discriminate]|].
    apply in_app_or in Hin as [Hin|Hin]; [apply in_map_iff in Hin as (? & ? & _); discriminate|].
    apply in_app_or in Hin as [Hin|Hin]; [|apply in_app_or in Hin as [Hin|[Hin|[]]]; [apply in_map_iff in Hin as (? & ? & _)|]; discriminate].
    apply in_flat_map in Hin as (it & Hi & Hin). unfold iteration_log in Hin.
    destruct Hin as [Hin|Hin]; [discriminate|]. apply in_app_or in Hin as [Hin|[Hin|Hin]]; [apply in_map_iff in Hin as (? & ? & _); discriminate|discriminate|].
    apply in_map_iff in Hin as ([k' b'] & E & Hin). cbn in E. injection E as E1 E2 E3. subst k' b'.
    rewrite Forall_forall in Ha. destruct (Ha it Hi) as (Hn & _).
    assert (G : forall (l : list bool) j k, In (j + k, b) (combine (seq j (length l)) l) -> nth_error l k = Some b).
    { clear. induction l as [|x l IH]; intros j k Hk; [destruct Hk|]. cbn [length seq combine] in Hk. destruct Hk as [Hk|Hk].
      - injection Hk as E ->. assert (k = 0) by lia. subst k. reflexivity.
      - destruct k as [|k].
        + apply in_combine_l, in_seq in Hk. lia.
        + cbn [nth_error]. apply (IH (S j)). replace (S j + k) with (j + S k) by lia. exact Hk. }
    specialize (G (answers it) 0 _ Hin). congruence.
  Qed.
End Counts.

(** *** The bar of a HaikuEnv *)
From Verif Require Import Proofs.GymProofs2.
Section H.
  Context {Q K P S P' S' O A R I : Type}.
  Variable next_key : Q -> K * Q.
  Variables (a0 : A) (rw0 : R) (ag : transformed K P S O A) (env : transformed K P' S' (A * O) (R * O)).
  Local Notation W := (pbar_obj * (@agent_obj Q P S * @env_obj Q P' S' O I))%type.
  Variable maxlen : I -> option nat.
  Definition the_bar : @callback W (option O) A R I :=
    progress_bar fst (fun p w => (p, snd w)) (fun w => maxlen (e_info (snd (snd w)))).

  Lemma haiku_bar fuel qa (es : @env_obj Q P' S' O I) d0 i0 data s w' l :
    e_data es = (d0, i0) :: data ->
    gym_unroll (haiku_agent (X := pbar_obj) (T := @env_obj Q P' S' O I) next_key a0 ag)
      (haiku_env (I := I) (X := pbar_obj) (T := @agent_obj Q P S) next_key rw0 env) None [the_bar] fuel
      (pbar_new, (AgentObj qa None, es)) = Some (s, w', l) ->
    fst w' = Pbar (Some (Tqdm (maxlen i0) (length (e_data es)) true)) false.
  Proof.
    intros Hd H.
    assert (U : untouched (W := W) (fst : W -> pbar_obj) (haiku_agent (X := pbar_obj) (T := @env_obj Q P' S' O I) next_key a0 ag)
      (haiku_env (I := I) (X := pbar_obj) (T := @agent_obj Q P S) next_key rw0 env)).
    { repeat split.
      - intros w. cbn. destruct (env_reset (snd (snd w))) as [[d st]|]; reflexivity.
      - intros [o|] w; cbn; [destruct (agent_call next_key ag o (fst (snd w)))|]; reflexivity.
      - intros a w. cbn. destruct (env_step next_key rw0 env a (snd (snd w))). reflexivity. }
    assert (L0 : callbacks_leave (fst : W -> pbar_obj) (([] : list (@callback W (option O) A R I)) ++ [])) by (intros c []).
    assert (L1 : callbacks_leave (fun w : W => maxlen (e_info (snd (snd w)))) ([] : list (@callback W (option O) A R I))) by (intros c []).
    destruct (bar_unroll _ _ [] [] fst (fun p w => (p, snd w)) (fun w : W => maxlen (e_info (snd (snd w)))) ltac:(reflexivity) U L0
      None fuel _ s w' l L1 H) as (o0 & its & El & Hc & Ha & Hg).
    assert (L2 : callbacks_leave snd [the_bar]).
    { intros c [<-|[]]. unfold the_bar, progress_bar. cbn. repeat split; intros; try discriminate;
        match goal with E : Some _ = Some _ |- _ => injection E as <- end; reflexivity. }
    destruct (haiku_unroll next_key a0 rw0 ag env [the_bar] fuel pbar_new qa es d0 i0 data s w' l L2 Hd H)
      as (its' & os & El' & Hc' & _ & _ & _ & Hle & Hn).
    assert (EN : length its = length its').
    { rewrite <- (env_steps_of_log true o0 0 0 0 its), <- (env_steps_of_log true (Some d0) 0 0 0 its').
      rewrite !env_steps_of_log. rewrite El in El'.
      match type of El' with ?a = ?b => assert (E := f_equal (fun l => length (filter is_env_step l)) El') end.
      cbv beta in E. rewrite !env_steps_of_log in E. exact E. }
    rewrite Hg. cbn [p_bar pbar_new p_error fst]. unfold before_start. cbn [reset haiku_env]. unfold env_reset. cbn [snd fst].
    rewrite Hd. cbn [snd e_info length].
    assert (E : length its' = length data + 1).
    { destruct Hn as [Hn|(it & Hit & Ht)]; [exact Hn|]. exfalso.
      assert (Hin : In it its').
      { apply in_rev. destruct (rev its') as [|z zs]; [discriminate|]. injection Hit as ->. left. reflexivity. }
      destruct (answer_in_log false (Some d0) (count_some (map on_train_start [the_bar])) (count_some (map on_act [the_bar]))
        (count_some (map on_train_end [the_bar])) its' it true Hin Ht) as (k & Hk).
      rewrite <- El', El in Hk. destruct (log_answer _ _ _ _ _ _ _ _ _ Hk) as (it2 & Hi2 & Hb2).
      rewrite Forall_forall in Ha. destruct (Ha it2 Hi2) as [A1 A2].
      destruct (answers it2) as [|b [|? ?]]; cbn in A1, A2; try discriminate. destruct Hb2 as [->|[]]. discriminate. }
    rewrite EN, E. replace (length data + 1) with (Datatypes.S (length data)) by lia. reflexivity.
  Qed.
End H.
