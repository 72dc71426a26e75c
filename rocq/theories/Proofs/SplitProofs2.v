From Coq Require Import String ZArith List Bool Arith Lia.
From Verif Require Import Model.Encode Model.Stream Model.Split Spec.StreamSpec Spec.SplitSpec Proofs.StreamProofs Proofs.EncodeProofs Proofs.SplitProofs.
Import ListNotations.
Local Open Scope list_scope.

Lemma value_of_find {A} k (l : list (string * A)) a : find_part k l = Some a <-> value_of k l a.
Proof.
  unfold find_part, value_of. induction l as [|[k' a'] l IH]; cbn [find option_map].
  - split; [discriminate|]. intros (l1 & l2 & E & _). destruct l1; discriminate.
  - cbn [fst]. destruct (String.eqb k' k) eqn:E; cbn [option_map snd].
    + apply String.eqb_eq in E. subst k'. split.
      * intros H. injection H as <-. exists [], l. split; auto.
      * intros (l1 & l2 & E & Hn). destruct l1 as [|x l1]; cbn in E; injection E; [intros _ ->; reflexivity|].
        intros _ <-. exfalso. apply Hn. left. reflexivity.
    + rewrite IH. apply String.eqb_neq in E. split; intros (l1 & l2 & El & Hn).
      * exists ((k', a') :: l1), l2. split; [cbn; f_equal; exact El|]. intros [H|H]; [cbn in H; congruence|auto].
      * destruct l1 as [|x l1]; cbn in El; injection El; [congruence|]. intros El' <-.
        exists l1, l2. split; auto. intros H. apply Hn. right; auto.
Qed.

Lemma value_of_in {A} k (l : list (string * A)) a : NoDup (map fst l) -> (value_of k l a <-> In (k, a) l).
Proof.
  intros Hn. split.
  - intros (l1 & l2 & -> & _). apply in_or_app. right. left. reflexivity.
  - intros H. apply in_split in H as (l1 & l2 & ->). exists l1, l2. split; auto.
    rewrite map_app in Hn. cbn in Hn. intros Hi. eapply NoDup_remove_2; [exact Hn|]. apply in_or_app. left. exact Hi.
Qed.

Lemma last_filter {V} (g : list (@obs V)) (p : Z -> bool) dflt :
  (last (map real (filter (fun o => p (fst o)) g)) dflt = dflt /\ (forall o, In o g -> p (fst o) = false)) \/
  (exists i o, nth_error g i = Some o /\ p (fst o) = true /\ last (map real (filter (fun o => p (fst o)) g)) dflt = real o /\
     forall i' o', nth_error g i' = Some o' -> p (fst o') = true -> i' <= i).
Proof.
  induction g as [|a g IH] using rev_ind; [left; split; [reflexivity|easy]|].
  rewrite filter_app, map_app. cbn [filter]. destruct (p (fst a)) eqn:E.
  - right. exists (List.length g), a. rewrite nth_error_app2, Nat.sub_diag by lia. split; auto. split; auto. split.
    + cbn [map]. rewrite last_last. reflexivity.
    + intros i' o' H _. assert (i' < List.length (g ++ [a])) by (apply nth_error_Some; congruence). rewrite app_length in *. cbn in *. lia.
  - cbn [map]. rewrite app_nil_r. destruct IH as [[H1 H2]|(i & o & H1 & H2 & H3 & H4)].
    + left. split; auto. intros o Ho. apply in_app_iff in Ho as [Ho|[<-|[]]]; auto.
    + right. exists i, o. split; [rewrite nth_error_app1; auto; apply nth_error_Some; congruence|]. split; auto. split; auto.
      intros i' o' Ho' Hp. destruct (lt_dec i' (List.length g)) as [L|L].
      * rewrite nth_error_app1 in Ho' by exact L. eauto.
      * rewrite nth_error_app2 in Ho' by lia. destruct (i' - List.length g) as [|q]; cbn in Ho'; [|destruct q; discriminate].
        injection Ho' as <-. congruence.
Qed.

Lemma map_fst_combine' {A B} (l : list A) (l' : list B) : List.length l = List.length l' -> map fst (combine l l') = l.
Proof. revert l'. induction l as [|a l IH]; intros [|b l'] H; cbn in *; try discriminate; [reflexivity|]. rewrite IH; auto. Qed.

Lemma nth_error_ext {A} (l l' : list A) : (forall i, nth_error l i = nth_error l' i) -> l = l'.
Proof.
  revert l'. induction l as [|a l IH]; intros [|b l'] H; [reflexivity|specialize (H 0); discriminate|specialize (H 0); discriminate|].
  pose proof (H 0) as H0. cbn in H0. injection H0 as ->. f_equal. apply IH. intros i. exact (H (S i)).
Qed.

Section M.
  Context {V : Type}.
  Implicit Types (d : @sdata V) (vs : list (@svar V)).
  Notation dict := (list (string * @item V)).

  (** the generator of an axis, and its observations *)
  Lemma gen_obs d k ts vs g : axis d k ts -> start_part_stream false (ts, vs) = Some g ->
    exists o r, g = o :: o :: r /\ map fst (o :: r) = ts /\
      forall i x, nth_error (o :: r) i = Some x -> nth_error ts i = Some (fst x) /\ entries_at vs i (snd x).
  Proof.
    intros _ H. destruct (part_stream_inv _ _ H) as (t0 & ts' & o & r & E & -> & HL & HE). cbn [fst snd] in *.
    exists o, r. split; auto. split; auto.
    apply nth_error_ext. intros i. rewrite nth_error_map. destruct (nth_error (o :: r) i) as [x|] eqn:Ex; cbn [option_map].
    - symmetry. apply HE. exact Ex.
    - symmetry. apply nth_error_None. rewrite <- HL. apply nth_error_None. exact Ex.
  Qed.

  Lemma in_order_chrono ts (l : list (@obs dict)) : map fst l = ts -> in_order ts -> chronological l.
  Proof.
    intros <- H i j a b L Ha Hb. apply (H i j (fst a) (fst b) L); [exact (map_nth_error fst i l Ha)|exact (map_nth_error fst j l Hb)].
  Qed.
  Lemma chrono_double (o : @obs dict) r : chronological (o :: r) -> chronological (o :: o :: r).
  Proof.
    intros H [|i] [|j] a b L Ha Hb; try lia.
    - cbn in Ha. injection Ha as <-. destruct j; cbn in Hb; [injection Hb as <-; lia|].
      apply (H 0 (S j) o b); [lia|reflexivity|exact Hb].
    - cbn in Ha, Hb. apply (H i j); auto. lia.
  Qed.

  (** the decomposition of the result *)
  Lemma merge_dataset_inv local (cfg : string -> axis_cfg) (dflt : @svar V -> @item V) d items :
    NoDup (map fst (sd_coords d)) ->
    merge_dataset false local cfg dflt d = Some items ->
    exists streams ls others secs its,
      NoDup (map fst streams) /\
      (forall k g, In (k, g) streams <-> exists ts, axis d k ts /\ start_part_stream false (ts, vars_along d k) = Some g) /\
      In (local, ls) streams /\
      others = filter (fun s => negb (String.eqb (fst s) local)) streams /\
      secs = map (fun s => (SecCfg (ax_embed (cfg (fst s))) (ax_ffill (cfg (fst s))) (ax_maxlen (cfg (fst s)))
                     (map (fun v => (sv_name v, dflt v)) (vars_along d (fst s))), snd s)) others /\
      merge ls secs = Some its /\
      items = map (fun it => (fst it, combine (map fst others) (snd it))) its.
  Proof.
    intros Hn H. unfold merge_dataset in H.
    destruct (split_dataset_from_time_dims d) as [ps|] eqn:Es; [|discriminate].
    destruct (start_dataset_streams false ps) as [streams|] eqn:Et; [|discriminate].
    destruct (find_part local streams) as [ls|] eqn:Ef; [|discriminate].
    assert (Hk := split_keys d ps Hn Es). unfold start_dataset_streams in Et. apply mapM_Forall2 in Et.
    assert (F : Forall2 (fun p s => fst p = fst s /\ start_part_stream false (snd p) = Some (snd s)) ps streams).
    { refine (F2_impl _ _ _ _ _ Et). intros p s E. cbn in E. destruct (start_part_stream false (snd p)); [|discriminate].
      injection E as <-. auto. }
    assert (Hs : map fst streams = map fst ps). { clear -F. induction F as [|p s ps ss [E _] _ IH]; cbn; [reflexivity|]. rewrite IH, E. reflexivity. }
    assert (Hin : forall k g, In (k, g) streams <-> exists ts, axis d k ts /\ start_part_stream false (ts, vars_along d k) = Some g).
    { intros k g. split.
      - intros Hi. apply In_nth_error in Hi as [i Hi].
        assert (exists p, nth_error ps i = Some p) as [p Hp].
        { destruct (nth_error ps i) eqn:E; eauto. apply nth_error_None in E. rewrite (F2_len _ _ _ F) in E.
          apply nth_error_None in E. congruence. }
        destruct (F2_nth _ _ _ F i p Hp) as [s [Hs' [E1 E2]]]. rewrite Hi in Hs'. injection Hs' as <-. cbn in E1, E2. subst k.
        apply nth_error_In in Hp. destruct p as [k [ts vs]]. apply (split_spec d k (ts, vs) ps Hn Es) in Hp as [A B]. cbn in A, B, E2. subst vs.
        exists ts. auto.
      - intros (ts & A & E). assert (Hp : In (k, (ts, vars_along d k)) ps) by (apply (split_spec d k (ts, vars_along d k) ps Hn Es); auto).
        apply In_nth_error in Hp as [i Hp]. destruct (F2_nth _ _ _ F i _ Hp) as [[k' g'] [Hs' [E1 E2]]]. cbn in E1, E2. subst k'.
        rewrite E in E2. injection E2 as <-. apply nth_error_In in Hs'. exact Hs'. }
    assert (Hns : NoDup (map fst streams)) by (rewrite Hs; exact Hk).
    cbv zeta in H.
    assert (Em : map (fun s : string * list (Z * list (string * @item V)) =>
                  (SecCfg (ax_embed (cfg (fst s))) (ax_ffill (cfg (fst s))) (ax_maxlen (cfg (fst s)))
                     (map (fun v => (sv_name v, dflt v)) (match find_part (fst s) ps with Some p => snd p | None => [] end)), snd s))
                  (filter (fun s => negb (String.eqb (fst s) local)) streams) =
                map (fun s => (SecCfg (ax_embed (cfg (fst s))) (ax_ffill (cfg (fst s))) (ax_maxlen (cfg (fst s)))
                     (map (fun v => (sv_name v, dflt v)) (vars_along d (fst s))), snd s))
                  (filter (fun s => negb (String.eqb (fst s) local)) streams)).
    { apply map_ext_in. intros [k g] Hi. cbn [fst snd]. apply filter_In in Hi as [Hi _]. apply Hin in Hi as (ts & A & _).
      assert (Hp : In (k, (ts, vars_along d k)) ps) by (apply (split_spec d k (ts, vars_along d k) ps Hn Es); auto).
      apply (value_of_in k ps _ Hk) in Hp. apply value_of_find in Hp. rewrite Hp. reflexivity. }
    rewrite Em in H.
    destruct (merge ls _) as [its|] eqn:Eme; [|discriminate]. cbn [option_map] in H. injection H as <-.
    eexists streams, ls, (filter (fun s => negb (String.eqb (fst s) local)) streams), _, its.
    split; auto. split; auto. split; [apply (value_of_in local streams ls Hns); apply value_of_find; exact Ef|]. auto 8.
  Qed.

  Lemma nodup_axis d k ts ts' : NoDup (map fst (sd_coords d)) -> axis d k ts -> axis d k ts' -> ts = ts'.
  Proof.
    unfold axis. intros Hn H1 H2. induction (sd_coords d) as [|[k0 o] r IH]; [easy|]. cbn in Hn. inversion Hn as [|? ? Hk Hr]; subst.
    destruct H1 as [E1|H1], H2 as [E2|H2].
    - congruence.
    - injection E1 as -> ->. exfalso. apply Hk. apply in_map_iff. exists (k, Some ts'). auto.
    - injection E2 as -> ->. exfalso. apply Hk. apply in_map_iff. exists (k, Some ts). auto.
    - auto.
  Qed.

  (** the local axis *)
  Lemma merged_local local cfg dflt d items ts :
    NoDup (map fst (sd_coords d)) -> merge_dataset false local cfg dflt d = Some items -> axis d local ts ->
    List.length items = List.length ts /\
    forall j t o outs, nth_error items j = Some ((t, o), outs) -> nth_error ts j = Some t /\ entries_at (vars_along d local) j o.
  Proof.
    intros Hn H A. destruct (merge_dataset_inv _ _ _ _ _ Hn H) as (streams & ls & others & secs & its & Hns & Hin & Hl & -> & -> & Em & ->).
    apply Hin in Hl as (ts' & A' & Eg). rewrite (nodup_axis d local ts' ts Hn A' A) in *. clear ts' A'.
    destruct (gen_obs d local ts _ ls A Eg) as (o0 & r & -> & Eo & HE).
    pose proof (merge_local _ _ _ Em) as Hm. cbn [tl] in Hm.
    split. { rewrite map_length, <- (map_length fst its), Hm, <- Eo, map_length. reflexivity. }
    intros j t o outs Hj. rewrite nth_error_map in Hj. destruct (nth_error its j) as [[q os]|] eqn:Ej; [|discriminate]. cbn in Hj.
    injection Hj as -> <-.
    assert (Hx : nth_error (o0 :: r) j = Some (t, o)) by (rewrite <- Hm, nth_error_map, Ej; reflexivity).
    exact (HE j _ Hx).
  Qed.

  Lemma nth_combine {A B} (l : list A) (l' : list B) i a b : nth_error l i = Some a -> nth_error l' i = Some b -> nth_error (combine l l') i = Some (a, b).
  Proof. revert l' i. induction l as [|x l IH]; intros [|y l'] [|i] H1 H2; cbn in *; try discriminate; [congruence|auto]. Qed.

  Lemma nodup_filter_keys {A} (l : list (string * A)) p : NoDup (map fst l) -> NoDup (map fst (filter p l)).
  Proof.
    induction l as [|a l IH]; intros H; cbn; [constructor|]. inversion H as [|? ? Hk Hr]; subst. destruct (p a); cbn; [|auto].
    constructor; auto. intros Hi. apply Hk. apply in_map_iff in Hi as [b [E Hb]]. apply filter_In in Hb as [Hb _].
    apply in_map_iff. eauto.
  Qed.

  (** a secondary axis *)
  Lemma merged_axis local cfg dflt d items k ts :
    NoDup (map fst (sd_coords d)) -> merge_dataset false local cfg dflt d = Some items ->
    axis d k ts -> k <> local ->
    (exists g, start_part_stream false (ts, vars_along d k) = Some g) ->
    exists its secs ls i g o0 r, merge ls secs = Some its /\
      nth_error secs i = Some (SecCfg (ax_embed (cfg k)) (ax_ffill (cfg k)) (ax_maxlen (cfg k))
                     (map (fun v => (sv_name v, dflt v)) (vars_along d k)), g) /\
      g = o0 :: o0 :: r /\ map fst (o0 :: r) = ts /\
      (forall i x, nth_error (o0 :: r) i = Some x -> nth_error ts i = Some (fst x) /\ entries_at (vars_along d k) i (snd x)) /\
      (exists tl0, axis d local tl0 /\ map fst (tl ls) = tl0) /\
      forall j t o outs, nth_error items j = Some ((t, o), outs) ->
        exists os, nth_error its j = Some ((t, o), os) /\ forall w, nth_error os i = Some w -> value_of k outs w.
  Proof.
    intros Hn H A Hne [g Eg]. destruct (merge_dataset_inv _ _ _ _ _ Hn H) as (streams & ls & others & secs & its & Hns & Hin & Hl & Eo & Es & Em & ->).
    assert (Hg : In (k, g) others).
    { rewrite Eo. apply filter_In. split; [apply Hin; eauto|]. cbn. apply negb_true_iff. apply String.eqb_neq. exact Hne. }
    assert (Hno : NoDup (map fst others)) by (rewrite Eo; apply nodup_filter_keys; exact Hns).
    apply In_nth_error in Hg as [i Hi].
    destruct (gen_obs d k ts _ g A Eg) as (o0 & r & E1 & E2 & E3).
    exists its, secs, ls, i, g, o0, r. split; auto. split; [rewrite Es, nth_error_map, Hi; reflexivity|].
    split; auto. split; auto. split; auto. split.
    { apply Hin in Hl as (tl0 & Al & El). exists tl0. split; auto. destruct (gen_obs d local tl0 _ ls Al El) as (u & q & -> & Eu & _). exact Eu. }
    intros j t o outs Hj. rewrite nth_error_map in Hj. destruct (nth_error its j) as [[q os]|] eqn:Ej; [|discriminate]. cbn in Hj.
    injection Hj as -> <-. exists os. split; auto. intros w Hw.
    assert (Hk : nth_error (map fst others) i = Some k) by (rewrite nth_error_map, Hi; reflexivity).
    assert (HL : List.length os = List.length (map fst others)).
    { rewrite (merge_outs _ _ _ _ _ _ Em Ej), Es, !map_length. reflexivity. }
    apply value_of_in.
    - rewrite map_fst_combine'; [exact Hno|symmetry; exact HL].
    - apply (nth_error_In _ i). apply nth_combine; auto.
  Qed.

  Lemma last_shows (p : Z -> bool) (P : Z -> Prop) ts vs dflt (o0 : @obs dict) r :
    (forall t, p t = true <-> P t) -> map fst (o0 :: r) = ts ->
    (forall i x, nth_error (o0 :: r) i = Some x -> nth_error ts i = Some (fst x) /\ entries_at vs i (snd x)) ->
    shows P ts vs dflt (last (map real (filter (fun o => p (fst o)) (o0 :: o0 :: r))) (None, map (fun v => (sv_name v, dflt v)) vs)).
  Proof.
    intros HP Et HE. destruct (last_filter (o0 :: o0 :: r) p (None, map (fun v => (sv_name v, dflt v)) vs)) as [[-> H]|(i & o & H1 & H2 & -> & H4)].
    - right. split; auto. intros t Ht Hp. rewrite <- Et in Ht. apply in_map_iff in Ht as [x [<- Hx]].
      apply HP in Hp. rewrite H in Hp; [discriminate|]. right. exact Hx.
    - left. assert (Hi : exists i', i = S i').
      { destruct i as [|i']; [|eauto]. cbn in H1. injection H1 as <-. pose proof (H4 1 o0 eq_refl H2). lia. }
      destruct Hi as [i' ->]. cbn [nth_error] in H1. destruct (HE i' o H1) as [E1 E2].
      exists i', (fst o), (snd o). split; [|split; [exact E2|reflexivity]]. split; [exact E1|]. split; [apply HP; exact H2|].
      intros q t Hq Ht. rewrite <- Et in Hq. apply nth_map_inv in Hq as [x [Ex ->]]. apply HP in Ht. pose proof (H4 (S q) x Ex Ht). lia.
  Qed.

  Lemma merged_ffill local cfg dflt d items k ts lts j t o outs :
    NoDup (map fst (sd_coords d)) -> merge_dataset false local cfg dflt d = Some items ->
    (exists g, start_part_stream false (ts, vars_along d k) = Some g) ->
    axis d local lts -> axis d k ts -> k <> local -> in_order lts -> in_order ts -> monotone_on lts (ax_embed (cfg k)) ->
    ax_ffill (cfg k) = true -> ax_maxlen (cfg k) = None ->
    nth_error items j = Some ((t, o), outs) ->
    exists c, value_of k outs (One c) /\ shows (fun s => (s < ax_embed (cfg k) t)%Z) ts (vars_along d k) dflt c.
  Proof.
    intros Hn H Hg Al Ak Hne Hol Hok Hm Hf Hb Hj.
    destruct (merged_axis local cfg dflt d items k ts Hn H Ak Hne Hg) as (its & secs & ls & i & g & o0 & r & Em & Hs & -> & Et & HE & (tl0 & Al' & El) & HI).
    rewrite (nodup_axis d local tl0 lts Hn Al' Al) in El.
    destruct (HI j t o outs Hj) as (os & Hos & Hv).
    assert (C1 := in_order_chrono lts (tl ls) El Hol). assert (C2 := chrono_double o0 r (in_order_chrono ts (o0 :: r) Et Hok)).
    pose proof (merge_ffill ls secs its j (t, o) os i _ _ Em Hos Hs C1 C2) as M. cbn [embed Stream.ffill maxlen default fst] in M.
    rewrite El in M. specialize (M Hm Hf Hb). eexists. split; [apply Hv; exact M|].
    unfold strictly_before. apply (last_shows (fun s => (s <? ax_embed (cfg k) t)%Z)); auto. intros s. apply Z.ltb_lt.
  Qed.

  Lemma merged_no_ffill local cfg dflt d items k ts lts j t' o' outs' t o outs :
    NoDup (map fst (sd_coords d)) -> merge_dataset false local cfg dflt d = Some items ->
    (exists g, start_part_stream false (ts, vars_along d k) = Some g) ->
    axis d local lts -> axis d k ts -> k <> local -> in_order lts -> in_order ts -> monotone_on lts (ax_embed (cfg k)) ->
    ax_ffill (cfg k) = false -> ax_maxlen (cfg k) = None ->
    nth_error items j = Some ((t', o'), outs') -> nth_error items (S j) = Some ((t, o), outs) ->
    exists c, value_of k outs (One c) /\
      shows (fun s => (ax_embed (cfg k) t' <= s < ax_embed (cfg k) t)%Z) ts (vars_along d k) dflt c.
  Proof.
    intros Hn H Hg Al Ak Hne Hol Hok Hm Hf Hb Hj Hj1.
    destruct (merged_axis local cfg dflt d items k ts Hn H Ak Hne Hg) as (its & secs & ls & i & g & o0 & r & Em & Hs & -> & Et & HE & (tl0 & Al' & El) & HI).
    rewrite (nodup_axis d local tl0 lts Hn Al' Al) in El.
    destruct (HI j _ _ _ Hj) as (os' & Hos' & _). destruct (HI (S j) _ _ _ Hj1) as (os & Hos & Hv).
    assert (C1 := in_order_chrono lts (tl ls) El Hol). assert (C2 := chrono_double o0 r (in_order_chrono ts (o0 :: r) Et Hok)).
    pose proof (merge_no_ffill ls secs its j _ _ _ _ i _ _ Em Hos' Hos Hs C1 C2) as M. cbn [embed Stream.ffill maxlen default fst] in M.
    rewrite El in M. specialize (M Hm Hf Hb). eexists. split; [apply Hv; exact M|].
    unfold between. apply (last_shows (fun s => (ax_embed (cfg k) t' <=? s)%Z && (s <? ax_embed (cfg k) t)%Z)); auto.
    intros s. rewrite andb_true_iff, Z.leb_le, Z.ltb_lt. reflexivity.
  Qed.

  Lemma filter_prefix (p : Z -> bool) (l : list (@obs dict)) : chronological l -> (forall a b, (a <= b)%Z -> p b = true -> p a = true) ->
    exists n, filter (fun o => p (fst o)) l = firstn n l.
  Proof.
    intros Hc Hp. induction l as [|o l IH]; [exists 0; reflexivity|]. destruct (chrono_cons o l Hc) as [Hc' Ho].
    destruct (IH Hc') as [n En]. cbn [filter]. destruct (p (fst o)) eqn:E.
    - exists (S n). cbn. rewrite En. reflexivity.
    - exists 0. cbn. clear -Ho Hp E. induction l as [|x l IH]; [reflexivity|]. cbn.
      destruct (p (fst x)) eqn:Ex; [|apply IH; intros; apply Ho; right; auto].
      rewrite (Hp (fst o) (fst x)) in E; [discriminate|apply Ho; left; reflexivity|exact Ex].
  Qed.

  Lemma merged_window local cfg dflt d items k ts lts j t o outs n :
    NoDup (map fst (sd_coords d)) -> merge_dataset false local cfg dflt d = Some items ->
    (exists g, start_part_stream false (ts, vars_along d k) = Some g) ->
    axis d local lts -> axis d k ts -> k <> local -> in_order lts -> in_order ts -> monotone_on lts (ax_embed (cfg k)) ->
    ax_ffill (cfg k) = true -> ax_maxlen (cfg k) = Some n ->
    nth_error items j = Some ((t, o), outs) ->
    exists l, map fst l = filter (fun s => Z.ltb s (ax_embed (cfg k) t)) ts /\
      (forall i x, nth_error l i = Some x -> nth_error ts i = Some (fst x) /\ entries_at (vars_along d k) i (snd x)) /\
      value_of k outs (Win (lastn n (repeat (None, map (fun v => (sv_name v, dflt v)) (vars_along d k)) n ++
                                     map real (firstn 1 l ++ l)))).
  Proof.
    intros Hn H Hg Al Ak Hne Hol Hok Hm Hf Hb Hj.
    destruct (merged_axis local cfg dflt d items k ts Hn H Ak Hne Hg) as (its & secs & ls & i & g & o0 & r & Em & Hs & -> & Et & HE & (tl0 & Al' & El) & HI).
    rewrite (nodup_axis d local tl0 lts Hn Al' Al) in El.
    destruct (HI j t o outs Hj) as (os & Hos & Hv).
    assert (C0 := in_order_chrono ts (o0 :: r) Et Hok).
    assert (C1 := in_order_chrono lts (tl ls) El Hol). assert (C2 := chrono_double o0 r C0).
    pose proof (merge_window_ffill ls secs its j (t, o) os i _ _ n Em Hos Hs C1 C2) as M. cbn [embed Stream.ffill maxlen default fst] in M.
    rewrite El in M. specialize (M Hm Hf Hb).
    set (T := ax_embed (cfg k) t) in *. exists (strictly_before T (o0 :: r)). split; [|split].
    - rewrite <- Et. unfold strictly_before. clear. generalize (o0 :: r). intros l. induction l as [|x l IH]; [reflexivity|].
      cbn [filter map]. destruct (fst x <? T)%Z; cbn [map]; rewrite IH; reflexivity.
    - destruct (filter_prefix (fun s => (s <? T)%Z) (o0 :: r) C0) as [m E].
      { intros a b Hab Hb'. apply Z.ltb_lt in Hb'. apply Z.ltb_lt. lia. }
      unfold strictly_before. rewrite E. intros q x Hx. apply HE.
      rewrite nth_firstn_if in Hx. destruct (q <? m); [exact Hx|discriminate].
    - unfold padded_window in M.
      assert (Eq : strictly_before T (o0 :: o0 :: r) = firstn 1 (strictly_before T (o0 :: r)) ++ strictly_before T (o0 :: r)); [|rewrite Eq in M; apply Hv; exact M].
      unfold strictly_before. cbn [filter]. destruct (fst o0 <? T)%Z eqn:E0; [reflexivity|].
      destruct (filter_prefix (fun s => (s <? T)%Z) (o0 :: r) C0) as [m E].
      { intros a b Hab Hb'. apply Z.ltb_lt in Hb'. apply Z.ltb_lt. lia. }
      cbn [filter] in E. rewrite E0 in E. destruct m as [|m]; cbn [firstn] in E; [rewrite E; reflexivity|].
      assert (Hin : In o0 (filter (fun o => (fst o <? T)%Z) r)) by (rewrite E; left; reflexivity).
      apply filter_In in Hin as [_ Hin]. congruence.
  Qed.

  Lemma axis_stream_total d k ts : time_first d -> axis d k ts -> ts <> [] ->
    exists g, start_part_stream false (ts, vars_along d k) = Some g.
  Proof.
    intros Hf A Hne. apply part_stream_total; auto. intros v Hv. unfold vars_along in Hv. apply filter_In in Hv as [Hv Hd].
    apply existsb_dims in Hd. apply (Hf v k ts Hv A Hd).
  Qed.

  Lemma merged_defined local cfg dflt d :
    NoDup (map fst (sd_coords d)) -> one_axis_each d -> time_first d -> (exists ts, axis d local ts) ->
    (forall k ts, axis d k ts -> ts <> [] /\ ax_maxlen (cfg k) <> Some 0) ->
    exists items, merge_dataset false local cfg dflt d = Some items.
  Proof.
    intros Hn Ho Hf [lts Al] Hc. unfold merge_dataset.
    destruct (proj2 (split_defined d Hn)) as [ps Es]; [split; eauto|]. rewrite Es.
    assert (Hp : forall p, In p ps -> exists ts, axis d (fst p) ts /\ snd p = (ts, vars_along d (fst p))).
    { intros [k [ts vs]] Hp. apply (split_spec d k (ts, vs) ps Hn Es) in Hp as [A B]. cbn in *. subst. eauto. }
    destruct (mapM_total (fun p => option_map (pair (fst p)) (start_part_stream false (snd p))) ps) as [streams Et].
    { intros p Hi. destruct (Hp p Hi) as (ts & A & ->). destruct (axis_stream_total d (fst p) ts Hf A) as [g ->].
      - apply (Hc _ _ A).
      - eexists; reflexivity. }
    unfold start_dataset_streams. rewrite Et. apply mapM_Forall2 in Et.
    assert (F : Forall2 (fun p s => fst p = fst s /\ start_part_stream false (snd p) = Some (snd s)) ps streams).
    { refine (F2_impl _ _ _ _ _ Et). intros p s E. cbn in E. destruct (start_part_stream false (snd p)); [|discriminate].
      injection E as <-. auto. }
    assert (Hfst : map fst streams = map fst ps). { clear -F. induction F as [|p s ps ss [E _] _ IH]; cbn; [reflexivity|]. rewrite IH, E. reflexivity. }
    assert (Hst : forall k g, In (k, g) streams -> g <> [] /\ exists ts, axis d k ts).
    { intros k g Hi. apply In_nth_error in Hi as [i Hi].
      assert (exists p, nth_error ps i = Some p) as [p Hpi].
      { destruct (nth_error ps i) eqn:E; eauto. apply nth_error_None in E. rewrite (F2_len _ _ _ F) in E. apply nth_error_None in E. congruence. }
      destruct (F2_nth _ _ _ F i p Hpi) as [s [Hs' [E1 E2]]]. rewrite Hi in Hs'. injection Hs' as <-. cbn in E1, E2. subst k.
      apply nth_error_In in Hpi. destruct (Hp p Hpi) as (ts & A & Ep). split; [|eauto]. destruct (part_stream_inv _ _ E2) as (? & ? & ? & ? & _ & -> & _). discriminate. }
    assert (Hl : exists ls, value_of local streams ls).
    { assert (Hi : In local (map fst streams)).
      { rewrite Hfst. apply in_map_iff. exists (local, (lts, vars_along d local)). split; auto. apply (split_spec d local (lts, vars_along d local) ps Hn Es). auto. }
      apply in_map_iff in Hi as [[k ls] [E Hi]]. cbn in E. subst k. exists ls. apply value_of_in; auto. rewrite Hfst. apply (split_keys d ps Hn Es). }
    destruct Hl as [ls Hl]. assert (Hf' := proj2 (value_of_find local streams ls) Hl). rewrite Hf'.
    destruct Hl as (l1 & l2 & El & _).
    cbv zeta. match goal with |- context [merge ls ?q] => set (secs := q) end.
    destruct (proj2 (merge_defined ls secs)) as [its ->].
    - split. { apply (Hst local ls). rewrite El. apply in_or_app. right. left. reflexivity. }
      intros c g Hc'. unfold secs in Hc'. apply in_map_iff in Hc' as [[k g'] [E Hi]]. cbn [fst snd] in E. injection E as <- <-.
      apply filter_In in Hi as [Hi _]. destruct (Hst k g' Hi) as [H1 [ts A]]. split; auto. cbn [maxlen]. apply (Hc k ts A).
    - eexists. reflexivity.
  Qed.
End M.
