(** Proofs for C138. *)
From Coq Require Import String Ascii List Bool Arith Lia.
From Verif Require Import Model.FlaxOptim Model.EventNames Spec.EventNamesSpec Proofs.FlaxOptimProofs Proofs.GraphProofs.
Import ListNotations.
Local Open Scope list_scope.

Lemma split_last {A} (c : A) : forall a a' b b', ~ In c b -> ~ In c b' -> a ++ c :: b = a' ++ c :: b' -> a = a' /\ b = b'.
Proof.
  induction a as [|x a IH]; intros [|x' a'] b b' H H' E; cbn in E.
  - injection E as ->. auto.
  - injection E as -> E. exfalso. apply H. rewrite E. apply in_or_app. right. left. reflexivity.
  - injection E as -> E. exfalso. apply H'. rewrite <- E. apply in_or_app. right. left. reflexivity.
  - injection E as -> E. destruct (IH a' b b' H H' E) as [-> ->]. auto.
Qed.
Lemma los_inj s t : list_ascii_of_string s = list_ascii_of_string t -> s = t.
Proof. intros H. rewrite <- (string_of_list_ascii_of_string s), <- (string_of_list_ascii_of_string t), H. reflexivity. Qed.
Lemma fq_inj m n m' n' : no_slash n -> no_slash n' -> fq_name m n = fq_name m' n' -> m = m' /\ n = n'.
Proof.
  unfold no_slash, fq_name. intros H H' E. apply (f_equal list_ascii_of_string) in E. rewrite !los_append in E. cbn [list_ascii_of_string] in E.
  change (list_ascii_of_string "/" ++ ?x) with ("/"%char :: x) in E. cbn [app] in E.
  destruct (split_last _ _ _ _ _ H H' E) as [A B]. split; apply los_inj; assumption.
Qed.
Lemma sget_app {A} k (a b : list (string * A)) : sget k (a ++ b) = match sget k a with Some v => Some v | None => sget k b end.
Proof. induction a as [|[k0 v] a IH]; [reflexivity|]. cbn [app sget]. destruct (String.eqb k k0); [reflexivity|exact IH]. Qed.
Lemma NoDup_app' {A} (a b : list A) : NoDup a -> NoDup b -> (forall x, In x a -> ~ In x b) -> NoDup (a ++ b).
Proof.
  induction a as [|x a IH]; intros Ha Hb H; [exact Hb|]. inversion Ha; subst. cbn. constructor.
  - intros Hin. apply in_app_or in Hin as [Hin|Hin]; [contradiction|]. apply (H x); [left; reflexivity|exact Hin].
  - apply IH; auto. intros y Hy. apply H. right. exact Hy.
Qed.
Lemma in_sget {A} k (d : list (string * A)) : In k (map fst d) <-> sget k d <> None.
Proof. rewrite sget_none. split; [tauto|]. intros H. destruct (in_dec string_dec k (map fst d)); [assumption|contradiction]. Qed.

Section E.
  Context {V X : Type}.
  Implicit Types (fr : frame V).
  Variables (mname : string) (subs : list string).
  Definition flat fr : list (string * V) :=
    flat_map (fun mb => if in_scope mname subs (fst mb) then map (fun nv => (fq_name (fst mb) (fst nv), snd nv)) (snd mb) else []) fr.
  Lemma wf_inv m b fr : well_formed ((m, b) :: fr) ->
    ~ In m (map fst fr) /\ NoDup (map fst b) /\ Forall no_slash (map fst b) /\ well_formed fr.
  Proof.
    intros [H1 H2]. cbn [map fst] in H1. inversion H1; subst. pose proof (Forall_inv H2) as [A B]. apply Forall_inv_tail in H2.
    cbn [snd] in A, B. repeat split; assumption.
  Qed.
  Lemma lookup_cons m0 b fr m n : lookup ((m0, b) :: fr) m n = if String.eqb m m0 then sget n b else lookup fr m n.
  Proof. unfold lookup. cbn [sget]. destruct (String.eqb m m0); reflexivity. Qed.
  Lemma sget_fq m0 (b : list (string * V)) m n : no_slash n -> Forall no_slash (map fst b) ->
    sget (fq_name m n) (map (fun nv => (fq_name m0 (fst nv), snd nv)) b) = if String.eqb m m0 then sget n b else None.
  Proof.
    intros Hn. induction b as [|[n0 v] b IH]; cbn [map fst snd sget]; intros HF; [destruct (String.eqb m m0); reflexivity|].
    pose proof (Forall_inv HF) as H0. apply Forall_inv_tail in HF. cbn in H0. rewrite (IH HF).
    destruct (String.eqb_spec (fq_name m n) (fq_name m0 n0)) as [E|E].
    - destruct (fq_inj _ _ _ _ Hn H0 E) as [-> ->]. rewrite !String.eqb_refl. reflexivity.
    - destruct (String.eqb_spec m m0) as [->|N]; [|reflexivity].
      destruct (String.eqb_spec n n0) as [->|N]; [contradiction|reflexivity].
  Qed.
  Lemma flat_get fr m n : well_formed fr -> no_slash n ->
    sget (fq_name m n) (flat fr) = if in_scope mname subs m then lookup fr m n else None.
  Proof.
    intros HW Hn. induction fr as [|[m0 b] fr IH].
    - cbn. destruct (in_scope mname subs m); reflexivity.
    - destruct (wf_inv _ _ _ HW) as (N & N1 & N2 & W'). specialize (IH W').
      cbn [flat flat_map fst snd]. fold (flat fr). rewrite sget_app, IH, lookup_cons.
      destruct (in_scope mname subs m0) eqn:E0.
      + rewrite sget_fq by assumption. destruct (String.eqb_spec m m0) as [->|M].
        * rewrite E0. destruct (sget n b) eqn:Q; [reflexivity|]. unfold lookup. rewrite (proj2 (sget_none _ _) N). reflexivity.
        * destruct (in_scope mname subs m); reflexivity.
      + cbn [sget]. destruct (String.eqb_spec m m0) as [->|M]; [rewrite E0; reflexivity|reflexivity].
  Qed.
  Lemma flat_key fr k : In k (map fst (flat fr)) ->
    exists m n b, k = fq_name m n /\ in_scope mname subs m = true /\ In (m, b) fr /\ In n (map fst b).
  Proof.
    intros H. apply in_map_iff in H as ([k' v] & E & H). cbn in E. subst k'. apply in_flat_map in H as ([m b] & Hin & H).
    cbn [fst snd] in H. destruct (in_scope mname subs m) eqn:S; [|destruct H]. apply in_map_iff in H as ([n v'] & E & H).
    injection E as <- <-. exists m, n, b. repeat split; auto. apply in_map_iff. exists (n, v'). auto.
  Qed.
  Lemma wf_in fr m b n : well_formed fr -> In (m, b) fr -> In n (map fst b) -> no_slash n /\ lookup fr m n <> None.
  Proof.
    intros HW Hin Hn. induction fr as [|[m0 b0] fr IH]; [destruct Hin|]. destruct (wf_inv _ _ _ HW) as (N & N1 & N2 & W').
    rewrite lookup_cons. destruct Hin as [E|Hin].
    - injection E as <- <-. rewrite String.eqb_refl. split; [rewrite Forall_forall in N2; auto|apply in_sget; exact Hn].
    - destruct (IH W' Hin) as [A B]. split; [exact A|]. destruct (String.eqb_spec m m0) as [->|M]; [|exact B].
      exfalso. apply N. apply in_map_iff. exists (m0, b). auto.
  Qed.
  Lemma lookup_slash fr m n : well_formed fr -> lookup fr m n <> None -> no_slash n.
  Proof.
    intros HW. induction fr as [|[m0 b0] fr IH]; [cbn; congruence|]. destruct (wf_inv _ _ _ HW) as (N & N1 & N2 & W').
    rewrite lookup_cons. destruct (String.eqb m m0); [|auto]. intros H. apply in_sget in H. rewrite Forall_forall in N2. auto.
  Qed.
  Lemma flat_nodup fr : well_formed fr -> NoDup (map fst (flat fr)).
  Proof.
    intros HW. induction fr as [|[m b] fr IH]; [constructor|]. destruct (wf_inv _ _ _ HW) as (N & N1 & N2 & W').
    cbn [flat flat_map fst snd]. fold (flat fr). rewrite map_app. apply NoDup_app'; [|auto|].
    - destruct (in_scope mname subs m); [|constructor]. rewrite map_map. cbn [fst].
      rewrite <- (map_map fst (fun n => fq_name m n)). clear - N1 N2. induction (map fst b) as [|n l IH]; [constructor|].
      cbn [map]. inversion N1; subst. pose proof (Forall_inv N2) as Q. apply Forall_inv_tail in N2. constructor; [|auto].
      intros Hin. apply in_map_iff in Hin as (n' & E & Hin). rewrite Forall_forall in N2.
      destruct (fq_inj _ _ _ _ (N2 _ Hin) Q E) as [_ ->]. contradiction.
    - intros k Hk Hk'. destruct (in_scope mname subs m) eqn:S; [|destruct Hk]. rewrite map_map in Hk. cbn [fst] in Hk.
      apply in_map_iff in Hk as ([n v] & E & Hk). cbn [fst] in E. apply flat_key in Hk' as (m' & n' & b' & E' & _ & I1 & I2).
      destruct (wf_in _ _ _ _ W' I1 I2) as [Q _]. rewrite E' in E. rewrite Forall_forall in N2.
      assert (Qn : no_slash n) by (apply N2, in_map_iff; exists (n, v); auto).
      destruct (fq_inj _ _ _ _ Qn Q E) as [<- <-]. apply N. apply in_map_iff. exists (m, b'). auto.
  Qed.
  Lemma state_get fr m n : well_formed fr -> no_slash n ->
    sget (fq_name m n) (state_dict mname subs fr) = if in_scope mname subs m then lookup fr m n else None.
  Proof.
    intros HW Hn. unfold state_dict. fold (flat fr). rewrite sget_dict_update by (apply flat_nodup; exact HW).
    rewrite flat_get by assumption. cbn [sget]. destruct (in_scope mname subs m); [destruct (lookup fr m n)|]; reflexivity.
  Qed.
  Lemma state_key fr k : well_formed fr -> In k (map fst (state_dict mname subs fr)) ->
    exists m n, k = fq_name m n /\ in_scope mname subs m = true /\ no_slash n /\ lookup fr m n <> None.
  Proof.
    intros HW H. unfold state_dict in H. fold (flat fr) in H. apply in_sget in H. rewrite sget_dict_update in H by (apply flat_nodup; exact HW).
    assert (H' : sget k (flat fr) <> None) by (destruct (sget k (flat fr)); [discriminate|cbn in H; congruence]).
    apply in_sget, flat_key in H' as (m & n & b & E & S & I1 & I2). destruct (wf_in _ _ _ _ HW I1 I2) as [Q1 Q2]. eauto 8.
  Qed.
  Lemma keys_in_ok fr fr1 : well_formed fr -> well_formed fr1 ->
    (forall m n, in_scope mname subs m = true -> lookup fr m n <> None -> lookup fr1 m n <> None) ->
    keys_in (state_dict mname subs fr) (state_dict mname subs fr1) = true.
  Proof.
    intros W W1 H. unfold keys_in. apply forallb_forall. intros [k v] Hin. cbn [fst].
    assert (Hk : In k (map fst (state_dict mname subs fr))) by (apply in_map_iff; exists (k, v); auto).
    destruct (state_key _ _ W Hk) as (m & n & -> & S & Q & L). rewrite state_get by assumption. rewrite S.
    specialize (H m n S L). destruct (lookup fr1 m n); [reflexivity|congruence].
  Qed.
  Lemma state_empty fr : well_formed fr -> state_dict mname subs fr = [] ->
    forall m n, in_scope mname subs m = true -> lookup fr m n = None.
  Proof.
    intros W E m n S. destruct (lookup fr m n) as [v|] eqn:L; [|reflexivity]. exfalso.
    assert (Q : no_slash n) by (apply (lookup_slash fr m n W); congruence).
    pose proof (state_get fr m n W Q) as H. rewrite E, S, L in H. discriminate.
  Qed.

  Lemma set_bundle_get m (d b : list (string * V)) : (forall n, In n (map fst b) -> sget (fq_name m n) d <> None) ->
    exists b', set_bundle m d b = Some b' /\ map fst b' = map fst b /\
      forall n, sget n b' = match sget n b with Some _ => sget (fq_name m n) d | None => None end.
  Proof.
    induction b as [|[n0 v0] b IH]; intros H; [exists []; repeat split; reflexivity|].
    destruct IH as (b' & E & K & G); [intros n Hn; apply H; right; exact Hn|].
    cbn [set_bundle]. rewrite E. destruct (sget (fq_name m n0) d) as [v|] eqn:Ev; [|exfalso; apply (H n0); [left; reflexivity|exact Ev]].
    exists ((n0, v) :: b'). split; [reflexivity|]. split; [cbn; rewrite K; reflexivity|]. intros n. cbn [sget]. destruct (String.eqb_spec n n0) as [->|N]; [rewrite Ev; reflexivity|apply G].
  Qed.
  Lemma set_state_get (d : list (string * V)) fr : (forall m b n, In (m, b) fr -> in_scope mname subs m = true -> In n (map fst b) -> sget (fq_name m n) d <> None) ->
    exists fr2, set_state_from_dict mname subs d fr = Some fr2 /\
      map (fun mb => (fst mb, map fst (snd mb))) fr2 = map (fun mb => (fst mb, map fst (snd mb))) fr /\
      forall m n, lookup fr2 m n = if in_scope mname subs m
        then match lookup fr m n with Some _ => sget (fq_name m n) d | None => None end else lookup fr m n.
  Proof.
    induction fr as [|[m0 b] fr IH]; intros H.
    - exists []. split; [reflexivity|]. split; [reflexivity|]. intros m n. cbn. destruct (in_scope mname subs m); reflexivity.
    - destruct IH as (fr2 & E & K & G); [intros m b' n Hin; apply H; right; exact Hin|]. cbn [set_state_from_dict]. rewrite E.
      destruct (in_scope mname subs m0) eqn:S.
      + destruct (set_bundle_get m0 d b) as (b' & Eb & Kb & Gb); [intros n Hn; apply (H m0 b n); [left; reflexivity|exact S|exact Hn]|].
        rewrite Eb. exists ((m0, b') :: fr2). split; [reflexivity|]. split; [cbn; rewrite K, Kb; reflexivity|]. intros m n. rewrite !lookup_cons.
        destruct (String.eqb_spec m m0) as [->|N]; [rewrite S; apply Gb|apply G].
      + exists ((m0, b) :: fr2). split; [reflexivity|]. split; [cbn; rewrite K; reflexivity|]. intros m n. rewrite !lookup_cons.
        destruct (String.eqb_spec m m0) as [->|N]; [rewrite S; reflexivity|apply G].
  Qed.
  Lemma lookup_put fr m0 n0 v m n : lookup (put m0 n0 v fr) m n =
    if String.eqb m m0 && String.eqb n n0 then Some v else lookup fr m n.
  Proof.
    unfold lookup, put. rewrite sget_sset. destruct (String.eqb_spec m m0) as [->|N]; cbn [andb]; [|reflexivity].
    rewrite sget_sset. destruct (String.eqb n n0); [reflexivity|]. destruct (sget m0 fr); reflexivity.
  Qed.
  Lemma wf_put fr m0 n0 v : no_slash n0 -> well_formed fr -> well_formed (put m0 n0 v fr).
  Proof.
    intros Hn [H1 H2]. unfold put. split; [apply sset_nodup; exact H1|].
    set (b := match sget m0 fr with Some b => b | None => [] end).
    assert (Hb : NoDup (map fst b) /\ Forall no_slash (map fst b)).
    { unfold b. clear - H2. induction fr as [|[m b] fr IH]; cbn [sget]; [split; constructor|].
      destruct (String.eqb m0 m); [exact (Forall_inv H2)|exact (IH (Forall_inv_tail H2))]. }
    clearbody b. apply Forall_forall. intros [m b'] Hin. apply sset_in in Hin as [->|Hin].
    - cbn [snd]. split; [apply sset_nodup; tauto|]. destruct Hb as [_ Hb]. clear - Hn Hb.
      induction b as [|[k w] b IH]; cbn [sset map fst]; [repeat constructor; assumption|]. inversion Hb; subst.
      destruct (String.eqb n0 k); cbn [map fst]; constructor; auto.
    - rewrite Forall_forall in H2. exact (H2 _ Hin).
  Qed.
  Lemma wf_shape fr fr2 : map (fun mb : string * list (string * V) => (fst mb, map fst (snd mb))) fr2 = map (fun mb => (fst mb, map fst (snd mb))) fr ->
    well_formed fr -> well_formed fr2.
  Proof.
    intros E [H1 H2]. split.
    - assert (Q := f_equal (map fst) E). rewrite !map_map in Q. cbn [fst] in Q. change (map fst fr2 = map fst fr) in Q. rewrite Q. exact H1.
    - clear H1. revert fr2 E. induction fr as [|x fr IH]; intros [|y fr2] E; cbn in E; try discriminate; [constructor|].
      injection E as E1 E2 E3. constructor; [rewrite E2; exact (Forall_inv H2)|]. exact (IH (Forall_inv_tail H2) fr2 E3).
  Qed.

  Variables (wname : string) (full : V -> V) (call : X -> frame V -> option (V * frame V)).
  Lemma prev_no_slash : no_slash "prev_output".
  Proof. unfold no_slash. cbn. intros H. repeat (destruct H as [H|H]; [discriminate|]). exact H. Qed.

  Lemma named_step (ev : bool) (x : X) fr out fr1 :
    well_formed fr -> well_formed fr1 -> call x fr = Some (out, fr1) ->
    (forall m n, in_scope mname subs m = true -> lookup fr m n = None <-> lookup fr1 m n = None) ->
    in_scope mname subs wname = false ->
    let o := if ev then out else match lookup fr1 wname "prev_output" with Some v => v | None => full out end in
    exists fr', update_on_event_named wname mname subs full call ev x fr = Some (o, fr') /\ well_formed fr' /\
      forall m n, lookup fr' m n =
        if String.eqb m wname && String.eqb n "prev_output" then Some o
        else if negb ev && in_scope mname subs m then lookup fr m n else lookup fr1 m n.
  Proof.
    intros W W1 Hc Hs Hw. cbv zeta. unfold update_on_event_named. rewrite Hc.
    set (po := match lookup fr1 wname "prev_output" with Some v => v | None => full out end).
    assert (KK : forall a b : frame V, well_formed a -> well_formed b -> (forall m n, in_scope mname subs m = true -> lookup a m n = None <-> lookup b m n = None) ->
      keys_in (state_dict mname subs a) (state_dict mname subs b) = true).
    { intros a b Wa Wb H. apply keys_in_ok; [assumption..|]. intros m n S L L'. apply L. apply H; assumption. }
    assert (K1 := KK fr fr1 W W1 Hs).
    assert (K2 := KK fr1 fr W1 W (fun m n S => iff_sym (Hs m n S))).
    assert (NX : exists fr2, (match (if ev then match state_dict mname subs fr with [] => @nil (string * V) | _ => state_dict mname subs fr1 end else state_dict mname subs fr) with
        [] => Some fr1 | _ => set_state_from_dict mname subs (if ev then match state_dict mname subs fr with [] => @nil (string * V) | _ => state_dict mname subs fr1 end else state_dict mname subs fr) fr1 end) = Some fr2 /\
        well_formed fr2 /\ forall m n, lookup fr2 m n = if negb ev && in_scope mname subs m then lookup fr m n else lookup fr1 m n).
    { destruct (state_dict mname subs fr) as [|z zs] eqn:Ed.
      - assert (G : forall m n, in_scope mname subs m = true -> lookup fr m n = lookup fr1 m n).
        { intros m n S. pose proof (state_empty fr W Ed m n S) as L. rewrite L. symmetry. apply Hs; assumption. }
        exists fr1. split; [destruct ev; reflexivity|]. split; [exact W1|]. intros m n.
        destruct ev; cbn [negb andb]; [reflexivity|]. destruct (in_scope mname subs m) eqn:S; [rewrite G by exact S|]; reflexivity.
      - rewrite <- Ed. set (src := if ev then fr1 else fr).
        assert (Es : (if ev then state_dict mname subs fr1 else state_dict mname subs fr) = state_dict mname subs src) by (destruct ev; reflexivity).
        assert (Wsrc : well_formed src) by (destruct ev; assumption).
        assert (Hsrc : forall m n, in_scope mname subs m = true -> lookup src m n = None <-> lookup fr1 m n = None).
        { intros m n S. destruct ev; [reflexivity|apply Hs; exact S]. }
        rewrite Es. destruct (set_state_get (state_dict mname subs src) fr1) as (fr2 & E2 & K & G).
        { intros m b n Hin S Hn. destruct (wf_in _ _ _ _ W1 Hin Hn) as [Q L]. rewrite state_get by assumption. rewrite S.
          intros L'. apply L. apply Hsrc; assumption. }
        exists fr2. split.
        { destruct (state_dict mname subs src) as [|y ys] eqn:Eq; [|exact E2]. exfalso.
          assert (K3 := KK fr src W Wsrc). rewrite Eq, Ed in K3. cbn in K3.
          assert (Q : false = true) by (apply K3; intros m n S; rewrite Hs by exact S; symmetry; apply Hsrc; exact S). discriminate. }
        split; [exact (wf_shape _ _ K W1)|]. intros m n. rewrite G. destruct (in_scope mname subs m) eqn:S.
        + destruct (lookup fr1 m n) as [v|] eqn:L1.
          * assert (Q : no_slash n) by (apply (lookup_slash fr1 m n W1); congruence).
            rewrite state_get, S by assumption. unfold src. destruct ev; cbn [negb andb]; [exact L1|reflexivity].
          * destruct ev; cbn [negb andb]; [reflexivity|]. symmetry. apply Hs; assumption.
        + rewrite Bool.andb_false_r. reflexivity. }
    destruct NX as (fr2 & E2 & W2 & G).
    assert (KC : keys_in (state_dict mname subs fr) match state_dict mname subs fr with [] => @nil (string * V) | _ => state_dict mname subs fr1 end &&
                 keys_in match state_dict mname subs fr with [] => @nil (string * V) | _ => state_dict mname subs fr1 end (state_dict mname subs fr) = true).
    { destruct (state_dict mname subs fr) as [|z zs] eqn:Ed; [reflexivity|]. rewrite K1, K2. reflexivity. }
    rewrite KC. destruct ev; cbn [negb andb] in *; rewrite E2; eexists; (split; [reflexivity|]);
      (split; [apply wf_put; [apply prev_no_slash|exact W2]|]); intros m n; rewrite lookup_put, G; reflexivity.
  Qed.
End E.

(** *** a module which owns its states: the anonymous UpdateOnEvent *)
From Verif Require Import Model.Unroll Model.Dynamics.
Section R.
  Context {V X S : Type}.
  Variables (mname : string) (subs : list string) (wname : string) (full : V -> V) (call : X -> frame V -> option (V * frame V)).
  Variables (abs : frame V -> S) (f : S -> X -> V * S) (good : frame V -> Prop).
  (** the wrapped module computes [f] on its part of the frame and writes nothing else *)
  Hypothesis Hwname : in_scope mname subs wname = false.
  Hypothesis Hcall : forall x fr, good fr -> well_formed fr -> exists fr1,
    call x fr = Some (fst (f (abs fr) x), fr1) /\ well_formed fr1 /\ abs fr1 = snd (f (abs fr) x) /\
    (forall m n, in_scope mname subs m = false -> lookup fr1 m n = lookup fr m n) /\
    (forall m n, in_scope mname subs m = true -> lookup fr m n = None <-> lookup fr1 m n = None).
  Hypothesis Habs : forall fr fr', (forall m n, in_scope mname subs m = true -> lookup fr m n = lookup fr' m n) -> abs fr = abs fr'.
  Hypothesis Hgood : forall fr fr', (forall m n, lookup fr m n = None <-> lookup fr' m n = None) -> good fr -> good fr'.

  Lemma frozen x fr po : good fr -> well_formed fr -> lookup fr wname "prev_output" = Some po ->
    exists fr', update_on_event_named wname mname subs full call false x fr = Some (po, fr') /\
      forall m n, lookup fr' m n = lookup fr m n.
  Proof.
    intros Hg W Hp. destruct (Hcall x fr Hg W) as (fr1 & Ec & W1 & _ & Ho & Hs).
    destruct (named_step mname subs wname full call false x fr _ fr1 W W1 Ec Hs Hwname) as (fr' & E & _ & G).
    cbv zeta in E, G. rewrite Ho, Hp in E, G by exact Hwname. exists fr'. split; [exact E|]. intros m n. rewrite G. cbn [negb andb].
    destruct (String.eqb_spec m wname) as [->|N]; cbn [andb].
    - destruct (String.eqb_spec n "prev_output") as [->|N]; [symmetry; exact Hp|]. rewrite Hwname. apply Ho. exact Hwname.
    - destruct (in_scope mname subs m) eqn:Sc; [reflexivity|apply Ho; exact Sc].
  Qed.

  Lemma refines (s0 : S) es : forall fr po, good fr -> well_formed fr -> lookup fr wname "prev_output" = Some po ->
    exists fr', frame_run (fun e => update_on_event_named wname mname subs full call (fst e) (snd e)) es fr =
      Some (fst (anon_run full s0 f es (po, abs fr)), fr') /\
      lookup fr' wname "prev_output" = Some (fst (snd (anon_run full s0 f es (po, abs fr)))) /\ abs fr' = snd (snd (anon_run full s0 f es (po, abs fr))) /\
      (forall m n, in_scope mname subs m = false -> m <> wname -> lookup fr' m n = lookup fr m n).
  Proof.
    induction es as [|[ev x] es IH]; intros fr po Hg W Hp.
    - exists fr. cbn. rewrite Hp. auto.
    - destruct (Hcall x fr Hg W) as (fr1 & Ec & W1 & Ea & Ho & Hs).
      destruct (named_step mname subs wname full call ev x fr _ fr1 W W1 Ec Hs Hwname) as (fr' & E & W' & G).
      cbv zeta in E, G. rewrite Ho, Hp in E, G by exact Hwname.
      set (o := if ev then fst (f (abs fr) x) else po) in *.
      assert (Hp' : lookup fr' wname "prev_output" = Some o) by (rewrite G, !String.eqb_refl; reflexivity).
      assert (Hn : forall m n, lookup fr m n = None <-> lookup fr' m n = None).
      { intros m n. rewrite G. destruct (String.eqb_spec m wname) as [->|N]; cbn [andb].
        - destruct (String.eqb_spec n "prev_output") as [->|N']; [rewrite Hp; split; discriminate|]. rewrite Hwname, andb_false_r.
          rewrite Ho by exact Hwname. reflexivity.
        - destruct (in_scope mname subs m) eqn:Sc.
          + destruct ev; cbn [negb andb]; [apply Hs; exact Sc|reflexivity].
          + rewrite andb_false_r. rewrite Ho by exact Sc. reflexivity. }
      assert (Ea' : abs fr' = if ev then snd (f (abs fr) x) else abs fr).
      { destruct ev.
        - rewrite <- Ea. apply Habs. intros m n Sc. rewrite G. cbn [negb andb].
          destruct (String.eqb_spec m wname) as [->|N]; [congruence|reflexivity].
        - apply Habs. intros m n Sc. rewrite G, Sc. cbn [negb andb].
          destruct (String.eqb_spec m wname) as [->|N]; [congruence|reflexivity]. }
      destruct (IH fr' o (Hgood _ _ Hn Hg) W' Hp') as (fr2 & E2 & A2 & B2 & O2).
      exists fr2. cbn [frame_run fst snd anon_run]. rewrite E. rewrite E2. cbn [t_apply update_on_event fst snd]. cbn [anon_wrapped t_apply].
      rewrite Ea' in *. destruct (f (abs fr) x) as [out s'] eqn:Ef. cbn [fst snd] in *. subst o.
      assert (O3 : forall m n, in_scope mname subs m = false -> m <> wname -> lookup fr2 m n = lookup fr m n).
      { intros m n Sc N. rewrite (O2 m n Sc N), G, Sc, andb_false_r. destruct (String.eqb_spec m wname); [contradiction|]. cbn [andb]. apply Ho. exact Sc. }
      destruct ev.
      + destruct (anon_run full s0 f es (out, s')) as [os st2] eqn:Er. cbn [fst snd] in *. auto.
      + destruct (anon_run full s0 f es (po, abs fr)) as [os st2] eqn:Er. cbn [fst snd] in *. auto.
  Qed.
End R.

(** *** nested wrappers *)
Definition nested_frame (n a b : nat) : frame nat :=
  [("counter", [("count", n)]); ("update_on_event", [("prev_output", a)]); ("update_on_event_1", [("prev_output", b)])]%string.
Lemma nested_step n a b ev iv :
  nested (ev, iv) (nested_frame n a b) =
  let i := if iv then S n else a in
  let o := if ev then i else b in
  Some (o, nested_frame (if iv then S n else n) (if ev then i else a) o).
Proof. destruct ev, iv; reflexivity. Qed.
Lemma nested_run evs : forall n a b, exists os a' b',
  frame_run nested evs (nested_frame n a b) = Some (os, nested_frame (n + length (filter snd evs)) a' b').
Proof.
  induction evs as [|[ev iv] evs IH]; intros n a b.
  - exists [], a, b. cbn [filter length frame_run]. rewrite Nat.add_0_r. reflexivity.
  - cbn [frame_run]. rewrite nested_step. cbv zeta.
    destruct (IH (if iv then S n else n) (if ev then if iv then S n else a else a) (if ev then if iv then S n else a else b)) as (os & a' & b' & E).
    rewrite E. cbn [filter snd]. destruct iv; do 3 eexists; cbn [length]; [rewrite Nat.add_succ_r|]; reflexivity.
Qed.
Lemma nested_count n evs : exists os fr, frame_run nested evs (nested_start n) = Some (os, fr) /\
  count_of fr = n + length (filter (fun e => snd e) evs).
Proof. destruct (nested_run evs n 0 0) as (os & a & b & E). exists os. eexists. split; [exact E|reflexivity]. Qed.

Lemma prefix_iff : forall a b, String.prefix a b = true <-> exists r, b = (a ++ r)%string.
Proof.
  induction a as [|c a IH]; intros b.
  - split; [intros _; exists b; reflexivity|]. destruct b; reflexivity.
  - destruct b as [|d b]; cbn [String.prefix].
    + split; [discriminate|]. intros (r & E). discriminate.
    + destruct (ascii_dec c d) as [->|N].
      * rewrite IH. split; intros (r & E); exists r; [rewrite E; reflexivity|]. cbn in E. injection E as E. exact E.
      * split; [discriminate|]. intros (r & E). cbn in E. injection E as E _. congruence.
Qed.
Lemma scope_iff m subs t : in_scope m subs t = true <-> t = m \/ (exists r, t = (m ++ "/" ++ r)%string) \/ In t subs.
Proof.
  unfold in_scope. rewrite !Bool.orb_true_iff, String.eqb_eq, prefix_iff, existsb_exists. split.
  - intros [[H|(r & H)]|(u & H & E)]; [left; exact H|right; left|right; right].
    + exists r. rewrite H, append_assoc. reflexivity.
    + apply String.eqb_eq in E. subst u. exact H.
  - intros [H|[(r & H)|H]]; [left; left; exact H|left; right|right].
    + exists r. rewrite H, append_assoc. reflexivity.
    + exists t. split; [exact H|apply String.eqb_refl].
Qed.
