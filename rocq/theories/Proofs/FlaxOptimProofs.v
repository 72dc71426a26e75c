(** Proofs for C77-C80. *)
From Coq Require Import String Ascii List Bool Reals Lia FinFun.
From Verif Require Import Model.Float Model.Optim Model.FlaxModules Model.FlaxOptim Spec.FlaxOptimSpec.
Import ListNotations.
Local Open Scope list_scope.

(** *** Dictionaries *)
Lemma sget_sset {A} (k k' : string) (v : A) d :
  sget k (sset k' v d) = if String.eqb k k' then Some v else sget k d.
Proof.
  induction d as [|[k0 v0] r IH]; cbn [sset sget].
  - reflexivity.
  - destruct (String.eqb_spec k' k0) as [->|N]; cbn [sget].
    + destruct (String.eqb k k0); reflexivity.
    + rewrite IH. destruct (String.eqb_spec k k0) as [->|N2].
      * destruct (String.eqb_spec k0 k') as [->|]; [congruence|reflexivity].
      * reflexivity.
Qed.
Lemma sset_keys {A} k (v : A) d x : In x (map fst (sset k v d)) <-> x = k \/ In x (map fst d).
Proof.
  induction d as [|[k0 v0] r IH]; cbn [sset map fst In].
  - intuition.
  - destruct (String.eqb_spec k k0) as [->|N]; cbn [map fst In].
    + intuition.
    + rewrite IH. intuition.
Qed.
Lemma sset_nodup {A} k (v : A) d : NoDup (map fst d) -> NoDup (map fst (sset k v d)).
Proof.
  induction d as [|[k0 v0] r IH]; cbn [sset map fst]; intros H.
  - constructor; [intros []|constructor].
  - inversion H; subst. destruct (String.eqb_spec k k0) as [->|N]; cbn [map fst].
    + constructor; assumption.
    + constructor; [|apply IH; assumption].
      rewrite sset_keys. intros [E|E]; [congruence|contradiction].
Qed.
Lemma sset_in {A} k (v : A) d k1 v1 : In (k1, v1) (sset k v d) -> v1 = v \/ In (k1, v1) d.
Proof.
  induction d as [|[k0 v0] r IH]; cbn [sset].
  - intros [E|[]]. injection E; auto.
  - destruct (String.eqb k k0); cbn [In].
    + intros [E|E]; [injection E; auto|right; right; exact E].
    + intros [E|E]; [right; left; exact E|]. destruct (IH E); auto.
Qed.
Lemma sset_fresh {A} k (v : A) d : ~ In k (map fst d) -> sset k v d = d ++ [(k, v)].
Proof.
  induction d as [|[k0 v0] r IH]; cbn [sset map fst In app]; intros H; [reflexivity|].
  destruct (String.eqb_spec k k0) as [->|N]; [tauto|]. rewrite IH; [reflexivity|tauto].
Qed.
Lemma sget_none {A} k (d : list (string * A)) : sget k d = None <-> ~ In k (map fst d).
Proof.
  induction d as [|[k0 v0] r IH]; cbn [sget map fst In]; [tauto|].
  destruct (String.eqb_spec k k0) as [->|N]; [split; [discriminate|tauto]|].
  rewrite IH. intuition congruence.
Qed.
Lemma sget_in {A} k (v : A) d : sget k d = Some v -> In (k, v) d.
Proof.
  induction d as [|[k0 v0] r IH]; cbn [sget In]; [discriminate|].
  destruct (String.eqb_spec k k0) as [->|N]; [intros E; injection E; intros ->; auto|auto].
Qed.
Lemma in_sget {A} k (v : A) d : NoDup (map fst d) -> In (k, v) d -> sget k d = Some v.
Proof.
  induction d as [|[k0 v0] r IH]; cbn [sget In map fst]; [tauto|].
  intros ND [E|E]; inversion ND; subst.
  - injection E; intros -> ->. rewrite String.eqb_refl. reflexivity.
  - destruct (String.eqb_spec k k0) as [->|N]; [|auto].
    exfalso. apply H1. apply (in_map fst) in E. exact E.
Qed.
Lemma dict_update_keys {A} (d e : list (string * A)) x :
  In x (map fst (dict_update d e)) <-> In x (map fst d) \/ In x (map fst e).
Proof.
  unfold dict_update. revert d. induction e as [|[k v] r IH]; intros d; cbn [fold_left map fst snd In].
  - tauto.
  - rewrite IH, sset_keys. intuition.
Qed.
Lemma dict_update_nodup {A} (d e : list (string * A)) : NoDup (map fst d) -> NoDup (map fst (dict_update d e)).
Proof.
  unfold dict_update. revert d. induction e as [|[k v] r IH]; intros d H; cbn [fold_left fst snd]; [exact H|].
  apply IH. apply sset_nodup. exact H.
Qed.
Lemma dict_update_in {A} (d e : list (string * A)) k v :
  In (k, v) (dict_update d e) -> (exists k', In (k', v) d) \/ (exists k', In (k', v) e).
Proof.
  unfold dict_update. revert d. induction e as [|[k0 v0] r IH]; intros d H; cbn [fold_left fst snd] in H.
  - left; eauto.
  - apply IH in H. destruct H as [[k' H]|[k' H]].
    + apply sset_in in H. destruct H as [->|H]; [right; exists k0; left; reflexivity|left; eauto].
    + right; exists k'; right; exact H.
Qed.
Lemma sget_dict_update {A} (e d : list (string * A)) k :
  NoDup (map fst e) ->
  sget k (dict_update d e) = match sget k e with Some v => Some v | None => sget k d end.
Proof.
  unfold dict_update. revert d. induction e as [|[k0 v0] r IH]; intros d ND; cbn [fold_left sget fst snd]; [reflexivity|].
  inversion ND; subst. rewrite IH by assumption. rewrite sget_sset.
  destruct (String.eqb_spec k k0) as [->|N].
  - assert (E : sget k0 r = None) by (apply sget_none; assumption). rewrite E. reflexivity.
  - reflexivity.
Qed.
Lemma dict_update_fresh {A} (e d : list (string * A)) :
  NoDup (map fst (d ++ e)) -> dict_update d e = d ++ e.
Proof.
  unfold dict_update. revert d. induction e as [|[k v] r IH]; intros d ND; cbn [fold_left fst snd].
  - rewrite app_nil_r. reflexivity.
  - rewrite sset_fresh.
    + rewrite IH; rewrite <- app_assoc; [reflexivity|exact ND].
    + rewrite map_app in ND. cbn [map fst] in ND. apply NoDup_remove_2 in ND.
      intros H. apply ND. apply in_or_app. left; exact H.
Qed.

(** *** Names *)
Lemma no_slash_nil : no_slash EmptyString.
Proof. intros [|c a] b; discriminate. Qed.
Lemma no_slash_cons c s : no_slash (String c s) -> c <> slash /\ no_slash s.
Proof.
  intros H. split.
  - intros ->. apply (H EmptyString s). reflexivity.
  - intros a b E. apply (H (String c a) b). cbn [String.append]. rewrite E. reflexivity.
Qed.
Lemma split1_clean s : no_slash s -> split1 s = (s, []).
Proof.
  induction s as [|c s IH]; intros H; cbn [split1]; [reflexivity|].
  apply no_slash_cons in H. destruct H as [N H]. rewrite IH by exact H.
  destruct (Ascii.eqb_spec c slash); [contradiction|reflexivity].
Qed.
Lemma split1_app a s : no_slash a ->
  split1 (String.append a (String slash s)) = (a, split s).
Proof.
  induction a as [|c a IH]; intros H; cbn [String.append split1].
  - unfold split. destruct (split1 s) as [h r]. rewrite Ascii.eqb_refl. reflexivity.
  - apply no_slash_cons in H. destruct H as [N H]. rewrite IH by exact H.
    destruct (Ascii.eqb_spec c slash); [contradiction|reflexivity].
Qed.
Lemma split_join p : p <> [] -> Forall no_slash p -> split (join p) = p.
Proof.
  induction p as [|a r IH]; [congruence|]. intros _ H. inversion H; subst. cbn [join].
  destruct r as [|b r].
  - unfold split. rewrite split1_clean by assumption. reflexivity.
  - unfold split at 1. rewrite split1_app by assumption.
    rewrite IH by (try discriminate; assumption). reflexivity.
Qed.
Lemma split_append a s : no_slash a -> split (String.append a (String slash s)) = a :: split s.
Proof. intros H. unfold split at 1. rewrite split1_app by exact H. reflexivity. Qed.

(** *** Induction on nested dictionaries *)
Section PInd.
  Context {V : Type} (P : ptree V -> Prop).
  Hypothesis HL : forall v, P (PLeaf v).
  Hypothesis HD : forall kvs, Forall (fun kv => P (snd kv)) kvs -> P (PDict kvs).
  Fixpoint ptree_ind' (t : ptree V) : P t :=
    match t with
    | PLeaf v => HL v
    | PDict kvs => HD kvs ((fix go l : Forall (fun kv => P (snd kv)) l :=
        match l with
        | [] => Forall_nil _
        | kv :: r => Forall_cons kv (ptree_ind' (snd kv)) (go r)
        end) kvs)
    end.
End PInd.

Section Trees.
  Context {V : Type}.
  Implicit Types (t : ptree V) (p q : list string).

  (** [p] is a strict prefix of [q] *)
  Definition sprefix (p q : list string) : Prop := exists r, r <> [] /\ q = p ++ r.

  Lemma leaf_at_nil_dict kvs : leaf_at [] (PDict kvs : ptree V) = None.
  Proof. reflexivity. Qed.
  Lemma leaf_at_cons k r kvs : leaf_at (k :: r) (PDict kvs : ptree V) =
    match sget k kvs with Some c => leaf_at r c | None => None end.
  Proof. reflexivity. Qed.
  Lemma leaf_at_ext p q t v : leaf_at p t = Some v -> sprefix p q -> leaf_at q t = None.
  Proof.
    intros H [r [N ->]]. revert t H. induction p as [|k p IH]; intros t H.
    - destruct t; [|discriminate]. destruct r; [congruence|reflexivity].
    - destruct t as [|kvs]; [discriminate|]. cbn [app]. rewrite leaf_at_cons in *.
      destruct (sget k kvs); [apply IH; exact H|reflexivity].
  Qed.

  Lemma leaves_app p q t : leaves (p ++ q) t = map (fun lv => (p ++ fst lv, snd lv)) (leaves q t).
  Proof.
    revert q. induction t as [v|kvs IH] using ptree_ind'; intros q; cbn [leaves map fst snd].
    - reflexivity.
    - induction IH as [|kv r H _ IHr]; cbn [flat_map map]; [reflexivity|].
      rewrite map_app, IHr, <- app_assoc, H. reflexivity.
  Qed.
  Lemma leaves_prefix p t : leaves p t = map (fun lv => (p ++ fst lv, snd lv)) (leaves [] t).
  Proof. rewrite <- leaves_app, app_nil_r. reflexivity. Qed.

  Lemma leaves_in t : well_named t -> forall p v, In (p, v) (leaves [] t) <-> leaf_at p t = Some v.
  Proof.
    induction t as [w|kvs IH] using ptree_ind'; intros W p v; cbn [leaves].
    - cbn [In]. destruct p; cbn [leaf_at]; [|intuition congruence].
      split; [intros [E|[]]; congruence|intros E; left; congruence].
    - inversion W as [|? ND NS WS]; subst. rewrite in_flat_map. split.
      + intros [[k c] [Hin Hl]]. cbn [fst snd app] in Hl. rewrite leaves_prefix in Hl.
        apply in_map_iff in Hl. destruct Hl as [[q v'] [E Hl]]. cbn [fst snd app] in E.
        injection E; intros -> <-. rewrite leaf_at_cons, (in_sget _ _ _ ND Hin).
        rewrite Forall_forall in IH, WS. apply (IH _ Hin (WS _ Hin)). exact Hl.
      + destruct p as [|k p]; [discriminate|]. rewrite leaf_at_cons.
        destruct (sget k kvs) as [c|] eqn:E; [|discriminate]. intros H. apply sget_in in E.
        exists (k, c). split; [exact E|]. cbn [fst snd app]. rewrite leaves_prefix. apply in_map_iff.
        exists (p, v). split; [reflexivity|]. rewrite Forall_forall in IH, WS. apply (IH _ E (WS _ E)). exact H.
  Qed.
  Lemma nodup_app {A} (a b : list A) : NoDup a -> NoDup b -> (forall x, In x a -> In x b -> False) -> NoDup (a ++ b).
  Proof.
    induction a as [|x a IH]; cbn [app]; intros Ha Hb D; [exact Hb|]. inversion Ha; subst.
    constructor.
    - rewrite in_app_iff. intros [E|E]; [contradiction|]. apply (D x); [left; reflexivity|exact E].
    - apply IH; auto. intros y Hy. apply D. right; exact Hy.
  Qed.
  Lemma leaves_nodup t : well_named t -> NoDup (map fst (leaves [] t)).
  Proof.
    induction t as [w|kvs IH] using ptree_ind'; intros W; cbn [leaves].
    - cbn. constructor; [intros []|constructor].
    - inversion W as [|? ND NS WS]; subst. clear W NS.
      induction kvs as [|[k c] r IHr]; cbn [flat_map map]; [constructor|].
      inversion ND; inversion IH; inversion WS; subst. rewrite map_app. apply nodup_app.
      + cbn [fst snd app]. rewrite leaves_prefix. rewrite map_map. cbn [fst].
        rewrite <- (map_map fst (fun p => [k] ++ p)). apply Injective_map_NoDup.
        * intros a b E. injection E; auto.
        * auto.
      + apply IHr; auto.
      + intros x Ha Hb. cbn [fst snd app] in Ha. rewrite leaves_prefix in Ha. rewrite map_map in Ha.
        apply in_map_iff in Ha. destruct Ha as [[p v] [E _]]. cbn [fst app] in E. subst x.
        apply in_map_iff in Hb. destruct Hb as [[p' v'] [E Hb]]. cbn [fst] in E. subst p'.
        apply in_flat_map in Hb. destruct Hb as [[k2 c2] [Hin Hl]]. cbn [fst snd app] in Hl.
        rewrite leaves_prefix in Hl. apply in_map_iff in Hl. destruct Hl as [[p2 v2] [E _]].
        cbn [fst snd app] in E. injection E; intros; subst. apply H1. apply (in_map fst) in Hin. exact Hin.
  Qed.
  Lemma leaf_at_names t : well_named t -> forall p v, leaf_at p t = Some v -> Forall no_slash p.
  Proof.
    induction t as [w|kvs IH] using ptree_ind'; intros W p v H.
    - destruct p; [constructor|discriminate].
    - destruct p as [|k p]; [discriminate|]. rewrite leaf_at_cons in H.
      destruct (sget k kvs) as [c|] eqn:E; [|discriminate]. apply sget_in in E.
      inversion W as [|? ND NS WS]; subst. rewrite Forall_forall in *. intros x [<-|Hx].
      + apply NS. apply (in_map fst) in E. exact E.
      + specialize (IH _ E (WS _ E) _ _ H). rewrite Forall_forall in IH. apply IH. exact Hx.
  Qed.

  (** flatten_dict of a well named dictionary *)
  Lemma join_inj_on p q : p <> [] -> q <> [] -> Forall no_slash p -> Forall no_slash q -> join p = join q -> p = q.
  Proof. intros. rewrite <- (split_join p), <- (split_join q) by assumption. congruence. Qed.
  Lemma nodup_map_on {A B} (f : A -> B) l :
    (forall x y, In x l -> In y l -> f x = f y -> x = y) -> NoDup l -> NoDup (map f l).
  Proof.
    induction l as [|a l IH]; cbn [map]; intros I ND; [constructor|]. inversion ND; subst. constructor.
    - intros H. apply in_map_iff in H. destruct H as [y [E Hy]].
      assert (a = y) by (apply I; [left; reflexivity|right; exact Hy|symmetry; exact E]). subst. contradiction.
    - apply IH; [|assumption]. intros x y Hx Hy. apply I; right; assumption.
  Qed.
  Lemma flatten_clean (kvs : list (string * ptree V)) : well_named (PDict kvs) ->
    flatten_dict kvs = map (fun pv => (join (fst pv), snd pv)) (leaves [] (PDict kvs)).
  Proof.
    intros W. unfold flatten_dict. rewrite dict_update_fresh; [reflexivity|]. cbn [app].
    rewrite map_map. cbn [fst]. rewrite <- (map_map fst join). apply nodup_map_on.
    - intros p q Hp Hq. apply in_map_iff in Hp, Hq.
      destruct Hp as [[p' v] [<- Hp]], Hq as [[q' w] [<- Hq]]. cbn [fst].
      apply leaves_in in Hp, Hq; try exact W.
      apply join_inj_on.
      + intros ->. discriminate.
      + intros ->. discriminate.
      + apply (leaf_at_names _ W _ _ Hp).
      + apply (leaf_at_names _ W _ _ Hq).
    - apply leaves_nodup. exact W.
  Qed.

  (** assignments *)
  Lemma pinsert_spec p v : forall t, (forall q, sprefix q p -> leaf_at q t = None) ->
    exists t', pinsert p v t = Some t' /\
      (forall q, leaf_at q t' = (if list_eq_dec string_dec q p then Some v else leaf_at q t) \/ sprefix p q).
  Proof.
    induction p as [|k r IH]; intros t H.
    - exists (PLeaf v). split; [reflexivity|]. intros q. destruct q.
      + left. reflexivity.
      + right. exists (s :: q). split; [discriminate|reflexivity].
    - destruct t as [w|kvs].
      + specialize (H []). cbn in H. assert (sprefix [] (k :: r)) by (exists (k :: r); split; [discriminate|reflexivity]).
        specialize (H H0). discriminate.
      + cbn [pinsert]. set (c := match sget k kvs with Some c => c | None => PDict [] end).
        destruct (IH c) as [c' [E Hc]].
        { intros q [s [N ->]]. unfold c. destruct (sget k kvs) as [c0|] eqn:Ek.
          - specialize (H (k :: q)). rewrite leaf_at_cons, Ek in H. apply H. exists s. split; [exact N|reflexivity].
          - destruct q; reflexivity. }
        rewrite E. eexists. split; [reflexivity|]. intros q. destruct q as [|k' q]; [left; reflexivity|].
        rewrite leaf_at_cons, sget_sset. destruct (String.eqb_spec k' k) as [->|N].
        * destruct (Hc q) as [Hq|Hq].
          -- left. rewrite Hq. destruct (list_eq_dec string_dec q r) as [->|Nq].
             ++ destruct (list_eq_dec string_dec (k :: r) (k :: r)); [reflexivity|congruence].
             ++ destruct (list_eq_dec string_dec (k :: q) (k :: r)); [congruence|].
                rewrite leaf_at_cons. unfold c. destruct (sget k kvs) as [c0|] eqn:Ek; [reflexivity|].
                destruct q; reflexivity.
          -- right. destruct Hq as [s [Ns ->]]. exists s. split; [exact Ns|reflexivity].
        * left. destruct (list_eq_dec string_dec (k' :: q) (k :: r)); [congruence|]. reflexivity.
  Qed.

  Lemma pinsert_keys k r v kvs t' : pinsert (k :: r) v (PDict kvs : ptree V) = Some t' ->
    exists kvs', t' = PDict kvs' /\ (forall x, In x (map fst kvs') <-> x = k \/ In x (map fst kvs)).
  Proof.
    cbn [pinsert]. destruct (pinsert r v _); [|discriminate]. intros E. injection E; intros <-.
    eexists. split; [reflexivity|]. intros x. apply sset_keys.
  Qed.
  Lemma pinsert_wn p v : Forall no_slash p -> forall t t', well_named t -> pinsert p v t = Some t' -> well_named t'.
  Proof.
    intros Np. induction Np as [|k r Hk _ IH]; intros t t' W H; cbn [pinsert] in H.
    - injection H; intros <-. constructor.
    - destruct t as [|kvs]; [discriminate|].
      destruct (pinsert r v _) as [c|] eqn:E; [|discriminate]. injection H; intros <-.
      inversion W as [|? ND NS WS]; subst.
      assert (Wc : well_named c).
      { eapply IH; [|exact E]. destruct (sget k kvs) as [c0|] eqn:Ek.
        - rewrite Forall_forall in WS. apply (WS (k, c0)). apply sget_in. exact Ek.
        - constructor; constructor. }
      constructor.
      + apply sset_nodup. exact ND.
      + rewrite Forall_forall in *. intros x Hx. apply sset_keys in Hx. destruct Hx as [->|Hx]; auto.
      + rewrite Forall_forall in *. intros [x cx] Hx. apply sset_in in Hx. cbn [snd].
        destruct Hx as [->|Hx]; [exact Wc|]. apply (WS _ Hx).
  Qed.

  Definition good_paths (l : list (list string * V)) : Prop :=
    NoDup (map fst l) /\
    (forall p, In p (map fst l) -> p <> [] /\ Forall no_slash p) /\
    (forall p q, In p (map fst l) -> In q (map fst l) -> ~ sprefix p q).

  Lemma unflatten_good l : good_paths l ->
    exists kvs, unflatten_dict (map (fun pv => (join (fst pv), snd pv)) l) = Some (PDict kvs) /\
      well_named (PDict kvs) /\
      (forall p v, leaf_at p (PDict kvs) = Some v <-> In (p, v) l) /\
      (forall k, In k (map fst kvs) -> exists p v, In (k :: p, v) l).
  Proof.
    induction l as [|[p v] l IH] using rev_ind; intros [ND [NE INC]].
    - exists []. split; [reflexivity|]. split; [constructor; constructor|]. split.
      + intros p v. split; [|intros []]. destruct p; discriminate.
      + intros k [].
    - rewrite map_app in ND, NE, INC. cbn [map fst] in ND, NE, INC.
      assert (G : good_paths l).
      { split; [|split].
        - apply NoDup_remove_1 in ND. rewrite app_nil_r in ND. exact ND.
        - intros q Hq. apply NE. apply in_or_app. left; exact Hq.
        - intros a b Ha Hb. apply INC; apply in_or_app; left; assumption. }
      destruct (IH G) as [kvs [E [W [HL HK]]]]. clear IH.
      assert (Hp : p <> [] /\ Forall no_slash p) by (apply NE; apply in_or_app; right; left; reflexivity).
      destruct Hp as [Np Sp].
      assert (Pf : forall q, sprefix q p -> leaf_at q (PDict kvs) = None).
      { intros q Hq. destruct (leaf_at q (PDict kvs)) as [w|] eqn:Eq; [|reflexivity]. exfalso.
        apply HL in Eq. apply (in_map fst) in Eq. cbn [fst] in Eq. apply (INC q p); [..|exact Hq].
        - apply in_or_app; left; exact Eq.
        - apply in_or_app; right; left; reflexivity. }
      destruct (pinsert_spec p v _ Pf) as [t' [Et Hl]].
      destruct p as [|k r]; [congruence|].
      destruct (pinsert_keys _ _ _ _ _ Et) as [kvs' [-> Hk']].
      exists kvs'. split; [|split; [|split]].
      + unfold unflatten_dict in *. rewrite map_app, fold_left_app, E. cbn [map fold_left fst snd].
        rewrite split_join by assumption. exact Et.
      + apply (pinsert_wn (k :: r) v Sp _ _ W Et).
      + intros q w. rewrite in_app_iff. cbn [In]. rewrite <- HL.
        assert (NI : ~ In (k :: r) (map fst l)).
        { apply NoDup_remove_2 in ND. rewrite app_nil_r in ND. exact ND. }
        destruct (Hl q) as [Hq|Hq].
        * rewrite Hq. destruct (list_eq_dec string_dec q (k :: r)) as [->|Nq].
          -- split.
             ++ intros Ew. injection Ew; intros ->. right; left; reflexivity.
             ++ intros [Ew|[Ew|[]]]; [|injection Ew; intros ->; reflexivity].
                exfalso. apply NI. apply HL in Ew. apply (in_map fst) in Ew. exact Ew.
          -- split; [auto|]. intros [Ew|[Ew|[]]]; [exact Ew|congruence].
        * split.
          -- intros Ew. exfalso. assert (leaf_at q (PDict kvs') = None); [|congruence].
             eapply leaf_at_ext; [|exact Hq].
             destruct (Hl (k :: r)) as [Hkr|Hkr].
             ++ rewrite Hkr. destruct (list_eq_dec string_dec (k :: r) (k :: r)); [reflexivity|congruence].
             ++ destruct Hkr as [s [Ns Es]]. exfalso. apply Ns.
                rewrite <- (app_nil_r (k :: r)) in Es at 1. apply app_inv_head in Es. congruence.
          -- intros [Ew|[Ew|[]]].
             ++ exfalso. apply HL in Ew. apply (in_map fst) in Ew. cbn [fst] in Ew.
                apply (INC (k :: r) q); [..|exact Hq].
                ** apply in_or_app; right; left; reflexivity.
                ** apply in_or_app; left; exact Ew.
             ++ exfalso. injection Ew; intros _ <-. destruct Hq as [s [Ns Es]]. apply Ns.
                rewrite <- (app_nil_r (k :: r)) in Es at 1. apply app_inv_head in Es. congruence.
      + intros x Hx. apply Hk' in Hx. destruct Hx as [->|Hx].
        * exists r, v. apply in_or_app. right; left; reflexivity.
        * destruct (HK _ Hx) as [p' [v' Hp']]. exists p', v'. apply in_or_app. left; exact Hp'.
  Qed.

  Lemma good_leaves kvs (keep : list string * V -> bool) : well_named (PDict kvs) ->
    good_paths (filter keep (leaves [] (PDict kvs))).
  Proof.
    intros W.
    assert (Hin : forall p, In p (map fst (filter keep (leaves [] (PDict kvs)))) ->
                            exists v, leaf_at p (PDict kvs) = Some v).
    { intros p Hp. apply in_map_iff in Hp. destruct Hp as [[q v] [<- Hp]]. apply filter_In in Hp.
      exists v. apply leaves_in; [exact W|apply Hp]. }
    split; [|split].
    - pose proof (leaves_nodup _ W) as ND. revert ND. generalize (leaves [] (PDict kvs)) as l.
      induction l as [|a l IH]; cbn [filter map]; intros ND; [constructor|]. inversion ND; subst.
      destruct (keep a); cbn [map]; [|auto]. constructor; [|auto].
      intros H. apply H1. apply in_map_iff in H. destruct H as [b [<- Hb]]. apply filter_In in Hb.
      apply in_map. apply Hb.
    - intros p Hp. destruct (Hin p Hp) as [v Hv]. split; [intros ->; discriminate|].
      apply (leaf_at_names _ W _ _ Hv).
    - intros p q Hp Hq S. destruct (Hin p Hp) as [v Hv], (Hin q Hq) as [w Hw].
      rewrite (leaf_at_ext _ _ _ _ Hv S) in Hw. discriminate.
  Qed.

  Lemma filter_map_comm {A B} (f : A -> B) (g : B -> bool) l :
    filter g (map f l) = map f (filter (fun x => g (f x)) l).
  Proof. induction l as [|a l IH]; cbn [map filter]; [reflexivity|]. destruct (g (f a)); cbn [map]; congruence. Qed.

  (** What partition_params returns. *)
  Lemma fpartition_spec predicate (kvs : list (string * ptree V)) : well_named (PDict kvs) ->
    exists ts ns, fpartition predicate kvs = Some (PDict ts, PDict ns) /\
      well_named (PDict ts) /\ well_named (PDict ns) /\
      (forall p v, leaf_at p (PDict ts) = Some v <-> leaf_at p (PDict kvs) = Some v /\ chosen predicate p v = true) /\
      (forall p v, leaf_at p (PDict ns) = Some v <-> leaf_at p (PDict kvs) = Some v /\ chosen predicate p v = false) /\
      (forall k, In k (map fst ts) -> exists p v, leaf_at (k :: p) (PDict ts) = Some v) /\
      (forall k, In k (map fst ns) -> exists p v, leaf_at (k :: p) (PDict ns) = Some v).
  Proof.
    intros W. unfold fpartition. rewrite (flatten_clean _ W). cbv zeta. rewrite !filter_map_comm. cbn [fst snd].
    set (L := leaves [] (PDict kvs)).
    set (kp := fun pv : list string * V => chosen predicate (fst pv) (snd pv)).
    assert (Fe : forall g, (forall p v, In (p, v) L -> g (p, v) = kp (p, v)) -> filter g L = filter kp L).
    { intros g. generalize L as l. induction l as [|[p v] l IH]; cbn [filter]; intros H; [reflexivity|].
      rewrite (H p v) by (left; reflexivity). rewrite IH; [reflexivity|]. intros; apply H; right; assumption. }
    assert (Sj : forall p v, In (p, v) L -> split (join p) = p).
    { intros p v Hp. apply leaves_in in Hp; [|exact W]. apply split_join.
      - intros ->. discriminate.
      - apply (leaf_at_names _ W _ _ Hp). }
    rewrite (Fe _) by (intros p v Hp; cbn [fst snd]; rewrite (Sj _ _ Hp); reflexivity).
    assert (Fn : filter (fun x => negb (predicate (hd ""%string (split (join (fst x))))
                                          (last (split (join (fst x))) ""%string) (snd x))) L
                 = filter (fun x => negb (kp x)) L).
    { apply filter_ext_in. intros [p v] Hp. cbn [fst snd]. rewrite (Sj _ _ Hp). reflexivity. }
    rewrite Fn.
    destruct (unflatten_good _ (good_leaves kvs kp W)) as [ts [Et [Wt [Lt Kt]]]].
    destruct (unflatten_good _ (good_leaves kvs (fun x => negb (kp x)) W)) as [ns [En [Wn [Ln Kn]]]].
    fold L in Et, Lt, Kt, En, Ln, Kn. rewrite Et, En.
    exists ts, ns. split; [reflexivity|]. split; [exact Wt|]. split; [exact Wn|].
    split; [|split; [|split]].
    - intros p v. rewrite Lt, filter_In. unfold L. rewrite (leaves_in _ W). reflexivity.
    - intros p v. rewrite Ln, filter_In. unfold L. rewrite (leaves_in _ W). unfold kp. cbn [fst snd].
      rewrite negb_true_iff. reflexivity.
    - intros k Hk. destruct (Kt k Hk) as [p [v Hp]]. exists p, v. apply Lt. exact Hp.
    - intros k Hk. destruct (Kn k Hk) as [p [v Hp]]. exists p, v. apply Ln. exact Hp.
  Qed.
End Trees.

Section Merge.
  Context {V : Type}.
  Implicit Types (t : ptree V) (p q : list string).

  Lemma leaf_at_merge (a b : list (string * ptree V)) k p : NoDup (map fst a) -> NoDup (map fst b) ->
    leaf_at (k :: p) (shallow_merge (PDict a) (PDict b)) =
      match sget k a with Some c => leaf_at p c | None => leaf_at (k :: p) (PDict b) end.
  Proof.
    intros Na Nb. cbn [shallow_merge]. rewrite !leaf_at_cons, !sget_dict_update by assumption.
    destruct (sget k a); [reflexivity|]. cbn [sget]. destruct (sget k b); reflexivity.
  Qed.
  Lemma merge_wn (a b : list (string * ptree V)) : well_named (PDict a) -> well_named (PDict b) ->
    well_named (shallow_merge (PDict a) (PDict b)).
  Proof.
    intros Wa Wb. inversion Wa as [|? Na Sa WSa]; inversion Wb as [|? Nb Sb WSb]; subst. cbn [shallow_merge].
    constructor.
    - apply dict_update_nodup, dict_update_nodup. constructor.
    - rewrite Forall_forall in *. intros x Hx. apply dict_update_keys in Hx. destruct Hx as [Hx|Hx]; [|auto].
      apply dict_update_keys in Hx. destruct Hx as [[]|Hx]. auto.
    - rewrite Forall_forall in *. intros [k c] Hx. cbn [snd]. apply dict_update_in in Hx.
      destruct Hx as [[k' Hx]|[k' Hx]]; [|apply (WSa _ Hx)].
      apply dict_update_in in Hx. destruct Hx as [[k2 []]|[k2 Hx]]. apply (WSb _ Hx).
  Qed.
  Lemma merge_params_shallow (a b : list (string * ptree V)) k p : NoDup (map fst a) -> NoDup (map fst b) ->
    leaf_at (k :: p) (merge_params (PDict a) (PDict b)) = leaf_at (k :: p) (shallow_merge (PDict a) (PDict b)).
  Proof.
    intros Na Nb. rewrite leaf_at_merge by assumption. unfold merge_params, is_empty.
    destruct a as [|x a], b as [|y b]; cbn [andb].
    - reflexivity.
    - reflexivity.
    - rewrite leaf_at_cons. destruct (sget k (x :: a)); reflexivity.
    - rewrite leaf_at_merge by assumption. reflexivity.
  Qed.

  (** partition, then merge *)
  Lemma merge_partition predicate (kvs ts ns : list (string * ptree V)) :
    well_named (PDict kvs) -> fpartition predicate kvs = Some (PDict ts, PDict ns) ->
    forall p v, leaf_at p (shallow_merge (PDict ts) (PDict ns)) = Some v <->
      leaf_at p (PDict kvs) = Some v /\
      (chosen predicate p v = true \/ ~ trains predicate (PDict kvs) (hd ""%string p)).
  Proof.
    intros W E. destruct (fpartition_spec predicate kvs W) as [ts' [ns' [E' [Wt [Wn [Lt [Ln [Kt Kn]]]]]]]].
    rewrite E in E'. injection E'; intros <- <-. clear E'.
    inversion Wt as [|? Nt _ _]; inversion Wn as [|? Nn _ _]; subst.
    intros p v. destruct p as [|k p].
    { cbn [shallow_merge leaf_at]. split; [discriminate|intros [? _]; discriminate]. }
    rewrite leaf_at_merge by assumption. cbn [hd].
    destruct (sget k ts) as [c|] eqn:Ek.
    - assert (Tr : trains predicate (PDict kvs) k).
      { destruct (Kt k) as [q [w Hq]].
        { apply sget_in in Ek. apply (in_map fst) in Ek. exact Ek. }
        exists q, w. apply Lt. exact Hq. }
      assert (Ec : leaf_at p c = leaf_at (k :: p) (PDict ts)) by (rewrite leaf_at_cons, Ek; reflexivity).
      rewrite Ec, Lt. intuition.
    - rewrite Ln. split.
      + intros [H C]. split; [exact H|]. right. intros [q [w [Hq Cq]]].
        assert (X : leaf_at (k :: q) (PDict ts) = Some w) by (apply Lt; auto).
        rewrite leaf_at_cons, Ek in X. discriminate.
      + intros [H [C|C]].
        * exfalso. assert (X : leaf_at (k :: p) (PDict ts) = Some v) by (apply Lt; auto).
          rewrite leaf_at_cons, Ek in X. discriminate.
        * split; [exact H|]. destruct (chosen predicate (k :: p) v) eqn:D; [|reflexivity].
          exfalso. apply C. exists p, v. auto.
  Qed.

  Lemma option_ext {A} (a b : option A) : (forall v, a = Some v <-> b = Some v) -> a = b.
  Proof.
    intros H. destruct a as [x|].
    - symmetry. apply H. reflexivity.
    - destruct b as [y|]; [|reflexivity]. apply H. reflexivity.
  Qed.

  (** *** C77 *)
  Lemma partition_leaves predicate (kvs : list (string * ptree V)) : well_named (PDict kvs) ->
    exists trainable non_trainable,
      partition_params predicate (PDict kvs) = Some (trainable, non_trainable) /\
      (forall p, leaf_at p trainable =
         match leaf_at p (PDict kvs) with
         | Some v => if chosen predicate p v then Some v else None | None => None end) /\
      (forall p, leaf_at p non_trainable =
         match leaf_at p (PDict kvs) with
         | Some v => if chosen predicate p v then None else Some v | None => None end).
  Proof.
    intros W. destruct (fpartition_spec predicate kvs W) as [ts [ns [E [Wt [Wn [Lt [Ln _]]]]]]].
    exists (PDict ts), (PDict ns). split; [exact E|]. split.
    - intros p. apply option_ext. intros v. rewrite Lt. destruct (leaf_at p (PDict kvs)) as [w|].
      + destruct (chosen predicate p w) eqn:C; split.
        * intros [X _]; exact X.
        * intros X; injection X; intros <-; auto.
        * intros [X D]. injection X; intros ->. congruence.
        * discriminate.
      + split; [intros [X _]; exact X|discriminate].
    - intros p. apply option_ext. intros v. rewrite Ln. destruct (leaf_at p (PDict kvs)) as [w|].
      + destruct (chosen predicate p w) eqn:C; split.
        * intros [X D]. injection X; intros ->. congruence.
        * discriminate.
        * intros [X _]; exact X.
        * intros X; injection X; intros <-; auto.
      + split; [intros [X _]; exact X|discriminate].
  Qed.
  Lemma fpartition_inv predicate (kvs : list (string * ptree V)) t n : well_named (PDict kvs) ->
    fpartition predicate kvs = Some (t, n) -> exists ts ns, t = PDict ts /\ n = PDict ns.
  Proof.
    intros W E. destruct (fpartition_spec predicate kvs W) as [ts [ns [E' _]]].
    rewrite E in E'. injection E'; intros -> ->. eauto.
  Qed.
  Lemma fpartition_nodup predicate (kvs ts ns : list (string * ptree V)) : well_named (PDict kvs) ->
    fpartition predicate kvs = Some (PDict ts, PDict ns) ->
    well_named (PDict ts) /\ well_named (PDict ns) /\ NoDup (map fst ts) /\ NoDup (map fst ns).
  Proof.
    intros W E. destruct (fpartition_spec predicate kvs W) as [ts' [ns' [E' [Wt [Wn _]]]]].
    rewrite E in E'. injection E'; intros -> ->. inversion Wt; inversion Wn; auto.
  Qed.
  Lemma merge_leaves predicate (kvs : list (string * ptree V)) t n : well_named (PDict kvs) ->
    partition_params predicate (PDict kvs) = Some (t, n) ->
    forall p v, leaf_at p (merge_params t n) = Some v <->
      leaf_at p (PDict kvs) = Some v /\
      (chosen predicate p v = true \/ ~ trains predicate (PDict kvs) (hd ""%string p)).
  Proof.
    intros W E. cbn [partition_params] in E. destruct (fpartition_inv _ _ _ _ W E) as [ts [ns [-> ->]]].
    destruct (fpartition_nodup _ _ _ _ W E) as [_ [_ [Nt Nn]]].
    intros p v. rewrite <- (merge_partition _ _ _ _ W E). destruct p as [|k p].
    - unfold merge_params, is_empty. cbn [shallow_merge leaf_at].
      destruct ts, ns; cbn [andb leaf_at shallow_merge]; reflexivity.
    - rewrite merge_params_shallow by assumption. reflexivity.
  Qed.
  Lemma merge_roundtrip predicate (kvs : list (string * ptree V)) t n : well_named (PDict kvs) ->
    (forall k p q v w, leaf_at (k :: p) (PDict kvs) = Some v -> leaf_at (k :: q) (PDict kvs) = Some w ->
       chosen predicate (k :: p) v = chosen predicate (k :: q) w) ->
    partition_params predicate (PDict kvs) = Some (t, n) ->
    same_params (merge_params t n) (PDict kvs).
  Proof.
    intros W H E p. apply option_ext. intros v. rewrite (merge_leaves _ _ _ _ W E).
    split; [intros [X _]; exact X|]. intros X. split; [exact X|].
    destruct p as [|k p]; [discriminate|]. destruct (chosen predicate (k :: p) v) eqn:C; [auto|].
    right. cbn [hd]. intros [q [w [Hq Cq]]]. rewrite (H k p q v w X Hq) in C. congruence.
  Qed.
  Lemma merge_lost predicate (kvs : list (string * ptree V)) t n k p v : well_named (PDict kvs) ->
    partition_params predicate (PDict kvs) = Some (t, n) ->
    leaf_at (k :: p) (PDict kvs) = Some v -> chosen predicate (k :: p) v = false ->
    trains predicate (PDict kvs) k ->
    leaf_at (k :: p) (merge_params t n) = None.
  Proof.
    intros W E Hv C T. destruct (leaf_at (k :: p) (merge_params t n)) as [w|] eqn:X; [|reflexivity].
    apply (merge_leaves _ _ _ _ W E) in X. destruct X as [X D]. rewrite Hv in X. injection X; intros <-.
    cbn [hd] in D. destruct D; [congruence|contradiction].
  Qed.
  Lemma slash_split a b w (v : V) : no_slash a -> no_slash b -> no_slash w ->
    partition_params (fun _ _ _ => true) (PDict [(join [a; b], PDict [(w, PLeaf v)])]) =
      Some (PDict [(a, PDict [(b, PDict [(w, PLeaf v)])])], PDict []).
  Proof.
    intros Ha Hb Hw. unfold partition_params, fpartition, flatten_dict.
    cbn [leaves flat_map app map fst snd dict_update fold_left sset filter negb].
    assert (Hj : join [join [a; b]; w] = join [a; b; w]).
    { cbn [join]. clear. induction a; cbn [String.append]; [reflexivity|congruence]. }
    unfold unflatten_dict. cbn [fold_left fst snd]. rewrite Hj, split_join.
    - cbn [pinsert sget sset]. reflexivity.
    - discriminate.
    - repeat constructor; assumption.
  Qed.
End Merge.

(** A bare array *)
Lemma partition_bare : forall (V : Type) (predicate : string -> string -> V -> bool) (v : V),
  (predicate ""%string ""%string v = true -> partition_params predicate (PLeaf v) = Some (PLeaf v, PDict [])) /\
  (predicate ""%string ""%string v = false -> partition_params predicate (PLeaf v) = Some (PDict [], PLeaf v)).
Proof. intros. unfold partition_params. split; intros ->; reflexivity. Qed.
