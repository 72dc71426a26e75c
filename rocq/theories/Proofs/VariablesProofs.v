(** Proofs for C137. *)
From Coq Require Import String List Bool Arith Lia.
From Verif Require Import Model.Unroll Model.FlaxOptim Model.Variables Spec.MiscSpec Proofs.ListFacts Proofs.UnrollProofs Proofs.FlaxOptimProofs.
Import ListNotations.
Local Open Scope list_scope.

Section V.
  Context {C : Type}.
  Implicit Types (v s : variables C) (p : C).

  Lemma update_fresh s : forall d, NoDup (map fst s) -> (forall k, In k (map fst s) -> ~ In k (map fst d)) ->
    dict_update d s = d ++ s.
  Proof.
    induction s as [|[k c] s IH]; intros d ND H; [rewrite app_nil_r; reflexivity|].
    cbn [map fst] in *. inversion ND as [|? ? N1 N2]; subst.
    unfold dict_update. cbn [fold_left fst snd]. fold (dict_update (sset k c d) s).
    rewrite sset_fresh by (apply H; left; reflexivity). rewrite IH.
    - rewrite <- app_assoc. reflexivity.
    - exact N2.
    - intros k' Hk' Hin. rewrite map_app in Hin. apply in_app_or in Hin as [Hin|[Hin|[]]].
      + apply (H k'); [right; exact Hk'|exact Hin].
      + cbn in Hin. subst k'. contradiction.
  Qed.

  Lemma filter_keep s : ~ In "params"%string (map fst s) -> filter (fun kv => negb (String.eqb (fst kv) "params")) s = s.
  Proof.
    induction s as [|[k c] s IH]; cbn [filter map fst In]; intros H; [reflexivity|].
    destruct (String.eqb_spec k "params") as [E|E]; [exfalso; apply H; left; exact E|]. cbn [negb]. rewrite IH; [reflexivity|tauto].
  Qed.
  Lemma filter_get v k : sget k (filter (fun kv => negb (String.eqb (fst kv) "params")) v) =
    if String.eqb k "params" then None else sget k v.
  Proof.
    induction v as [|[k' c] v IH]; cbn [filter sget fst].
    - destruct (String.eqb k "params"); reflexivity.
    - destruct (String.eqb_spec k' "params") as [E|E]; cbn [negb].
      + rewrite IH. subst k'. destruct (String.eqb k "params"); reflexivity.
      + cbn [sget]. rewrite IH. destruct (String.eqb_spec k k') as [->|N]; [|reflexivity].
        destruct (String.eqb_spec k' "params"); [contradiction|reflexivity].
  Qed.
  Lemma filter_nodup v : NoDup (map fst v) -> NoDup (map fst (filter (fun kv => negb (String.eqb (fst kv) "params")) v)).
  Proof.
    induction v as [|[k c] v IH]; cbn [filter map fst]; intros H; [constructor|]. inversion H; subst.
    destruct (negb (String.eqb k "params")); [|auto]. cbn [map fst]. constructor; [|auto].
    intros Hin. apply in_map_iff in Hin as ([k' c'] & E & Hin). apply filter_In in Hin as [Hin _]. cbn in E. subst k'.
    apply H2. apply in_map_iff. exists (k, c'). auto.
  Qed.

  Lemma combine_get p s k : NoDup (map fst s) -> sget k (combine_variables p s) =
    match sget k s with Some c => Some c | None => if String.eqb k "params" then Some p else None end.
  Proof. intros H. unfold combine_variables. rewrite sget_dict_update by exact H. cbn [sget]. reflexivity. Qed.

  Lemma split_combine empty p s : NoDup (map fst s) -> ~ In "params"%string (map fst s) ->
    split_variables empty (combine_variables p s) = (p, s).
  Proof.
    intros ND H. unfold split_variables. rewrite combine_get by exact ND.
    assert (E : sget "params" s = None) by (apply sget_none; exact H). rewrite E. rewrite String.eqb_refl. f_equal.
    unfold combine_variables. rewrite update_fresh; [|exact ND|].
    - cbn [app filter fst]. rewrite (String.eqb_refl "params"). cbn [negb]. apply filter_keep. exact H.
    - intros k Hk [<-|[]]. contradiction.
  Qed.
  Lemma combine_split empty v k : NoDup (map fst v) ->
    let '(p, s) := split_variables empty v in
    sget k (combine_variables p s) =
    if String.eqb k "params" then Some (match sget "params" v with Some p => p | None => empty end) else sget k v.
  Proof.
    intros ND. unfold split_variables. rewrite combine_get by (apply filter_nodup; exact ND). rewrite filter_get.
    destruct (String.eqb_spec k "params") as [->|N]; [reflexivity|]. destruct (sget k v); reflexivity.
  Qed.
  Lemma combine_shadow p s c : NoDup (map fst s) -> sget "params" s = Some c ->
    sget "params" (combine_variables p s) = Some c.
  Proof. intros ND H. rewrite combine_get, H by exact ND. reflexivity. Qed.

  Context {K X Y : Type}.
  Variables (mi : option K -> X -> variables C) (ma : variables C -> option K -> X -> Y * variables C) (empty : C).
  Local Notation tf := (dict_transform mi ma empty).

  Lemma tf_init_eq k x : t_init tf k x = split_variables empty (mi k x).
  Proof. reflexivity. Qed.

  Lemma clean_filter v : NoDup (map fst v) -> clean (filter (fun kv => negb (String.eqb (fst kv) "params")) v).
  Proof.
    intros H. split; [apply filter_nodup; exact H|]. intros Hin. apply in_map_iff in Hin as ([k c] & E & Hin).
    apply filter_In in Hin as [_ Hin]. cbn in E. subst k. cbn [fst] in Hin. rewrite String.eqb_refl in Hin. discriminate.
  Qed.

  Lemma one_call p s k x y s' : (forall v k x, NoDup (map fst v) -> NoDup (map fst (snd (ma v k x)))) ->
    clean s -> t_apply tf p s k x = (y, s') ->
    clean s' /\ exists v, NoDup (map fst v) /\
      (forall key, sget key v = if String.eqb key "params" then Some p else sget key s) /\
      y = fst (ma v k x) /\
      (forall key, sget key s' = if String.eqb key "params" then None else sget key (snd (ma v k x))).
  Proof.
    intros HM [ND H] E. cbn [t_apply dict_transform] in E. unfold tf_apply in E.
    change (dict_update [("params"%string, p)] s) with (combine_variables p s) in E.
    assert (NV : NoDup (map fst (combine_variables p s))).
    { unfold combine_variables. apply dict_update_nodup. constructor; [intros []|constructor]. }
    specialize (HM (combine_variables p s) k x NV).
    destruct (ma (combine_variables p s) k x) as [o nv] eqn:Em. injection E as <- <-. cbn [snd] in HM.
    split; [apply clean_filter; exact HM|]. exists (combine_variables p s). split; [exact NV|]. split; [|split].
    - intros key. rewrite combine_get by exact ND. destruct (String.eqb_spec key "params") as [->|N].
      + rewrite (proj2 (sget_none _ _) H). reflexivity.
      + destruct (sget key s); reflexivity.
    - rewrite Em. reflexivity.
    - intros key. rewrite Em. cbn [snd]. apply filter_get.
  Qed.

  Lemma history p s xs ys sF : (forall v k x, NoDup (map fst v) -> NoDup (map fst (snd (ma v k x)))) ->
    clean s -> applies tf p s xs = (ys, sF) ->
    clean sF /\ length ys = length xs /\
    exists vs, length vs = length xs /\
      (forall t v k x, nth_error vs t = Some v -> nth_error xs t = Some (k, x) ->
         sget "params" v = Some p /\ nth_error ys t = Some (fst (ma v k x)) /\
         (forall v' key, nth_error vs (t + 1) = Some v' -> key <> "params"%string -> sget key v' = sget key (snd (ma v k x))) /\
         (t + 1 = length xs -> forall key, sget key sF = if String.eqb key "params" then None else sget key (snd (ma v k x)))) /\
      (forall v key, nth_error vs 0 = Some v -> key <> "params"%string -> sget key v = sget key s).
  Proof.
    intros HM. revert s ys. induction xs as [|[k x] xs IH]; intros s ys HC E; cbn [applies] in E.
    - injection E as <- <-. split; [exact HC|]. split; [reflexivity|]. exists []. split; [reflexivity|]. split; intros [|t]; discriminate.
    - destruct (t_apply tf p s k x) as [y s1] eqn:E1. destruct (applies tf p s1 xs) as [ys1 s2] eqn:E2. injection E as <- <-.
      destruct (one_call p s k x y s1 HM HC E1) as (HC1 & v & NV & Hv & Hy & Hs1).
      destruct (IH s1 ys1 HC1 E2) as (HCF & HL & vs & HLv & HV & H0). split; [exact HCF|]. split; [cbn; lia|].
      exists (v :: vs). split; [cbn; lia|]. split.
      + intros [|t] v1 k1 x1 Hv1 Hx1; cbn [nth_error] in Hv1, Hx1.
        * injection Hv1 as <-. injection Hx1 as <- <-. split; [rewrite Hv; reflexivity|]. split; [cbn; congruence|]. split.
          -- intros v' key Hv' N. cbn in Hv'. rewrite (H0 v' key Hv' N), Hs1. destruct (String.eqb_spec key "params"); [contradiction|reflexivity].
          -- intros HT key. cbn in HT. assert (xs = []) by (destruct xs; [reflexivity|cbn in HT; lia]). subst xs.
             cbn in E2. injection E2 as <- <-. apply Hs1.
        * destruct (HV t v1 k1 x1 Hv1 Hx1) as (A1 & A2 & A3 & A4). split; [exact A1|]. split; [exact A2|]. split.
          -- intros v' key Hv' N. apply (A3 v' key); [exact Hv'|exact N].
          -- intros HT. apply A4. cbn in HT. lia.
      + intros v1 key Hv1 N. injection Hv1 as <-. rewrite Hv. destruct (String.eqb_spec key "params"); [contradiction|reflexivity].
  Qed.
End V.

Section W.
  Context {V K X Y : Type}.
  Variables (mi : option K -> X -> variables (ptree V)) (ma : variables (ptree V) -> option K -> X -> Y * variables (ptree V)).
  Variable fold : K -> K.

  Lemma unwrap_wrap (v : variables (ptree V)) : unwrap (wrap v) = v.
  Proof.
    unfold unwrap, wrap. rewrite map_map. rewrite <- (map_id v) at 2. apply map_ext. intros [k c]. reflexivity.
  Qed.
  Lemma wrap_filter (v : variables (ptree V)) : filter (fun kv => negb (String.eqb (fst kv) "params")) (wrap v) =
    wrap (filter (fun kv => negb (String.eqb (fst kv) "params")) v).
  Proof. induction v as [|[k c] v IH]; [reflexivity|]. cbn [wrap map filter fst]. destruct (negb (String.eqb k "params")); cbn [map]; unfold wrap in *; rewrite IH; reflexivity. Qed.
  Lemma wrap_sset k (c : ptree V) d : wrap (sset k c d) = sset k (nest c) (wrap d).
  Proof. induction d as [|[k' c'] d IH]; [reflexivity|]. cbn. destruct (String.eqb k k'); cbn; unfold wrap in *; rewrite ?IH; reflexivity. Qed.
  Lemma wrap_update (s : variables (ptree V)) : forall d, wrap (dict_update d s) = dict_update (wrap d) (wrap s).
  Proof.
    induction s as [|[k c] s IH]; intros d; [reflexivity|]. unfold dict_update. cbn [fold_left fst snd wrap map].
    change (wrap (dict_update (sset k c d) s) = dict_update (sset k (nest c) (wrap d)) (wrap s)). rewrite IH, wrap_sset. reflexivity.
  Qed.

  Lemma wrapper_call p s k x :
    t_apply (make_streaming_compatible mi ma fold) (nest p) (wrap s) k x =
    let '(y, s') := t_apply (create_streaming_module_wrapper mi ma) p s (option_map fold k) x in (y, wrap s').
  Proof.
    cbn [t_apply make_streaming_compatible create_streaming_module_wrapper dict_transform]. unfold tf_apply, wrapper_apply.
    change [("params"%string, nest p)] with (wrap [("params"%string, p)]). rewrite <- wrap_update, unwrap_wrap.
    destruct (ma (dict_update [("params"%string, p)] s) (option_map fold k) x) as [y v']. rewrite wrap_filter. reflexivity.
  Qed.
  Lemma wrapper_init_eq k x :
    let '(p, s) := t_init (create_streaming_module_wrapper mi ma) (option_map fold k) x in
    t_init (make_streaming_compatible mi ma fold) k x =
    (match sget "params" (mi (option_map fold k) x) with Some _ => nest p | None => PDict [] end, wrap s).
  Proof.
    cbn [t_init make_streaming_compatible create_streaming_module_wrapper dict_transform]. unfold tf_init, wrapper_init.
    rewrite wrap_filter. f_equal. set (v := mi (option_map fold k) x). clearbody v.
    assert (G : sget "params" (wrap v) = option_map nest (sget "params" v)).
    { induction v as [|[k' c] v IH]; [reflexivity|]. cbn [wrap map sget fst snd]. destruct (String.eqb "params" k'); [reflexivity|exact IH]. }
    rewrite G. destruct (sget "params" v); reflexivity.
  Qed.

  Lemma wrapper_history p : forall xs s,
    applies (make_streaming_compatible mi ma fold) (nest p) (wrap s) xs =
    let '(ys, s') := applies (create_streaming_module_wrapper mi ma) p s (map (fun kx => (option_map fold (fst kx), snd kx)) xs) in (ys, wrap s').
  Proof.
    induction xs as [|[k x] xs IH]; intros s; [reflexivity|]. cbn [applies map fst snd].
    pose proof (wrapper_call p s k x) as H. rewrite H.
    destruct (t_apply (create_streaming_module_wrapper mi ma) p s (option_map fold k) x) as [y s1]. rewrite IH.
    destruct (applies (create_streaming_module_wrapper mi ma) p s1 _) as [ys s2]. reflexivity.
  Qed.
End W.
