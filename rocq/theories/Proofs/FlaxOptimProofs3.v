(** Proofs for C79-C81. *)
From Coq Require Import String Ascii List Bool Reals Lra Lia Permutation.
From Verif Require Import Model.Float Model.Optim Model.FlaxModules Model.FlaxMore Model.FlaxOptim
  Spec.FlaxOptimSpec Proofs.FloatFacts Proofs.FlaxMoreProofs Proofs.FlaxOptimProofs Proofs.FlaxOptimProofs2.
Import ListNotations.
Local Open Scope list_scope.

(** *** C79 *)
Lemma func_plain {X Aux OS : Type} (f : X -> fl * Aux) (opt : nested_optimizer OS) predicate grad xs :
  ffo_calls (PlainFun f) opt predicate grad ffo_start xs =
    Some (map (fun x => FFOOut (fst (f x)) (snd (f x)) (PDict []) None) xs, ffo_start).
Proof.
  induction xs as [|x xs IH]; cbn [ffo_calls map]; [reflexivity|].
  unfold ffo_call. cbn [ffo_start ffo_trainable is_empty ffo_non_trainable ffo_opt].
  change {| ffo_trainable := PDict []; ffo_non_trainable := None; ffo_opt := None |} with (@ffo_start OS).
  destruct (f x) as [l a]. rewrite IH. reflexivity.
Qed.

Lemma learner_never_learns {I T Pd OS : Type} (model : I -> Pd) (loss_fn : Pd -> T -> fl)
  (opt : nested_optimizer OS) predicate grad xys :
  learner_calls model loss_fn opt predicate grad ffo_start xys =
    Some (map (fun xy => (model (fst xy), (loss_fn (model (fst xy)) (snd xy), PDict [], None))) xys).
Proof.
  induction xys as [|[x y] r IH]; cbn [learner_calls map]; [reflexivity|].
  unfold learner_call, ffo_call, learner_fun. cbn [ffo_start ffo_trainable is_empty ffo_non_trainable ffo_opt fst snd].
  change {| ffo_trainable := PDict []; ffo_non_trainable := None; ffo_opt := None |} with (@ffo_start OS).
  rewrite IH. reflexivity.
Qed.

Section FlaxFun.
  Context {X Aux OS : Type}.
  Variables (f_init : X -> list (string * ptree array)) (f_apply : ptree array -> X -> fl * Aux)
    (opt : nested_optimizer OS) (grad : (ptree array -> fl) -> ptree array -> ptree array).

  Lemma merge_empty_l (n : ptree array) kvs : n = PDict kvs -> merge_params (PDict []) n = n.
  Proof. intros ->. unfold merge_params, is_empty. destruct kvs; reflexivity. Qed.
  Lemma merge_empty_r (t : ptree array) kvs : t = PDict kvs -> merge_params t (PDict []) = t.
  Proof. intros ->. unfold merge_params, is_empty. destruct kvs; reflexivity. Qed.

  Lemma func_collection_filter predicate (sel : string -> bool) x0 xs :
    (forall k n v, predicate k n v = sel k) ->
    (forall x, well_named (PDict (f_init x))) ->
    (forall x k, In k (map fst (f_init x)) -> sel k = false) ->
    (forall x, reads_params (fun P => f_apply P x)) ->
    exists st, ffo_calls (FlaxFun f_init f_apply) opt predicate grad ffo_start (x0 :: xs) =
      Some (map (fun x => FFOOut (fst (f_apply (PDict (f_init x0)) x)) (snd (f_apply (PDict (f_init x0)) x))
                                 (PDict []) None) (x0 :: xs), st).
  Proof.
    intros Hs W Hk Hr.
    assert (Part : forall x, exists ns, fpartition predicate (f_init x) = Some (PDict [], PDict ns) /\
                     same_params (PDict ns) (PDict (f_init x))).
    { intros x. destruct (fpartition_spec predicate _ (W x)) as [ts [ns [E [Wt [Wn [Lt [Ln [Kt Kn]]]]]]]].
      assert (Ch : forall p (v : array), leaf_at p (PDict (f_init x)) = Some v -> chosen predicate p v = false).
      { intros p v H. unfold chosen. rewrite Hs. destruct p as [|k p]; [discriminate|]. cbn [hd].
        apply (Hk x). rewrite leaf_at_cons in H. destruct (sget k (f_init x)) as [c|] eqn:Ek; [|discriminate].
        apply sget_in in Ek. apply (in_map fst) in Ek. exact Ek. }
      exists ns. destruct ts as [|[k c] ts].
      - split; [exact E|]. intros p. apply option_ext. intros v. rewrite Ln. split; [tauto|]. intros H; split; auto.
      - exfalso. destruct (Kt k) as [p [v H]]; [left; reflexivity|]. apply Lt in H. destruct H as [H C].
        rewrite (Ch _ _ H) in C. discriminate. }
    assert (Step : forall n0 os x, same_params (PDict n0) (PDict (f_init x0)) ->
      ffo_call (FlaxFun f_init f_apply) opt predicate grad (FFOState (PDict []) (Some (PDict n0)) os) x =
      Some (FFOOut (fst (f_apply (PDict (f_init x0)) x)) (snd (f_apply (PDict (f_init x0)) x)) (PDict []) None,
            FFOState (PDict []) (Some (PDict n0)) os)).
    { intros n0 os x S. unfold ffo_call. cbn [ffo_trainable is_empty ffo_non_trainable ffo_opt].
      destruct (Part x) as [ns [E _]]. rewrite E. cbn [ffo_trainable is_empty ffo_non_trainable ffo_opt].
      rewrite (merge_empty_l (PDict n0) n0 eq_refl). pose proof (Hr x _ _ S) as R1. cbv beta in R1. rewrite R1.
      destruct (f_apply (PDict (f_init x0)) x); reflexivity. }
    assert (Run : forall n0 os ys, same_params (PDict n0) (PDict (f_init x0)) ->
      ffo_calls (FlaxFun f_init f_apply) opt predicate grad (FFOState (PDict []) (Some (PDict n0)) os) ys =
      Some (map (fun x => FFOOut (fst (f_apply (PDict (f_init x0)) x)) (snd (f_apply (PDict (f_init x0)) x))
                                 (PDict []) None) ys, FFOState (PDict []) (Some (PDict n0)) os)).
    { intros n0 os ys S. induction ys as [|x ys IH]; cbn [ffo_calls map]; [reflexivity|].
      rewrite (Step _ _ _ S), IH. reflexivity. }
    destruct (Part x0) as [ns [E S]]. exists (FFOState (PDict []) (Some (PDict ns)) None).
    cbn [ffo_calls map].
    assert (F : ffo_call (FlaxFun f_init f_apply) opt predicate grad ffo_start x0 =
      Some (FFOOut (fst (f_apply (PDict (f_init x0)) x0)) (snd (f_apply (PDict (f_init x0)) x0)) (PDict []) None,
            FFOState (PDict []) (Some (PDict ns)) None)).
    { unfold ffo_call. cbn [ffo_start ffo_trainable is_empty ffo_non_trainable ffo_opt]. rewrite E.
      cbn [ffo_trainable is_empty ffo_non_trainable ffo_opt].
      rewrite (merge_empty_l (PDict ns) ns eq_refl). pose proof (Hr x0 _ _ S) as R1. cbv beta in R1. rewrite R1.
      destruct (f_apply (PDict (f_init x0)) x0); reflexivity. }
    rewrite F, (Run _ _ _ S). reflexivity.
  Qed.

  Lemma func_frozen_lost predicate x0 k p v :
    well_named (PDict (f_init x0)) ->
    leaf_at (k :: p) (PDict (f_init x0)) = Some v -> chosen predicate (k :: p) v = false ->
    trains predicate (PDict (f_init x0)) k ->
    exists y st P, ffo_call (FlaxFun f_init f_apply) opt predicate grad ffo_start x0 = Some (y, st) /\
      (ffo_loss y, ffo_aux y) = f_apply P x0 /\ leaf_at (k :: p) P = None.
  Proof.
    intros W Hv C T. destruct (fpartition_spec predicate _ W) as [ts [ns [E [_ [_ [Lt _]]]]]].
    pose proof (merge_lost predicate _ (PDict ts) (PDict ns) k p v W E Hv C T) as L.
    unfold ffo_call. cbn [ffo_start ffo_trainable is_empty ffo_non_trainable ffo_opt]. rewrite E.
    cbn [ffo_trainable ffo_non_trainable ffo_opt].
    destruct (is_empty (PDict ts)) eqn:Em.
    - exfalso. destruct ts; [|discriminate]. destruct T as [q [w [Hq Cq]]].
      assert (Hx : leaf_at (k :: q) (PDict ([] : list (string * ptree array))) = Some w) by (apply Lt; auto). discriminate.
    - destruct (f_apply (merge_params (PDict ts) (PDict ns)) x0) as [l a] eqn:El.
      destruct (foptax_call _ _ _ _) as [u os]. eexists. eexists. exists (merge_params (PDict ts) (PDict ns)).
      split; [reflexivity|]. cbn [ffo_loss ffo_aux]. split; [symmetry; exact El|exact L].
  Qed.

  (** Everything is trained: the whole dictionary of collections is the parameter. *)
  Definition fstep (P : ptree array) x (y : ffo_out Aux OS) : Prop :=
    (ffo_loss y, ffo_aux y) = f_apply P x /\
    ffo_grads y = nested_fill (grad (fun t => fst (f_apply (merge_params t (PDict [])) x)) P).

  Lemma func_all_step upd (f_opt : nested_optimizer unit) P kvs (os : option unit) x :
    f_opt = memoryless upd -> P = PDict kvs -> kvs <> [] ->
    exists y st, ffo_call (FlaxFun f_init f_apply) f_opt (fun _ _ _ => true) grad (FFOState P (Some (PDict [])) os) x
        = Some (y, st) /\
      (ffo_loss y, ffo_aux y) = f_apply P x /\
      ffo_grads y = nested_fill (grad (fun t => fst (f_apply (merge_params t (PDict [])) x)) P) /\
      exists kvs' os', st = FFOState (PDict kvs') (Some (PDict [])) os' /\ kvs' <> [] /\
      (forall p, leaf_at p (PDict kvs') =
        match leaf_at p P with
        | Some v => Some (match leaf_at p (ffo_grads y) with Some g => array_add v (upd g) | None => v end)
        | None => None
        end).
  Proof.
    intros -> -> Ne. unfold ffo_call. cbn [ffo_trainable ffo_non_trainable ffo_opt].
    assert (Em : is_empty (PDict kvs) = false) by (destruct kvs; [congruence|reflexivity]).
    rewrite Em. cbn [ffo_trainable ffo_non_trainable ffo_opt]. rewrite Em.
    rewrite (merge_empty_r (PDict kvs) kvs eq_refl). destruct (f_apply (PDict kvs) x) as [l a].
    unfold foptax_call. cbn [memoryless nopt_update].
    eexists. eexists. split; [reflexivity|]. cbn [ffo_loss ffo_aux ffo_grads].
    split; [reflexivity|]. split; [reflexivity|].
    unfold nested_apply_updates at 1. cbn [ptree_map]. eexists. eexists. split; [reflexivity|]. split.
    { destruct kvs; [congruence|discriminate]. }
    intros p. match goal with |- leaf_at p ?T = _ => change T with
      (nested_apply_updates (PDict kvs) (ptree_map (fun _ v => upd v) []
        (nested_fill (grad (fun t => fst (f_apply (merge_params t (PDict [])) x)) (PDict kvs))))) end.
    rewrite apply_updates_leaf, leaf_at_map.
    destruct (leaf_at p (PDict kvs)); [|reflexivity]. destruct (leaf_at p (nested_fill _)); reflexivity.
  Qed.

  Lemma func_all_run upd x0 xs :
    well_named (PDict (f_init x0)) -> (exists p v, leaf_at p (PDict (f_init x0)) = Some v) ->
    exists ys st Ps,
      ffo_calls (FlaxFun f_init f_apply) (memoryless upd) (fun _ _ _ => true) grad ffo_start (x0 :: xs) = Some (ys, st) /\
      length ys = length (x0 :: xs) /\
      (forall P, nth_error Ps 0 = Some P -> same_params P (PDict (f_init x0))) /\
      (forall t x y, nth_error (x0 :: xs) t = Some x -> nth_error ys t = Some y ->
         exists P P', nth_error Ps t = Some P /\ nth_error Ps (S t) = Some P' /\
           (ffo_loss y, ffo_aux y) = f_apply P x /\
           (forall p, leaf_at p P' =
              match leaf_at p P with
              | Some v => Some (match leaf_at p (ffo_grads y) with Some g => array_add v (upd g) | None => v end)
              | None => None
              end)).
  Proof.
    intros W [p0 [v0 Hv0]].
    assert (Run : forall zs kvs os, kvs <> [] -> exists ys st Ps,
      ffo_calls (FlaxFun f_init f_apply) (memoryless upd) (fun _ _ _ => true) grad
        (FFOState (PDict kvs) (Some (PDict [])) os) zs = Some (ys, st) /\
      length ys = length zs /\ nth_error Ps 0 = Some (PDict kvs) /\
      (forall t x y, nth_error zs t = Some x -> nth_error ys t = Some y ->
         exists P P', nth_error Ps t = Some P /\ nth_error Ps (S t) = Some P' /\
           (ffo_loss y, ffo_aux y) = f_apply P x /\
           (forall p, leaf_at p P' =
              match leaf_at p P with
              | Some v => Some (match leaf_at p (ffo_grads y) with Some g => array_add v (upd g) | None => v end)
              | None => None
              end))).
    { induction zs as [|x zs IH]; intros kvs os Ne.
      - eexists [], _, [PDict kvs]. split; [reflexivity|]. split; [reflexivity|]. split; [reflexivity|].
        intros [|t] x y H; discriminate.
      - destruct (func_all_step upd (memoryless upd) (PDict kvs) kvs os x eq_refl eq_refl Ne)
          as [y [st1 [E [L [G [kvs' [os' [-> [Ne' Lf]]]]]]]]].
        destruct (IH kvs' os' Ne') as [ys [st2 [Ps [E2 [L2 [H0 S2]]]]]].
        exists (y :: ys), st2, (PDict kvs :: Ps). split; [|split; [|split]].
        + cbn [ffo_calls]. rewrite E, E2. reflexivity.
        + cbn [length]. congruence.
        + reflexivity.
        + intros [|t] x' y' Hx Hy; cbn [nth_error] in Hx, Hy.
          * injection Hx; intros <-. injection Hy; intros <-. exists (PDict kvs), (PDict kvs').
            split; [reflexivity|]. split; [exact H0|]. split; [exact L|exact Lf].
          * destruct (S2 t x' y' Hx Hy) as [P [P' [A [B R1]]]]. exists P, P'. split; [exact A|]. split; [exact B|exact R1]. }
    destruct (fpartition_spec (fun _ _ _ => true) _ W) as [ts [ns [E [Wt [Wn [Lt [Ln [Kt Kn]]]]]]]].
    assert (En : ns = []).
    { destruct ns as [|[k c] ns]; [reflexivity|]. exfalso. destruct (Kn k) as [p [v H]]; [left; reflexivity|].
      apply Ln in H. destruct H as [_ H]. discriminate. }
    subst ns.
    assert (Et : ts <> []).
    { intros ->. assert (Hx : leaf_at p0 (PDict ([] : list (string * ptree array))) = Some v0) by (apply Lt; auto).
      destruct p0; discriminate. }
    destruct (Run (x0 :: xs) ts None Et) as [ys [st [Ps [R1 [R2 [R3 R4]]]]]].
    exists ys, st, Ps. split; [|split; [exact R2|split; [|exact R4]]].
    - rewrite <- R1. cbn [ffo_calls].
      assert (Eq : ffo_call (FlaxFun f_init f_apply) (memoryless upd) (fun _ _ _ => true) grad ffo_start x0 =
                   ffo_call (FlaxFun f_init f_apply) (memoryless upd) (fun _ _ _ => true) grad
                     (FFOState (PDict ts) (Some (PDict [])) None) x0).
      { unfold ffo_call. cbn [ffo_start ffo_trainable ffo_non_trainable ffo_opt is_empty].
        rewrite E. destruct ts; [congruence|]. reflexivity. }
      rewrite Eq. reflexivity.
    - intros P HP. rewrite R3 in HP. injection HP; intros <-. intros p. apply option_ext. intros v. rewrite Lt.
      split; [tauto|]. intros H; split; [exact H|reflexivity].
  Qed.

  (** the same for any optimiser *)
  Definition all_step (o : nested_optimizer OS) (P P' : ptree array) (os os' : OS) x (y : ffo_out Aux OS) : Prop :=
    (ffo_loss y, ffo_aux y) = f_apply P x /\
    (exists value, (forall ts, value (PDict ts) = fst (f_apply (PDict ts) x)) /\
       forall p, leaf_at p (ffo_grads y) =
         option_map (map (fun v => if isfinite v then v else Fin 0%R)) (leaf_at p (grad value P))) /\
    ffo_info y = Some os' /\
    exists u, nopt_update o (ffo_grads y) os P = (u, os') /\
      forall p, leaf_at p P' =
        match leaf_at p P with
        | Some v => Some (match leaf_at p u with Some d => array_add v d | None => v end)
        | None => None
        end.

  Lemma func_any_step (o : nested_optimizer OS) kvs (os : option OS) x :
    kvs <> [] ->
    let os1 := match os with Some s => s | None => nopt_init o (PDict kvs) end in
    exists y kvs' os', ffo_call (FlaxFun f_init f_apply) o (fun _ _ _ => true) grad (FFOState (PDict kvs) (Some (PDict [])) os) x
        = Some (y, FFOState (PDict kvs') (Some (PDict [])) (Some os')) /\ kvs' <> [] /\
      all_step o (PDict kvs) (PDict kvs') os1 os' x y.
  Proof.
    intros Ne os1. unfold ffo_call. cbn [ffo_trainable ffo_non_trainable ffo_opt].
    assert (Em : is_empty (PDict kvs) = false) by (destruct kvs; [congruence|reflexivity]).
    rewrite Em. cbn [ffo_trainable ffo_non_trainable ffo_opt]. rewrite Em.
    rewrite (merge_empty_r (PDict kvs) kvs eq_refl). destruct (f_apply (PDict kvs) x) as [l a] eqn:Ef.
    unfold foptax_call. fold os1.
    destruct (nopt_update o _ os1 (PDict kvs)) as [u os'] eqn:U.
    unfold nested_apply_updates. cbn [ptree_map]. eexists. eexists. exists os'. split; [reflexivity|]. split.
    { destruct kvs; [congruence|discriminate]. }
    split; [symmetry; exact Ef|]. split.
    { exists (fun t => fst (f_apply (merge_params t (PDict [])) x)).
      split; [|intros p; cbn [ffo_grads]; unfold nested_fill; rewrite leaf_at_map].
      - intros ts. cbv beta. rewrite (merge_empty_r (PDict ts) ts eq_refl). reflexivity.
      - match goal with |- option_map _ (leaf_at p ?T) = _ => destruct (leaf_at p T) as [g|]; [|reflexivity] end.
        cbn [option_map]. apply f_equal. apply map_ext. intros v; destruct v; reflexivity. }
    split; [reflexivity|]. exists u. split; [exact U|].
    intros p. match goal with |- leaf_at p ?T = _ => change T with (nested_apply_updates (PDict kvs) u) end.
    rewrite apply_updates_leaf. destruct (leaf_at p (PDict kvs)); [|reflexivity]. destruct (leaf_at p u); reflexivity.
  Qed.

  Lemma func_any_run (o : nested_optimizer OS) x0 xs :
    well_named (PDict (f_init x0)) -> (exists p v, leaf_at p (PDict (f_init x0)) = Some v) ->
    exists ys st (Ps : nat -> ptree array) (oss : nat -> OS),
      ffo_calls (FlaxFun f_init f_apply) o (fun _ _ _ => true) grad ffo_start (x0 :: xs) = Some (ys, st) /\
      length ys = length (x0 :: xs) /\
      same_params (Ps 0) (PDict (f_init x0)) /\ oss 0 = nopt_init o (Ps 0) /\
      forall t x y, nth_error (x0 :: xs) t = Some x -> nth_error ys t = Some y ->
        all_step o (Ps t) (Ps (S t)) (oss t) (oss (S t)) x y.
  Proof.
    intros W [p0 [v0 Hv0]].
    assert (Run : forall zs kvs os, kvs <> [] -> exists ys st (Ps : nat -> ptree array) (oss : nat -> OS),
      ffo_calls (FlaxFun f_init f_apply) o (fun _ _ _ => true) grad
        (FFOState (PDict kvs) (Some (PDict [])) os) zs = Some (ys, st) /\
      length ys = length zs /\ Ps 0 = PDict kvs /\
      oss 0 = match os with Some s => s | None => nopt_init o (PDict kvs) end /\
      forall t x y, nth_error zs t = Some x -> nth_error ys t = Some y ->
        all_step o (Ps t) (Ps (S t)) (oss t) (oss (S t)) x y).
    { induction zs as [|x zs IH]; intros kvs os Ne.
      - eexists [], _, (fun _ => PDict kvs), (fun _ => _). split; [reflexivity|]. split; [reflexivity|]. split; [reflexivity|].
        split; [reflexivity|]. intros [|t] x y H; discriminate.
      - destruct (func_any_step o kvs os x Ne) as [y [kvs' [os' [E [Ne' St]]]]].
        destruct (IH kvs' (Some os') Ne') as [ys [st2 [Ps [oss [E2 [L2 [H0 [H1 S2]]]]]]]].
        exists (y :: ys), st2, (fun t => match t with 0 => PDict kvs | S t => Ps t end),
          (fun t => match t with 0 => match os with Some s => s | None => nopt_init o (PDict kvs) end | S t => oss t end).
        split; [cbn [ffo_calls]; rewrite E, E2; reflexivity|]. split; [cbn [length]; congruence|].
        split; [reflexivity|]. split; [reflexivity|].
        intros [|t] x' y' Hx Hy; cbn [nth_error] in Hx, Hy.
        + injection Hx; intros <-. injection Hy; intros <-. rewrite H0, H1. exact St.
        + exact (S2 t x' y' Hx Hy). }
    destruct (fpartition_spec (fun _ _ _ => true) _ W) as [ts [ns [E [Wt [Wn [Lt [Ln [Kt Kn]]]]]]]].
    assert (En : ns = []).
    { destruct ns as [|[k c] ns]; [reflexivity|]. exfalso. destruct (Kn k) as [p [v H]]; [left; reflexivity|].
      apply Ln in H. destruct H as [_ H]. discriminate. }
    subst ns.
    assert (Et : ts <> []).
    { intros ->. assert (Hx : leaf_at p0 (PDict ([] : list (string * ptree array))) = Some v0) by (apply Lt; auto).
      destruct p0; discriminate. }
    destruct (Run (x0 :: xs) ts None Et) as [ys [st [Ps [oss [R1 [R2 [R3 [R4 R5]]]]]]]].
    exists ys, st, Ps, oss. split; [|split; [exact R2|split; [|split; [rewrite R3; exact R4|exact R5]]]].
    - rewrite <- R1. cbn [ffo_calls].
      assert (Eq : ffo_call (FlaxFun f_init f_apply) o (fun _ _ _ => true) grad ffo_start x0 =
                   ffo_call (FlaxFun f_init f_apply) o (fun _ _ _ => true) grad
                     (FFOState (PDict ts) (Some (PDict [])) None) x0).
      { unfold ffo_call. cbn [ffo_start ffo_trainable ffo_non_trainable ffo_opt is_empty].
        rewrite E. destruct ts; [congruence|]. reflexivity. }
      rewrite Eq. reflexivity.
    - rewrite R3. intros p. apply option_ext. intros v. rewrite Lt.
      split; [tauto|]. intros H; split; [exact H|reflexivity].
  Qed.

  Lemma func_grads_finite predicate (st st' : ffo_state OS) x y p a :
    ffo_call (FlaxFun f_init f_apply) opt predicate grad st x = Some (y, st') ->
    leaf_at p (ffo_grads y) = Some a -> Forall (fun v => isfinite v = true) a.
  Proof.
    unfold ffo_call.
    destruct (if is_empty (ffo_trainable st) then _ else _) as [st1|]; [|discriminate].
    destruct (is_empty (ffo_trainable st1)).
    - destruct (f_apply _ x) as [l au]. intros E. injection E; intros _ <-. cbn [ffo_grads]. destruct p; discriminate.
    - destruct (f_apply _ x) as [l au]. destruct (foptax_call _ _ _ _) as [u os].
      intros E. injection E; intros _ <-. cbn [ffo_grads]. unfold nested_fill. rewrite leaf_at_map.
      destruct (leaf_at p (grad _ _)) as [g|]; cbn [option_map]; [|discriminate].
      intros H. injection H; intros <-. apply Forall_forall. intros v Hv. apply in_map_iff in Hv.
      destruct Hv as [w [<- _]]. destruct w; reflexivity.
  Qed.
End FlaxFun.

(** *** C80 *)
Lemma aws_params_lost {C X Y : Type} (module_ : list (string * C) -> X -> option (Y * list (string * C)))
  (same : list (string * C) -> list (string * C) -> bool) v x y v' :
  (forall v x, sget "params" v = None -> module_ v x = None) ->
  sget "state" v <> None \/ sget "cache" v <> None ->
  apply_with_state module_ same v x = Some (y, v') ->
  sget "params" v' = None /\ forall x', apply_with_state module_ same v' x' = None.
Proof.
  intros HM HS H.
  assert (N : sget "params" v' = None).
  { revert H. unfold apply_with_state, module_apply.
    assert (F : forall m (w : list (string * C)), existsb (String.eqb "params") m = false ->
      sget "params" (filter (fun kv => existsb (String.eqb (fst kv)) m) w) = None).
    { intros m w Hm. apply sget_none. intros H. apply in_map_iff in H. destruct H as [[k c] [E H]].
      apply filter_In in H. destruct H as [_ H]. cbn [fst] in *. subst k. congruence. }
    destruct (sget "state" v) eqn:E1, (sget "cache" v) eqn:E2; cbn [app].
    - destruct (module_ v x) as [[y0 w]|]; [|discriminate]. destruct (same _ _); [|discriminate].
      intros E. assert (Ev : v' = filter (fun kv => existsb (String.eqb (fst kv)) ["state"%string; "cache"%string]) w) by congruence.
      rewrite Ev. apply (F ["state"%string; "cache"%string]). reflexivity.
    - destruct (module_ v x) as [[y0 w]|]; [|discriminate]. destruct (same _ _); [|discriminate].
      intros E. assert (Ev : v' = filter (fun kv => existsb (String.eqb (fst kv)) ["state"%string]) w) by congruence.
      rewrite Ev. apply (F ["state"%string]). reflexivity.
    - destruct (module_ v x) as [[y0 w]|]; [|discriminate]. destruct (same _ _); [|discriminate].
      intros E. assert (Ev : v' = filter (fun kv => existsb (String.eqb (fst kv)) ["cache"%string]) w) by congruence.
      rewrite Ev. apply (F ["cache"%string]). reflexivity.
    - destruct HS; congruence. }
  split; [exact N|]. intros x'. unfold apply_with_state, module_apply. rewrite (HM v' x' N).
  destruct (sget "state" v'), (sget "cache" v'); reflexivity.
Qed.

Lemma aws_state_only {S X Y : Type} (m : flax_module S X Y) (same : list (string * S) -> list (string * S) -> bool) s xs :
  same [] [] = true ->
  apply_with_state_calls (state_only m) same [("state"%string, s)] xs =
    Some (fst (flax_calls m s xs), [("state"%string, snd (flax_calls m s xs))]).
Proof.
  intros Hs. revert s. induction xs as [|x xs IH]; intros s; cbn [apply_with_state_calls flax_calls fst snd]; [reflexivity|].
  unfold apply_with_state, module_apply, state_only.
  cbn [sget String.eqb Ascii.eqb Bool.eqb app]. destruct (fx_call m s x) as [y s1] eqn:E.
  cbn [sset sget String.eqb Ascii.eqb Bool.eqb filter fst existsb orb negb]. rewrite Hs.
  fold (state_only m). unfold apply_with_state_calls in IH. fold (@apply_with_state_calls S X Y) in IH.
  rewrite IH. destruct (flax_calls m s1 xs). reflexivity.
Qed.
Lemma aws_nothing_mutable {C X Y : Type} (module_ : list (string * C) -> X -> option (Y * list (string * C)))
  (same : list (string * C) -> list (string * C) -> bool) v x :
  sget "state" v = None -> sget "cache" v = None ->
  apply_with_state module_ same v x =
    match module_ v x with Some (y, v') => if same v v' then Some (y, v) else None | None => None end.
Proof.
  intros H1 H2. unfold apply_with_state, module_apply. rewrite H1, H2. cbn [app].
  destruct (module_ v x) as [[y w]|]; [|reflexivity]. cbn [existsb negb].
  assert (F : forall l : list (string * C), filter (fun _ => true) l = l).
  { induction l as [|a l IH]; cbn [filter]; [reflexivity|]. rewrite IH. reflexivity. }
  rewrite !F. destruct (same v w); reflexivity.
Qed.

(** *** C81 *)
Lemma fvmap_lanes {X : Type} (f : X -> fl) xs :
  fvmap false f xs = inl (map f xs).
Proof. reflexivity. Qed.
Lemma fvmap_mean {X : Type} (f : X -> fl) (g : X -> R) x0 xs :
  (forall x, In x (x0 :: xs) -> f x = Fin (g x)) ->
  fvmap true f (x0 :: xs) = inr (Fin (fold_right Rplus 0%R (map g (x0 :: xs)) / INR (length (x0 :: xs)))%R).
Proof.
  intros H. unfold fvmap. rewrite map_length.
  assert (E : map f (x0 :: xs) = map Fin (map g (x0 :: xs))).
  { rewrite map_map. apply map_ext_in. exact H. }
  rewrite E, fsum_Fin.
  assert (P : (0 < INR (length (x0 :: xs)))%R) by (apply lt_0_INR; cbn [length]; lia).
  unfold fdiv. rewrite Req_b_neq by lra. reflexivity.
Qed.
Lemma fvmap_nan {X : Type} (f : X -> fl) xs x : In x xs -> f x = NaN -> fvmap true f xs = inr NaN.
Proof.
  intros H E. unfold fvmap. rewrite fsum_nan; [reflexivity|]. apply in_map_iff. exists x. auto.
Qed.
Lemma fvmap_empty {X : Type} (f : X -> fl) : fvmap true f [] = inr NaN.
Proof.
  unfold fvmap, fsum. cbn [map fold_left length INR fdiv]. rewrite Req_b_refl.
  unfold signed_inf. rewrite Req_b_refl. reflexivity.
Qed.
