From Coq Require Import String List Arith Lia Bool Reals FunctionalExtensionality.
From Verif Require Import Model.Unroll Model.Batch Model.Float Model.Optim Spec.OptimSpec Proofs.UnrollProofs
  Proofs.UnrollExtra.
Import ListNotations.
Local Open Scope list_scope.

Lemma pkey_eqb_spec a b : reflect (a = b) (pkey_eqb a b).
Proof.
  destruct a as [a1 a2], b as [b1 b2]. unfold pkey_eqb. cbn.
  destruct (String.eqb_spec a1 b1), (String.eqb_spec a2 b2); subst; constructor; congruence.
Qed.
Lemma pkey_eqb_refl a : pkey_eqb a a = true.
Proof. destruct (pkey_eqb_spec a a); congruence. Qed.

Lemma get_set {V} k k' (v : V) m : get k (set k' v m) = if pkey_eqb k k' then Some v else get k m.
Proof.
  induction m as [|[k0 v0] m IH]; cbn.
  - reflexivity.
  - destruct (pkey_eqb_spec k' k0) as [->|Hne]; cbn.
    + destruct (pkey_eqb_spec k k0); reflexivity.
    + rewrite IH. destruct (pkey_eqb_spec k k0) as [->|].
      * destruct (pkey_eqb_spec k0 k'); congruence.
      * reflexivity.
Qed.

Fixpoint get_last {V} (k : pkey) (m : pmap V) : option V :=
  match m with
  | [] => None
  | (k', v) :: r => match get_last k r with Some w => Some w | None => if pkey_eqb k k' then Some v else None end
  end.
Lemma get_fold {V} k (l : pmap V) : forall m,
  get k (fold_left (fun m kv => set (fst kv) (snd kv) m) l m) =
  match get_last k l with Some v => Some v | None => get k m end.
Proof.
  induction l as [|[k0 v0] l IH]; intros m; cbn; auto.
  rewrite IH, get_set. destruct (get_last k l); auto. destruct (pkey_eqb k k0); auto.
Qed.
Lemma get_last_app {V} k (a b : pmap V) : get_last k (a ++ b) =
  match get_last k b with Some v => Some v | None => get_last k a end.
Proof.
  induction a as [|[k0 v0] a IH]; cbn; [destruct (get_last k b); auto|].
  rewrite IH. destruct (get_last k b); auto.
Qed.
Lemma get_last_none {V} k (m : pmap V) : ~ In k (map fst m) -> get_last k m = None.
Proof.
  induction m as [|[k0 v0] m IH]; cbn; auto. intros H. rewrite IH by tauto.
  destruct (pkey_eqb_spec k k0); auto. subst; tauto.
Qed.
Lemma get_none {V} k (m : pmap V) : ~ In k (map fst m) <-> get k m = None.
Proof.
  induction m as [|[k0 v0] m IH]; cbn; [tauto|].
  destruct (pkey_eqb_spec k k0) as [->|Hne].
  - split; intros H; [exfalso; apply H; auto|discriminate].
  - rewrite <- IH. split; intros H; [tauto|]. intros [E|E]; [congruence|tauto].
Qed.
Lemma get_last_get {V} k (m : pmap V) : NoDup (map fst m) -> get_last k m = get k m.
Proof.
  induction m as [|[k0 v0] m IH]; cbn; auto. intros H. inversion H as [|? ? Hn Hd]; subst.
  destruct (pkey_eqb_spec k k0) as [->|Hne].
  - rewrite get_last_none by auto. reflexivity.
  - rewrite IH by auto. destruct (get k m); auto.
Qed.

(** merge: later structures win *)
Lemma get_merge {V} k (a b : pmap V) : NoDup (map fst a) -> NoDup (map fst b) ->
  get k (merge a b) = match get k b with Some v => Some v | None => get k a end.
Proof.
  intros Ha Hb. unfold merge. rewrite get_fold, get_last_app, !get_last_get by auto. cbn.
  destruct (get k b); auto. destruct (get k a); auto.
Qed.
Lemma get_merge_right {V} k (a b : pmap V) v : NoDup (map fst b) -> get k b = Some v ->
  get k (merge a b) = Some v.
Proof. intros Hb H. unfold merge. rewrite get_fold, get_last_app, (get_last_get _ b), H by auto. reflexivity. Qed.

Lemma filter_nodup {V} (f : pkey * V -> bool) m : NoDup (map fst m) -> NoDup (map fst (filter f m)).
Proof.
  induction m as [|kv m IH]; cbn; auto. intros H. inversion H; subst.
  destruct (f kv); cbn; auto. constructor; auto.
  intros Hin. apply H2. apply in_map_iff in Hin. destruct Hin as (x & <- & Hx). apply filter_In in Hx.
  apply in_map. tauto.
Qed.

Lemma get_filter {V} (f : pkey * V -> bool) k m : NoDup (map fst m) ->
  get k (filter f m) = match get k m with Some v => if f (k, v) then Some v else None | None => None end.
Proof.
  induction m as [|[k0 v0] m IH]; cbn; auto. intros H. inversion H as [|? ? Hn Hd]; subst.
  destruct (pkey_eqb_spec k k0) as [->|Hne].
  - destruct (f (k0, v0)) eqn:E; cbn.
    + rewrite pkey_eqb_refl. reflexivity.
    + apply get_none. intros Hin. apply Hn. apply in_map_iff in Hin. destruct Hin as (x & <- & Hx).
      apply filter_In in Hx. apply in_map. tauto.
  - destruct (f (k0, v0)); cbn; [destruct (pkey_eqb_spec k k0); [congruence|]|]; auto.
Qed.

Lemma partition_disjoint_union {V} (pred : pkey -> V -> bool) (m : pmap V) : NoDup (map fst m) ->
  let '(a, b) := partition pred m in
  (forall k, get k (merge a b) = get k m) /\
  forall k v, get k m = Some v ->
    (pred k v = true /\ get k a = Some v /\ get k b = None) \/
    (pred k v = false /\ get k a = None /\ get k b = Some v).
Proof.
  intros H. unfold partition. split.
  - intros k. rewrite get_merge by (apply filter_nodup; auto). rewrite !get_filter by auto. cbn.
    destruct (get k m) as [v|]; auto. destruct (pred k v); reflexivity.
  - intros k v Hk. rewrite !get_filter, Hk by auto. cbn. destruct (pred k v); [left|right]; auto.
Qed.

(** *** UpdateParams *)
Lemma nth_map_some {A B} (f : A -> B) l t x : nth_error l t = Some x -> nth_error (map f l) t = Some (f x).
Proof. intros H. rewrite nth_error_map, H. reflexivity. Qed.

Lemma update_params_run {K S X Y V} (split : K -> K * K) (pred : pkey -> V -> bool)
  (func : transformed K (pmap V) S X Y) k x0 xs p0 s0 tp0 tps :
  t_init func (Some (snd (split k))) x0 = (p0, s0) -> length tps = length xs ->
  exists ys sF,
  unroll split (update_params split pred func) false (Some k) None None
    (combine (tp0 :: tps) (x0 :: xs)) = Some (ys, sF) /\
  length ys = length (x0 :: xs) /\
  exists st : nat -> S, st 0 = s0 /\ sF = (snd (partition pred p0), st (length (x0 :: xs))) /\
    forall t tp x, nth_error (tp0 :: tps) t = Some tp -> nth_error (x0 :: xs) t = Some x ->
      exists y, nth_error ys t = Some y /\
        t_apply func (merge tp (snd (partition pred p0))) (st t) None x = (y, st (1 + t)).
Proof.
  intros Hi Hl. cbn [combine].
  destruct (unroll_total_trace split (update_params split pred func) (Some k) (tp0, x0) (combine tps xs))
    as (ys & sF & Hr & Hly & st & key & H0 & Hk0 & HF & Ht).
  exists ys, sF. split; [exact Hr|].
  assert (Lc : length (combine tps xs) = length xs) by (rewrite combine_length; lia).
  cbn [length] in *. rewrite Lc in *. split; [exact Hly|].
  cbn [update_params t_init next_rng_key option_map snd] in H0. rewrite Hi in H0. cbn [snd] in H0.
  assert (Hc : forall t x, nth_error (x0 :: xs) t = Some x -> exists tp, nth_error (tp0 :: tps) t = Some tp).
  { intros t x Hx. destruct (nth_error (tp0 :: tps) t) eqn:E; eauto. exfalso. apply nth_error_None in E.
    assert (t < length (x0 :: xs)) by (apply nth_error_Some; congruence). cbn in *. lia. }
  assert (Hcomb : forall t tp x, nth_error (tp0 :: tps) t = Some tp -> nth_error (x0 :: xs) t = Some x ->
    nth_error ((tp0, x0) :: combine tps xs) t = Some (tp, x)).
  { change ((tp0, x0) :: combine tps xs) with (combine (tp0 :: tps) (x0 :: xs)). clear.
    generalize (tp0 :: tps) (x0 :: xs). induction l as [|a l IH]; intros [|b l'] [|t] tp x H1 H2; try discriminate.
    - cbn in *. congruence.
    - cbn in *. apply IH; auto. }
  assert (Hnon : forall t, t <= length (x0 :: xs) -> fst (st t) = snd (partition pred p0)).
  { induction t as [|t IH]; intros Hle; [rewrite H0; reflexivity|].
    destruct (nth_error (x0 :: xs) t) as [x|] eqn:E.
    - destruct (Hc t x E) as [tp Htp]. destruct (Ht t (tp, x) (Hcomb _ _ _ Htp E)) as (y & _ & Ha & _).
      cbn [update_params t_apply fst snd] in Ha. destruct (st t) as [n s] eqn:Es. destruct (t_apply func (merge tp n) s None x) as [r s'].
      change (1 + t) with (Datatypes.S t) in Ha.
      assert (E2 : st (Datatypes.S t) = (n, s')) by congruence. rewrite E2. cbn [fst] in IH |- *. apply IH. lia.
    - apply nth_error_None in E. lia. }
  exists (fun t => snd (st t)). split; [rewrite H0; reflexivity|]. split.
  - rewrite <- HF. rewrite (surjective_pairing (st _)) at 1. f_equal. apply Hnon. cbn. lia.
  - intros t tp x Htp Hx. destruct (Ht t (tp, x) (Hcomb _ _ _ Htp Hx)) as (y & Hy & Ha & _).
    exists y. split; [exact Hy|].
    assert (Hn : fst (st t) = snd (partition pred p0)).
    { apply Hnon. assert (t < length (x0 :: xs)) by (apply nth_error_Some; congruence). lia. }
    cbn [update_params t_apply fst snd] in Ha. destruct (st t) as [n s] eqn:Es. cbn in Hn. subst n. cbn [snd].
    destruct (t_apply func _ s None x) as [r s'].
    change (1 + t) with (Datatypes.S t) in *. 
    assert (E2 : snd (st (Datatypes.S t)) = s') by (replace (st (Datatypes.S t)) with (snd (y, st (Datatypes.S t))) by reflexivity; rewrite <- Ha; reflexivity).
    rewrite E2. congruence.
Qed.

(** *** OnlineOptimizer *)
Lemma fill_spec fm g : fill fm g = each_entry (made_finite fm) g.
Proof. reflexivity. Qed.

Lemma apply_updates_moved p u : moved p u (apply_updates p u).
Proof.
  unfold moved, apply_updates. split; [rewrite map_map; reflexivity|].
  intros key v d Hp Hu Hl. exists (map (fun ab => fadd (fst ab) (snd ab)) (combine v d)). split; [|split].
  - revert Hp. induction p as [|[k a] r IH]; cbn [get map fst snd]; [discriminate|].
    destruct (pkey_eqb key k) eqn:E.
    + intros Ha. assert (a = v) by congruence. subst a.
      assert (key = k); [|subst k; rewrite Hu; reflexivity].
      unfold pkey_eqb in E. apply andb_prop in E. destruct E as [E1 E2].
      apply String.eqb_eq in E1, E2. destruct key, k; cbn in *; congruence.
    + intros Hp. apply IH, Hp.
  - rewrite map_length, combine_length. lia.
  - clear Hp Hu Hl. revert d. induction v as [|x v IH]; intros [|y d] [|i] a b H1 H2; cbn in *; try discriminate.
    + congruence.
    + apply IH; auto.
Qed.

Section Online.
  Context {K S X Info OS : Type} (split : K -> K * K) (fm : R)
    (model : transformed K (pmap array) S X (fl * Info)) (opt : gradient_transformation OS array)
    (project_params : option (pmap array -> pmap array)) (regularize_loss : option (pmap array -> fl))
    (pred : pkey -> array -> bool) (return_params : bool)
    (grad : (pmap array -> fl) -> pmap array -> pmap array).
  Let OO := OnlineOptimizer split fm model opt project_params regularize_loss pred return_params grad.

  Lemma oo_run k x0 xs p0 s0 : t_init model (Some (snd (split k))) x0 = (p0, s0) ->
    exists outs sF, unroll split OO false (Some k) None None (x0 :: xs) = Some (outs, sF) /\
    length outs = length (x0 :: xs) /\ oo_step sF = length (x0 :: xs) /\
    exists (tp : nat -> pmap array) (ms : nat -> S) (os : nat -> OS),
      tp 0 = fst (partition pred p0) /\ ms 0 = s0 /\ os 0 = opt_init opt (tp 0) /\
      non_trainable_params sF = snd (partition pred p0) /\
      trainable_params sF = tp (length (x0 :: xs)) /\ model_state sF = ms (length (x0 :: xs)) /\
      opt_state sF = os (length (x0 :: xs)) /\
      forall t x, nth_error (x0 :: xs) t = Some x -> exists l info,
        t_apply model (merge (tp t) (snd (partition pred p0))) (ms t) None x = ((l, info), ms (1 + t)) /\
        nth_error outs t = Some (OptInfo
          (match regularize_loss with Some reg => fadd l (reg (tp t)) | None => l end) info
          (if return_params then Some (merge (tp (1 + t)) (snd (partition pred p0))) else None)) /\
        let total_loss := fun q : pmap array =>
          let lq := fst (fst (t_apply model (merge q (snd (partition pred p0))) (ms t) None x)) in
          match regularize_loss with Some reg => fadd lq (reg q) | None => lq end in
        exists u q, opt_update opt (each_entry (made_finite fm) (grad total_loss (tp t))) (os t) = (u, os (1 + t)) /\
          moved (tp t) u q /\
          tp (1 + t) = match project_params with Some proj => proj q | None => q end.
  Proof.
    intros Hi.
    destruct (unroll_total_trace split OO (Some k) x0 xs) as (ys & sF & Hr & Hly & st & key & H0 & Hk0 & HF & Ht).
    exists ys, sF. split; [exact Hr|]. split; [exact Hly|].
    assert (H0' : st 0 = oo_init split model opt pred (Some k) x0) by exact H0.
    unfold oo_init in H0'. cbn [next_rng_key option_map] in H0'. rewrite Hi in H0'.
    assert (Hinv : forall t, t <= length (x0 :: xs) ->
       non_trainable_params (st t) = snd (partition pred p0) /\ oo_step (st t) = t).
    { induction t as [|t IH]; intros Hle; [rewrite H0'; split; reflexivity|].
      destruct (nth_error (x0 :: xs) t) as [x|] eqn:E; [|apply nth_error_None in E; lia].
      destruct (Ht t x E) as (y & _ & Ha & _). destruct IH as [IH1 IH2]; [lia|].
      change (oo_step_fn fm model opt project_params regularize_loss return_params grad (st t) x = (y, st (1 + t))) in Ha.
      unfold oo_step_fn in Ha. destruct (oo_loss _ _ _ _ x (trainable_params (st t))) as [l [[info pp] s']].
      destruct (optax_optimizer opt _ _ _) as [tp os].
      change (1 + t) with (Datatypes.S t) in Ha.
      assert (E2 : st (Datatypes.S t) = OOState (match project_params with Some proj => proj tp | None => tp end)
        (non_trainable_params (st t)) s' (oo_step (st t) + 1) os) by congruence.
      rewrite E2. cbn [non_trainable_params oo_step]. rewrite IH1, IH2. split; auto. lia. }
    split. { rewrite <- HF. destruct (Hinv _ (le_n _)) as [_ E]. exact E. }
    exists (fun t => trainable_params (st t)), (fun t => model_state (st t)), (fun t => opt_state (st t)).
    split; [rewrite H0'; reflexivity|]. split; [rewrite H0'; reflexivity|]. split; [rewrite H0'; reflexivity|].
    split. { rewrite <- HF. destruct (Hinv _ (le_n _)) as [E _]. exact E. }
    split; [rewrite HF; reflexivity|]. split; [rewrite HF; reflexivity|]. split; [rewrite HF; reflexivity|].
    intros t x Hx. destruct (Ht t x Hx) as (y & Hy & Ha & _).
    assert (Hlt : t < length (x0 :: xs)) by (apply nth_error_Some; congruence).
    destruct (Hinv t) as [Hn _]; [lia|].
    change (oo_step_fn fm model opt project_params regularize_loss return_params grad (st t) x = (y, st (1 + t))) in Ha.
    unfold oo_step_fn in Ha. rewrite Hn in Ha. unfold oo_loss in Ha at 1.
    destruct (t_apply model (merge (trainable_params (st t)) (snd (partition pred p0))) (model_state (st t)) None x)
      as [[l info] s'] eqn:Em.
    set (total_loss := fun q : pmap array =>
          let lq := fst (fst (t_apply model (merge q (snd (partition pred p0))) (model_state (st t)) None x)) in
          match regularize_loss with Some reg => fadd lq (reg q) | None => lq end).
    assert (EL : (fun tp : pmap array => fst (oo_loss model regularize_loss (snd (partition pred p0)) (model_state (st t)) x tp)) = total_loss).
    { apply functional_extensionality. intros q. unfold oo_loss, total_loss.
      destruct (t_apply model (merge q (snd (partition pred p0))) (model_state (st t)) None x) as [[lq iq] sq].
      destruct regularize_loss; reflexivity. }
    rewrite EL in Ha. clear EL. unfold optax_optimizer in Ha. rewrite fill_spec in Ha.
    destruct (opt_update opt (each_entry (made_finite fm) (grad total_loss (trainable_params (st t)))) (opt_state (st t))) as [u os] eqn:Eu.
    set (tp := apply_updates (trainable_params (st t)) u) in *. exists l, info.
    set (tp' := match project_params with Some proj => proj tp | None => tp end) in *.
    assert (E2 : st (1 + t) = OOState tp' (snd (partition pred p0)) s' (oo_step (st t) + 1) os) by congruence.
    split; [rewrite E2; reflexivity|]. split; [rewrite Hy, E2; cbn [trainable_params]; congruence|].
    exists u, tp. rewrite E2. cbn [opt_state trainable_params]. split; [exact Eu|]. split; [apply apply_updates_moved|reflexivity].
  Qed.

  (** non-trainable parameters are constant in every output *)
  Lemma oo_non_trainable k x0 xs p0 s0 outs sF :
    t_init model (Some (snd (split k))) x0 = (p0, s0) -> NoDup (map fst p0) ->
    unroll split OO false (Some k) None None (x0 :: xs) = Some (outs, sF) ->
    forall t o q key v, nth_error outs t = Some o -> out_params o = Some q ->
      get key p0 = Some v -> pred key v = false -> get key q = Some v.
  Proof.
    intros Hi Hn Hr t o q key v Ho Hq Hk Hp.
    destruct (oo_run k x0 xs p0 s0 Hi) as (outs' & sF' & Hr' & Hl & _ & tp & ms & os & _ & _ & _ & _ & _ & _ & _ & Ht).
    assert (outs' = outs) by congruence. subst outs'.
    destruct (nth_error (x0 :: xs) t) as [x|] eqn:E.
    - destruct (Ht t x E) as (l & info & _ & Ho' & _). rewrite Ho in Ho'.
      assert (Eo : o = OptInfo (match regularize_loss with Some reg => fadd l (reg (tp t)) | None => l end) info
          (if return_params then Some (merge (tp (1 + t)) (snd (partition pred p0))) else None)) by congruence.
      rewrite Eo in Hq. cbn [out_params] in Hq. destruct return_params; [|discriminate].
      assert (Eq : q = merge (tp (1 + t)) (snd (partition pred p0))) by congruence.
      rewrite Eq. apply get_merge_right; [apply filter_nodup; auto|].
      pose proof (partition_disjoint_union pred p0 Hn) as Hpart.
      destruct (partition pred p0) as [a b]. destruct Hpart as [_ Hpart].
      destruct (Hpart key v Hk) as [[E1 _]|[_ [_ E2]]]; [congruence|exact E2].
    - apply nth_error_None in E. assert (t < length outs) by (apply nth_error_Some; congruence). lia.
  Qed.
End Online.

(** the optimiser only receives finite gradients: optimisers that agree on these give the same run *)
Lemma oo_finite_grads {K S X Info OS : Type} (split : K -> K * K) (fm : R)
    (model : transformed K (pmap array) S X (fl * Info)) (opt opt' : gradient_transformation OS array)
    project_params regularize_loss (pred : pkey -> array -> bool) (return_params : bool) grad rng params state xs :
  (forall p, opt_init opt p = opt_init opt' p) ->
  (forall g os, Forall (fun kv => Forall (fun v => isfinite v = true) (snd kv)) g ->
     opt_update opt g os = opt_update opt' g os) ->
  unroll split (OnlineOptimizer split fm model opt project_params regularize_loss pred return_params grad)
    false rng params state xs =
  unroll split (OnlineOptimizer split fm model opt' project_params regularize_loss pred return_params grad)
    false rng params state xs.
Proof.
  intros Hi Hu.
  assert (Es : forall st x,
    oo_step_fn fm model opt project_params regularize_loss return_params grad st x =
    oo_step_fn fm model opt' project_params regularize_loss return_params grad st x).
  { intros st x. unfold oo_step_fn, optax_optimizer.
    destruct (oo_loss _ _ _ _ x (trainable_params st)) as [l [[info pp] s']]. rewrite Hu; [reflexivity|].
    unfold fill. apply Forall_forall. intros kv Hkv. apply in_map_iff in Hkv. destruct Hkv as (kv' & <- & _).
    apply Forall_forall. cbn. intros v Hv. apply in_map_iff in Hv. destruct Hv as (w & <- & _). destruct w; reflexivity. }
  assert (Ei : forall rng x, oo_init split model opt pred rng x = oo_init split model opt' pred rng x).
  { intros r x. unfold oo_init. destruct (t_init model _ x) as [p s]. destruct (partition pred p) as [a b]. rewrite Hi. reflexivity. }
  destruct xs as [|x0 xs]; [reflexivity|].
  unfold unroll, unroll_init. cbn [t_init OnlineOptimizer]. rewrite <- Ei.
  assert (El : forall p xs c, 
    lax_scan (scan_f split (OnlineOptimizer split fm model opt project_params regularize_loss pred return_params grad) p) c xs =
    lax_scan (scan_f split (OnlineOptimizer split fm model opt' project_params regularize_loss pred return_params grad) p) c xs).
  { intros p l. induction l as [|x l IH]; intros c; [reflexivity|]. cbn [lax_scan]. destruct c as [s r].
    assert (E1 : scan_f split (OnlineOptimizer split fm model opt project_params regularize_loss pred return_params grad) p (s, r) x =
      scan_f split (OnlineOptimizer split fm model opt' project_params regularize_loss pred return_params grad) p (s, r) x).
    { unfold scan_f. cbn [OnlineOptimizer t_apply]. destruct r; rewrite <- Es; reflexivity. }
    rewrite E1. match goal with |- context [scan_f split ?m p (s, r) x] => destruct (scan_f split m p (s, r) x) as [c1 y] end. rewrite IH. reflexivity. }
  unfold unroll_apply. rewrite El. reflexivity.
Qed.

(** *** FuncOptimizer *)
Section Func.
  Context {K S X Aux OS : Type} (split : K -> K * K) (has_state : S -> bool)
    (func : transformed K (pmap array) S X (fl * Aux))
    (opt : OS -> pmap array -> pmap array -> pmap array * OS) (opt0 : pmap array -> OS)
    (pred : pkey -> array -> bool) (fillg : bool)
    (grad : (pmap array -> fl) -> pmap array -> pmap array).

  Lemma fo_init_spec k x p1 s1 p2 s2 :
    t_init func (Some (snd (split k))) x = (p1, s1) ->
    t_init func (Some (snd (split (fst (split k))))) x = (p2, s2) ->
    fo_init split has_state func opt0 pred (Some k) x =
    if has_state s1 then None else
    Some (FOState (fst (partition pred p1)) (snd (partition pred p2), s2) (opt0 (fst (partition pred p1)))).
  Proof.
    intros H1 H2. unfold fo_init, get_init_params, update_params. cbn [next_rng_key option_map t_init snd].
    rewrite H1. destruct (has_state s1); [reflexivity|]. rewrite H2. reflexivity.
  Qed.

  Lemma fo_step_spec st x res aux tp st' :
    fo_step split func opt pred fillg grad st x = ((res, aux, tp), st') ->
    (exists s', t_apply func (merge (fo_trainable st) (fst (fo_update st))) (snd (fo_update st)) None x = ((res, aux), s')
       /\ fo_update st' = (fst (fo_update st), s')) /\
    fo_trainable st' = tp /\
    let value := fun q : pmap array => fst (fst (t_apply func (merge q (fst (fo_update st))) (snd (fo_update st)) None x)) in
    let g := grad value (fo_trainable st) in
    opt (fo_opt st) (fo_trainable st) (if fillg then each_entry zeroed g else g) = (tp, fo_opt st').
  Proof.
    unfold fo_step. cbn [update_params t_apply fst snd]. destruct (fo_update st) as [n s]. cbn [fst snd].
    destruct (t_apply func (merge (fo_trainable st) n) s None x) as [[r a] s'] eqn:E.
    set (value := fun q : pmap array => fst (fst (t_apply func (merge q n) s None x))).
    match goal with |- context [grad ?f] => assert (EL : f = value) end.
    { apply functional_extensionality. intros q. unfold value. destruct (t_apply func (merge q n) s None x); reflexivity. }
    rewrite EL. clear EL.
    assert (Ez : forall g, map (fun kv : pkey * array => (fst kv, map (nan_to_num (Fin 0%R) (Fin 0%R) (Fin 0%R)) (snd kv))) g = each_entry zeroed g).
    { intros g. unfold each_entry. apply map_ext. intros kv. f_equal. }
    rewrite Ez. clear Ez.
    destruct (opt _ _ _) as [tp' os] eqn:Eo. intros H.
    assert (Est : st' = FOState tp' (n, s') os) by congruence. subst st'.
    assert (res = r) by congruence. assert (aux = a) by congruence. assert (tp = tp') by congruence. subst.
    split; [|split; [reflexivity|]].
    - exists s'. split; reflexivity.
    - reflexivity.
  Qed.
End Func.
