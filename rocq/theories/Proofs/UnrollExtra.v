From Coq Require Import List Arith Lia.
From Verif Require Import Model.Tree Model.Unroll Model.Batch Spec.TreeSpec Spec.BatchSpec
  Proofs.ListFacts Proofs.UnrollProofs Proofs.TreeProofs Proofs.BatchProofs.
Import ListNotations.

Section E.
  Context {K P S X Y : Type}.
  Implicit Types (split : K -> K * K) (tf : transformed K P S X Y).

  Lemma unroll_total_trace split tf rng x0 xs :
    exists (ys : list Y) (sF : S),
    unroll split tf false rng None None (x0 :: xs) = Some (ys, sF) /\
    length ys = length (x0 :: xs) /\
    exists (st : nat -> S) (key : nat -> option K),
      st 0 = snd (t_init tf rng x0) /\ key 0 = rng /\ st (length (x0 :: xs)) = sF /\
      forall t x, nth_error (x0 :: xs) t = Some x ->
        exists y, nth_error ys t = Some y /\
          t_apply tf (fst (t_init tf rng x0)) (st t)
            (option_map (fun k => snd (split k)) (key t)) x = (y, st (1 + t)) /\
          key (1 + t) = option_map (fun k => fst (split k)) (key t).
  Proof.
    rewrite unroll_unfold.
    destruct (unroll_apply split tf false _ _ rng (x0 :: xs)) as [ys sF] eqn:E.
    exists ys, sF. split; auto. eapply unroll_apply_trace; exact E.
  Qed.

  Lemma unroll_resume' split tf params state x0 xs y0 ys p1 o1 s1 o2 s2 :
    p1 = match params with Some p => p | None => fst (t_init tf None x0) end ->
    unroll split tf false None params state (x0 :: xs) = Some (o1, s1) ->
    unroll split tf false None (Some p1) (Some s1) (y0 :: ys) = Some (o2, s2) ->
    unroll split tf false None params state ((x0 :: xs) ++ (y0 :: ys)) = Some (o1 ++ o2, s2).
  Proof.
    intros Hp H1 H2. eapply unroll_resume; eauto; [congruence|].
    destruct params; [left; congruence|right]. split; auto. exists x0, xs; auto.
  Qed.

  Lemma unroll_skip_first split tf rng params state x0 x1 xs :
    unroll split tf true rng params state (x0 :: x1 :: xs) =
    unroll split tf false rng
      (Some (match params with Some p => p | None => fst (t_init tf rng x0) end))
      (Some (match state with Some s => s | None => snd (t_init tf rng x0) end)) (x1 :: xs)
    /\ forall ys sF, unroll split tf true rng params state (x0 :: x1 :: xs) = Some (ys, sF) ->
       length ys = length (x1 :: xs).
  Proof.
    rewrite unroll_skip, unroll_unfold. split; [reflexivity|].
    intros ys sF H; injection H as H. apply unroll_apply_trace in H. tauto.
  Qed.

  Lemma unroll_override_each split tf skip rng params state x0 xs :
    let init' := fun k x =>
      (match params with Some p => p | None => fst (t_init tf k x) end,
       match state with Some s => s | None => snd (t_init tf k x) end) in
    unroll split tf skip rng params state (x0 :: xs) =
    unroll split (Transformed init' (t_apply tf)) skip rng None None (x0 :: xs).
  Proof.
    intros init'. rewrite !unroll_unfold. cbn [t_init]. unfold init'. cbn [fst snd].
    destruct params, state; reflexivity.
  Qed.

  Lemma unroll_override_both split tf (init' : option K -> X -> P * S) skip rng p s xs :
    unroll split tf skip rng (Some p) (Some s) xs =
    unroll split (Transformed init' (t_apply tf)) skip rng (Some p) (Some s) xs.
  Proof. destruct xs as [|x0 xs]; [reflexivity|]. rewrite !unroll_unfold. reflexivity. Qed.

  Lemma fori_same_key tf split nan_out (skip : bool) k params state (xs : list X) :
    (if skip then tl xs else xs) <> [] ->
    dynamic_unroll_fori_loop tf nan_out skip (Some k) params state xs =
    unroll split (Transformed (t_init tf) (fun p s _ x => t_apply tf p s (Some k) x))
      skip (Some k) params state xs.
  Proof.
    intros H. rewrite <- (fori_eq_scan split _ nan_out); auto.
  Qed.

  (** gym_static_unroll *)
  Lemma gym_loop_spec tf seq p : forall obs s n acc,
    exists ys sF, gym_loop tf seq p s n (Some acc) obs = (Some (acc ++ ys), sF) /\
      length ys = length obs /\
      exists st : nat -> S, st 0 = s /\ st (length obs) = sF /\
        forall t o, nth_error obs t = Some o -> exists y, nth_error ys t = Some y /\
          t_apply tf p (st t) (Some (seq (n + t))) o = (y, st (1 + t)).
  Proof.
    induction obs as [|o obs IH]; intros s n acc.
    - exists [], s. rewrite app_nil_r. split; auto. split; auto. exists (fun _ => s).
      repeat split; auto. intros [|t] o H; discriminate.
    - cbn [gym_loop]. destruct (t_apply tf p s (Some (seq n)) o) as [y s'] eqn:E.
      destruct (IH s' (Datatypes.S n) (acc ++ [y])) as (ys & sF & H1 & H2 & st & H3 & H4 & H5).
      exists (y :: ys), sF. rewrite H1, <- app_assoc. split; auto.
      split; [cbn; congruence|].
      exists (fun t => match t with O => s | Datatypes.S t' => st t' end).
      repeat split; auto. intros [|t] o' H.
      + cbn in H; injection H as <-. exists y. rewrite Nat.add_0_r, E. cbn. rewrite H3; auto.
      + cbn in H. destruct (H5 t o' H) as (y' & Hy & Ha). exists y'. split; auto.
        replace (n + Datatypes.S t) with (Datatypes.S n + t) by lia. exact Ha.
  Qed.

  Lemma gym_static_skip tf seq params state o0 o1 obs :
    exists ys sF,
    gym_static_unroll tf seq true params state (o0 :: o1 :: obs) = Some (ys, sF) /\
    length ys = length (o1 :: obs) /\
    exists st : nat -> S,
      st 0 = (match state with Some s => s | None => snd (t_init tf (Some (seq 0)) o0) end) /\
      st (length (o1 :: obs)) = sF /\
      forall t o, nth_error (o1 :: obs) t = Some o -> exists y, nth_error ys t = Some y /\
        t_apply tf (match params with Some p => p | None => fst (t_init tf (Some (seq 0)) o0) end)
          (st t) (Some (seq (1 + t))) o = (y, st (1 + t)).
  Proof.
    unfold gym_static_unroll. destruct (t_init tf (Some (seq 0)) o0) as [p0 s0]. cbn [fst snd].
    set (p := match params with None => p0 | Some p => p end).
    set (s := match state with None => s0 | Some s => s end).
    replace (match params with Some p => p | None => p0 end) with p by (destruct params; auto).
    replace (match state with Some s => s | None => s0 end) with s by (destruct state; auto).
    destruct (gym_loop_spec tf seq p (o1 :: obs) s 1 []) as (ys & sF & H1 & H2 & H3).
    assert (E : gym_loop tf seq p s 1 None (o1 :: obs) = gym_loop tf seq p s 1 (Some []) (o1 :: obs))
      by reflexivity.
    rewrite E, H1. cbn [app]. exists ys, sF. split; auto.
    destruct ys; [discriminate|reflexivity].
  Qed.

  Lemma gym_static_noskip tf seq params state o0 o1 obs :
    exists ys sF,
    gym_static_unroll tf seq false params state (o0 :: o1 :: obs) = Some (ys, sF) /\
    length ys = length (o1 :: obs) /\
    exists st : nat -> S,
      st 0 = (match state with Some s => s | None => snd (t_init tf (Some (seq 0)) o0) end) /\
      st (length (o0 :: o1 :: obs)) = sF /\
      forall t o, nth_error (o0 :: o1 :: obs) t = Some o -> exists y,
        (match t with O => True | Datatypes.S t' => nth_error ys t' = Some y end) /\
        t_apply tf (match params with Some p => p | None => fst (t_init tf (Some (seq 0)) o0) end)
          (st t) (Some (seq (1 + t))) o = (y, st (1 + t)).
  Proof.
    unfold gym_static_unroll. destruct (t_init tf (Some (seq 0)) o0) as [p0 s0]. cbn [fst snd].
    set (p := match params with None => p0 | Some p => p end).
    set (s := match state with None => s0 | Some s => s end).
    replace (match params with Some p => p | None => p0 end) with p by (destruct params; auto).
    replace (match state with Some s => s | None => s0 end) with s by (destruct state; auto).
    destruct (t_apply tf p s (Some (seq 1)) o0) as [y0 s1] eqn:E0.
    destruct (gym_loop_spec tf seq p (o1 :: obs) s1 2 []) as (ys & sF & H1 & H2 & st & H3 & H4 & H5).
    rewrite H1. cbn [app]. exists ys, sF. split.
    { destruct ys; [discriminate|reflexivity]. }
    split; auto.
    exists (fun t => match t with O => s | Datatypes.S t' => st t' end).
    repeat split; auto. intros [|t] o H.
    - cbn in H; injection H as <-. exists y0. cbn. rewrite E0, H3; auto.
    - cbn in H. destruct (H5 t o H) as (y & Hy & Ha). exists y. split; auto.
  Qed.

  (** batches *)
  Lemma column_values {A} n i (rows : list (list A)) :
    i < n -> (forall r, In r rows -> length r = n) -> exists l, column i rows = map Some l.
  Proof.
    intros Hi. induction rows as [|r rows IH]; intros H.
    - exists []; reflexivity.
    - destruct IH as [l Hl]. { intros; apply H; right; auto. }
      destruct (nth_error_lt r i) as [a Ha]. { rewrite (H r); auto; left; auto. }
      exists (a :: l). unfold column in *; cbn. rewrite Ha, Hl. reflexivity.
  Qed.

  Lemma batch_lane_unroll split (splitn : nat -> K -> list K) tf (split_rng : bool) (n : nat) ps :
    (forall n k, length (splitn n k) = n) ->
    forall xss ss rng yss sF,
    length ss = n -> (forall xs, In xs xss -> length xs = n) ->
    batch_scan split splitn tf split_rng ps ss rng xss = Some (yss, sF) ->
    forall i p s, nth_error ps i = Some p -> nth_error ss i = Some s ->
    forall xi, column i xss = map Some xi ->
    forall yi sFi,
    unroll_apply split (lane_module split splitn tf split_rng n i) false p s rng xi = (yi, sFi) ->
    column i yss = map Some yi /\ nth_error sF i = Some sFi.
  Proof.
    intros Hn xss ss rng yss sF L Hr H i p s Hp Hs xi Hx yi sFi. rewrite unroll_apply_eq.
    pose proof (batch_scan_lane split splitn tf split_rng n ps Hn xss ss rng yss sF L Hr H i p s Hp Hs xi Hx) as G.
    destruct (lax_scan _ (s, rng) xi) as [c y]. cbn. intros E; injection E as <- <-. exact G.
  Qed.

  Lemma batch_noninterference split (splitn : nat -> K -> list K) tf
    (split_rng : bool) (n i : nat) ps ps' ss ss' rng xss xss' yss sF yss' sF' :
    (forall n k, length (splitn n k) = n) ->
    i < n -> length ps = n -> length ps' = n -> length ss = n -> length ss' = n ->
    (forall xs, In xs xss -> length xs = n) -> (forall xs, In xs xss' -> length xs = n) ->
    nth_error ps i = nth_error ps' i -> nth_error ss i = nth_error ss' i ->
    column i xss = column i xss' ->
    batch_scan split splitn tf split_rng ps ss rng xss = Some (yss, sF) ->
    batch_scan split splitn tf split_rng ps' ss' rng xss' = Some (yss', sF') ->
    column i yss = column i yss' /\ nth_error sF i = nth_error sF' i.
  Proof.
    intros Hn Hi L1 L2 L3 L4 Hr Hr' Hp Hs Hc H1 H2.
    destruct (nth_error_lt ps i ltac:(lia)) as [p Ep].
    destruct (nth_error_lt ss i ltac:(lia)) as [s Es].
    destruct (column_values n i xss Hi Hr) as [xi Hxi].
    pose proof (batch_scan_lane split splitn tf split_rng n ps Hn xss ss rng yss sF L3 Hr H1 i p s Ep Es xi Hxi) as G1.
    rewrite Hp in Ep; rewrite Hs in Es; rewrite Hc in Hxi.
    pose proof (batch_scan_lane split splitn tf split_rng n ps' Hn xss' ss' rng yss' sF' L4 Hr' H2 i p s Ep Es xi Hxi) as G2.
    destruct (lax_scan _ (s, rng) xi) as [c yi]. intuition congruence.
  Qed.

  Lemma vmap_init_lane split (splitn : nat -> K -> list K) tf xs i x k :
    (forall n k, length (splitn n k) = n) -> nth_error xs i = Some x ->
    (exists l, vmap_init split splitn tf false true (Some k) xs = Some l /\
       nth_error l i = Some (t_init tf (Some (snd (split k))) x)) /\
    (exists l ki, vmap_init split splitn tf true true (Some k) xs = Some l /\
       nth_error (splitn (length xs) (snd (split k))) i = Some ki /\
       nth_error l i = Some (t_init tf (Some ki) x)) /\
    (exists l, vmap_init split splitn tf false false None xs = Some l /\
       nth_error l i = Some (t_init tf None x)) /\
    vmap_init split splitn tf false true None xs = None /\
    vmap_init split splitn tf true true None xs = None.
  Proof.
    intros Hn Hx. cbn. repeat split.
    - eexists; split; [reflexivity|]. rewrite nth_error_map, Hx; reflexivity.
    - destruct (nth_error_lt (splitn (length xs) (snd (split k))) i) as [ki Hki].
      { rewrite Hn. apply nth_error_Some; congruence. }
      eexists; exists ki; split; [reflexivity|]. split; auto.
      rewrite nth_error_map.
      assert (G : forall (ks : list K) (xs : list X) i, nth_error ks i = Some ki -> nth_error xs i = Some x ->
                nth_error (combine ks xs) i = Some (ki, x)).
      { clear. induction ks as [|a ks IH]; intros [|b xs] [|i] H1 H2; cbn in *; try discriminate;
        [congruence|auto]. }
      rewrite (G _ _ _ Hki Hx). reflexivity.
    - eexists; split; [reflexivity|]. rewrite nth_error_map, Hx; reflexivity.
  Qed.
End E.

Lemma unroll_static_empty' {K P S A B} (split : K -> K * K) (tf : transformed K P S (tree A) (tree B))
  rng po so xs x0 :
  slices xs [x0] ->
  unroll_static split tf true rng po so xs = None /\
  exists sF, unroll split tf true rng po so [x0] = Some ([], sF).
Proof.
  intros H. split; [eapply unroll_static_empty; eauto|].
  rewrite unroll_skip. cbn. eauto.
Qed.

(** Witness module: outputs its key. *)
Definition key_module : transformed nat unit unit nat (option nat) :=
  Transformed (fun _ _ => (tt, tt)) (fun _ _ k _ => (k, tt)).

Lemma unroll_resume_rng_refuted :
  exists (split : nat -> nat * nat) (tf : transformed nat unit unit nat (option nat))
         (k : nat) (xs ys : list nat) o1 s1 o2 s2 o s,
    unroll split tf false (Some k) None None xs = Some (o1, s1) /\
    unroll split tf false (Some k) (Some tt) (Some s1) ys = Some (o2, s2) /\
    unroll split tf false (Some k) None None (xs ++ ys) = Some (o, s) /\
    o <> o1 ++ o2.
Proof.
  exists (fun k => (2 * k, 2 * k + 1)), key_module, 1, [0], [0].
  do 6 eexists. split; [reflexivity|]. split; [reflexivity|]. split; [reflexivity|]. cbn. congruence.
Qed.

Lemma fori_rng_refuted :
  exists (split : nat -> nat * nat) (tf : transformed nat unit unit nat (option nat))
         (k : nat) (xs : list nat),
    xs <> [] /\
    dynamic_unroll_fori_loop tf None false (Some k) None None xs <>
    unroll split tf false (Some k) None None xs.
Proof.
  exists (fun k => (2 * k, 2 * k + 1)), key_module, 1, [0]. split; cbn; congruence.
Qed.

Lemma gym_static_refuted :
  exists (tf : transformed nat unit nat nat nat) (obs : list nat) ys sF,
    gym_static_unroll tf (fun n => n) false None None obs = Some (ys, sF) /\
    length ys <> length obs.
Proof.
  exists (Transformed (fun _ _ => (tt, 0)) (fun _ s _ x => (x, s + 1))), [1; 2; 3].
  do 2 eexists. split; [reflexivity|]. cbn; lia.
Qed.

Lemma transform_batch_trace {K P S X Y} (tf : transformed K P S X Y) (key key' : option K) xs
  (p : P) (s : S) ys stF :
  transform_batch_apply tf false (BatchState p s key) key' xs = (ys, stF) ->
  length ys = length xs /\ fun_params stF = p /\ rng_key stF = key /\
  exists st : nat -> S, st 0 = s /\ st (length xs) = fun_state stF /\
  forall t x, nth_error xs t = Some x ->
    exists y, nth_error ys t = Some y /\ t_apply tf p (st t) key x = (y, st (1 + t)).
Proof.
  unfold transform_batch_apply. rewrite batch_scan_f_eq.
  set (g := fun (s : S) (x : X) => (snd (t_apply tf p s key x), fst (t_apply tf p s key x))).
  pose proof (lax_scan_length g s xs) as Hl.
  destruct (lax_scan g s xs) as [sF o] eqn:E. intros H; injection H as <- <-.
  cbn in *. repeat split; auto.
  exists (fun t => scan_carry g s (firstn t xs)). repeat split; auto.
  - rewrite firstn_all. unfold scan_carry; rewrite E; reflexivity.
  - intros t x Hx. change (1 + t) with (Datatypes.S t).
    rewrite (firstn_snoc _ _ _ Hx), scan_carry_snoc.
    pose proof (lax_scan_nth g s xs t x Hx) as Hn. rewrite E in Hn. cbn in Hn.
    eexists; split; [exact Hn|]. apply surjective_pairing.
Qed.

Lemma transform_batch_run {K P S X Y} (tf : transformed K P S X Y) (key key' : option K) x0 xs :
  exists st0, transform_batch_init tf key (x0 :: xs) = Some st0 /\
  exists ys stF, transform_batch_apply tf false st0 key' (x0 :: xs) = (ys, stF) /\
  length ys = length (x0 :: xs) /\ fun_params stF = fst (t_init tf key x0) /\ rng_key stF = key /\
  exists st : nat -> S, st 0 = snd (t_init tf key x0) /\ st (length (x0 :: xs)) = fun_state stF /\
  forall t x, nth_error (x0 :: xs) t = Some x ->
    exists y, nth_error ys t = Some y /\ t_apply tf (fst (t_init tf key x0)) (st t) key x = (y, st (1 + t)).
Proof.
  unfold transform_batch_init. destruct (t_init tf key x0) as [p s]. cbn [fst snd].
  eexists. split; [reflexivity|].
  destruct (transform_batch_apply tf false (BatchState p s key) key' (x0 :: xs)) as [ys stF] eqn:E.
  exists ys, stF. split; auto. exact (transform_batch_trace tf key key' _ p s ys stF E).
Qed.

Lemma transform_batch_static_eq {K P S X Y} (tf : transformed K P S X Y) (skip : bool)
  (st : batch_state) (key : option K) (xs : list X) :
  (if skip then tl xs else xs) <> [] ->
  transform_batch_apply_static tf skip st (rng_key st) xs =
  Some (transform_batch_apply tf skip st key xs).
Proof.
  unfold transform_batch_apply_static, transform_batch_apply.
  destruct (if skip then tl xs else xs) as [|x r]; [congruence|]. intros _.
  destruct st as [p s k]. cbn [fun_params fun_state rng_key].
  destruct (lax_scan _ _ (x :: r)); reflexivity.
Qed.

Lemma transform_batch_key_refuted :
  exists (tf : transformed nat unit unit nat (option nat)) (st : batch_state) (key : option nat) xs,
    xs <> [] /\
    transform_batch_apply_static tf false st key xs <> Some (transform_batch_apply tf false st key xs).
Proof.
  exists key_module, (BatchState tt tt (Some 1)), (Some 2), [0]. split; cbn; congruence.
Qed.
