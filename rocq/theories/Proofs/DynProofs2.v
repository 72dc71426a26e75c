From Coq Require Import List Arith Lia Reals Lra Bool.
From Verif Require Import Model.Unroll Model.Float Model.Modules Model.Ewm Model.Dynamics
  Spec.SeriesSpec Spec.DynSpec Spec.EwmSpec Proofs.FloatFacts Proofs.ListFacts Proofs.UnrollProofs
  Proofs.RunFacts Proofs.BufferProofs Proofs.EwmcovProofs.
Import ListNotations.

(** *** UpdateOnEvent *)
Section UOE.
  Context {K P S X Y : Type} (split : K -> K * K) (full_like : Y -> Y) (tf : transformed K P S X Y).
  Let U := update_on_event full_like tf.

  Lemma drive_app p kxs1 kxs2 : forall s,
    drive tf p s (kxs1 ++ kxs2) =
    (fst (drive tf p s kxs1) ++ fst (drive tf p (snd (drive tf p s kxs1)) kxs2),
     snd (drive tf p (snd (drive tf p s kxs1)) kxs2)).
  Proof.
    induction kxs1 as [|[k x] r IH]; intros s.
    - cbn [app drive fst snd]. apply surjective_pairing.
    - cbn [app drive]. destruct (t_apply tf p s k x) as [y s']. rewrite IH.
      destruct (drive tf p s' r). reflexivity.
  Qed.

  Lemma uoe_scan p : forall exs prev s rng,
    let r := lax_scan (scan_f split U p) ((prev, s), rng) exs in
    let evs := event_calls (step_keys split rng (length exs)) exs in
    snd (fst (fst r)) = snd (drive tf p s evs) /\
    fst (fst (fst r)) = last (fst (drive tf p s evs)) prev /\
    length (snd r) = length exs /\
    forall t, t < length exs ->
      nth_error (snd r) t = Some (last (fst (drive tf p s
        (event_calls (step_keys split rng (t + 1)) (firstn (t + 1) exs)))) prev).
  Proof.
    induction exs as [|[e x] exs IH]; intros prev s rng; cbv zeta.
    - cbn. split; [auto|]. split; [auto|]. split; [auto|]. intros; lia.
    - cbn [lax_scan length step_keys event_calls].
      set (rng' := option_map (fun k => fst (split k)) rng).
      set (sub := option_map (fun k => snd (split k)) rng).
      destruct (t_apply tf p s sub x) as [y s'] eqn:E.
      assert (EU : scan_f split U p ((prev, s), rng) (e, x) =
        (((if e then (y, s') else (prev, s)), rng'), if e then y else prev)).
      { unfold scan_f.
        replace (match rng with Some k => let '(a, b) := split k in (Some a, Some b) | None => (None, None) end)
          with (rng', sub) by (unfold rng', sub; destruct rng as [k|]; cbn; [destruct (split k)|]; auto).
        unfold U, update_on_event; cbn [t_apply fst snd]; rewrite E; destruct e; auto. }
      rewrite !EU. clear EU. destruct e.
      + specialize (IH y s' rng'). cbv zeta in IH.
        destruct (lax_scan (scan_f split U p) (y, s', rng') exs) as [c2 ys] eqn:EL.
        cbn [fst snd] in *. destruct IH as (I1 & I2 & I3 & I4).
        cbn [drive]. rewrite E.
        destruct (drive tf p s' (event_calls (step_keys split rng' (length exs)) exs)) as [dy ds] eqn:D.
        cbn [fst snd] in *.
        assert (LA : forall l (a b : Y), last (a :: l) b = last l a).
        { clear. intros l; induction l as [|c l IH]; intros a b; auto.
          change (last (a :: c :: l) b) with (last (c :: l) b). rewrite (IH c b), (IH c a). auto. }
        split; [auto|]. split; [rewrite LA; auto|]. split; [cbn; lia|].
        intros [|t] Ht.
        * cbn. fold sub. rewrite E. reflexivity.
        * cbn [nth_error]. rewrite I4 by (cbn in Ht; lia).
          change (Datatypes.S t + 1) with (Datatypes.S (t + 1)). cbn [firstn step_keys event_calls drive].
          fold rng' sub. rewrite E.
          destruct (drive tf p s' (event_calls (step_keys split rng' (t + 1)) (firstn (t + 1) exs))).
          cbn [fst]. rewrite LA. reflexivity.
      + specialize (IH prev s rng'). cbv zeta in IH.
        destruct (lax_scan (scan_f split U p) (prev, s, rng') exs) as [c2 ys] eqn:EL.
        cbn [fst snd] in *. destruct IH as (I1 & I2 & I3 & I4).
        split; [auto|]. split; [auto|]. split; [cbn; lia|].
        intros [|t] Ht; [reflexivity|].
        cbn [nth_error]. rewrite I4 by (cbn in Ht; lia).
        change (Datatypes.S t + 1) with (Datatypes.S (t + 1)). cbn [firstn step_keys event_calls].
        reflexivity.
  Qed.

  Lemma uoe_unroll rng params state e0 x0 exs ys sF p s prev :
    p = match params with Some p => p | None => fst (t_init tf rng x0) end ->
    (prev, s) = match state with
                | Some st => st
                | None => let '(p0, s0) := t_init tf rng x0 in
                          (full_like (fst (t_apply tf p0 s0 rng x0)), s0)
                end ->
    unroll split (update_on_event full_like tf) false rng params state ((e0, x0) :: exs) =
      Some (ys, sF) ->
    let all := (e0, x0) :: exs in
    snd sF = snd (drive tf p s (event_calls (step_keys split rng (length all)) all)) /\
    length ys = length all /\
    forall t, t < length all ->
      nth_error ys t = Some (last (fst (drive tf p s
        (event_calls (step_keys split rng (t + 1)) (firstn (t + 1) all)))) prev).
  Proof.
    intros Hp Hs H all. unfold unroll, unroll_init in H. fold U in H.
    assert (HU : t_init U rng (e0, x0) = (fst (t_init tf rng x0),
       (full_like (fst (t_apply tf (fst (t_init tf rng x0)) (snd (t_init tf rng x0)) rng x0)), snd (t_init tf rng x0)))).
    { unfold U, update_on_event. cbn [t_init snd]. destruct (t_init tf rng x0); auto. }
    rewrite HU in H.
    assert (Ep : match params with Some p1 => p1 | None => fst (t_init tf rng x0) end = p)
      by (subst p; destruct params; auto).
    replace (match params with None => fst (t_init tf rng x0) | Some p1 => p1 end) with p in H
      by (rewrite <- Ep; destruct params; auto).
    assert (Est : match state with None => (full_like (fst (t_apply tf (fst (t_init tf rng x0)) (snd (t_init tf rng x0)) rng x0)), snd (t_init tf rng x0)) | Some s1 => s1 end = (prev, s)).
    { rewrite Hs. destruct state; auto. destruct (t_init tf rng x0); auto. }
    rewrite Est in H. unfold unroll_apply in H. fold all in H.
    pose proof (uoe_scan p all prev s rng) as G. cbv zeta in G.
    destruct (lax_scan (scan_f split U p) (prev, s, rng) all) as [[[pr st] rg] yl].
    apply some_pair_inj in H. destruct H as [<- <-]. cbn [fst snd] in *.
    destruct G as (G1 & _ & G3 & G4). auto.
  Qed.

  (** Inputs of steps without event are irrelevant. *)
  Lemma uoe_irrelevant rng p st exs exs' :
    map fst exs = map fst exs' ->
    (forall t x x', nth_error exs t = Some (true, x) -> nth_error exs' t = Some (true, x') -> x = x') ->
    unroll_apply split U false p st rng exs = unroll_apply split U false p st rng exs'.
  Proof.
    intros Hf Hx. unfold unroll_apply.
    assert (G : forall exs exs' c, map fst exs = map fst exs' ->
       (forall t x x', nth_error exs t = Some (true, x) -> nth_error exs' t = Some (true, x') -> x = x') ->
       lax_scan (scan_f split U p) c exs = lax_scan (scan_f split U p) c exs').
    { clear. induction exs as [|[e x] exs IH]; intros [|[e' x'] exs'] c Hf Hx; try discriminate; auto.
      cbn [map fst] in Hf. injection Hf as <- Hf. cbn [lax_scan].
      assert (E : scan_f split U p c (e, x) = scan_f split U p c (e, x')).
      { destruct e. { rewrite (Hx 0 x x'); auto. }
        destruct c as [[pr s] rg]. unfold scan_f, U, update_on_event. cbn [t_apply fst snd].
        destruct (match rg with Some k => let '(a, b) := split k in (Some a, Some b) | None => (None, None) end).
        destruct (t_apply tf p s o0 x), (t_apply tf p s o0 x'). auto. }
      rewrite E. destruct (scan_f split U p c (e, x')) as [c1 y].
      rewrite (IH exs' c1); auto. intros t a b Ha Hb. apply (Hx (Datatypes.S t)); auto. }
    rewrite (G exs exs'); auto.
  Qed.
End UOE.

(** *** ARMA *)
Local Open Scope R_scope.

Lemma window_fin m pre (b : list fl) : (m = 0 -> b = [])%nat -> ((0 < m)%nat -> is_window m (Fin 0) (map Fin pre) b) ->
  b = map (fun i => Fin (lagged 0 pre (length pre) (m - i))) (seq 0 m).
Proof.
  intros H0 H. destruct m as [|m]; [rewrite H0; auto|]. destruct (H ltac:(lia)) as [Hl Hw].
  apply nth_error_ext. intros i. destruct (Nat.lt_ge_cases i (S m)) as [Hi|Hi].
  - rewrite nth_error_map, (nth_error_nth_lt (seq 0 (S m)) i 0%nat) by (rewrite seq_length; auto).
    rewrite seq_nth by auto. cbn [option_map Nat.add].
    specialize (Hw (m - i)%nat ltac:(lia)). replace (S m - 1 - (m - i))%nat with i in Hw by lia. rewrite Hw.
    rewrite map_length. unfold lagged.
    destruct (Nat.ltb_spec (m - i) (length pre)); destruct (Nat.leb_spec (S m - i) (length pre)); try lia; auto.
    rewrite nth_error_map. replace (length pre - 1 - (m - i))%nat with (length pre - (S m - i))%nat by lia.
    rewrite (nth_error_nth_lt pre _ 0) by lia. auto.
  - transitivity (@None fl); [|symmetry]; apply nth_error_None; rewrite ?map_length, ?seq_length; lia.
Qed.

Lemma fdot_fin (a : list R) (f : nat -> R) :
  dot (map Fin a) (map (fun i => Fin (f i)) (seq 0 (length a))) = Fin (sum_n (length a) (fun i => nth i a 0 * f i)).
Proof.
  unfold dot.
  assert (E : map2 fmul (map Fin a) (map (fun i => Fin (f i)) (seq 0 (length a))) =
     map Fin (map (fun i => nth i a 0 * f i) (seq 0 (length a)))).
  { apply nth_error_ext. intros i. rewrite nth_error_map2, !nth_error_map.
    destruct (Nat.lt_ge_cases i (length a)) as [Hi|Hi].
    - rewrite (nth_error_nth_lt a i 0), (nth_error_nth_lt (seq 0 (length a)) i 0%nat) by (rewrite ?seq_length; auto).
      rewrite seq_nth by auto. reflexivity.
    - rewrite (proj2 (nth_error_None a i)) by auto. cbn.
      rewrite (proj2 (nth_error_None _ i)); auto. rewrite seq_length; auto. }
  rewrite E, fsum_Fin. f_equal.
  assert (G : forall n g, fold_right Rplus 0 (map g (seq 0 n)) = sum_n n g).
  { induction n as [|n IH]; intros g; auto. rewrite seq_S, map_app, fold_right_app. cbn [Nat.add map fold_right sum_n].
    rewrite <- IH. generalize (map g (seq 0 n)) (g n). clear. induction l as [|b l IHl]; intros r; cbn; [lra|].
    rewrite IHl. lra. }
  apply G.
Qed.

Definition rbuf (m : nat) (pre : list R) (st : buffer_state fl) :=
  length (buffer st) = m /\ ((0 < m)%nat -> is_window m (Fin 0) (map Fin pre) (buffer st)).

Lemma rbuf_init m : rbuf m [] (buffer_init m (Fin 0)).
Proof. split; [apply repeat_length|]. intros; apply init_window. Qed.

Lemma rbuf_step m pre st r : rbuf m pre st ->
  rbuf m (pre ++ [r]) (snd (buffer_apply m st (Fin r))) /\
  fst (buffer_apply m st (Fin r)) = buffer (snd (buffer_apply m st (Fin r))).
Proof.
  intros [Hl Hw]. split; [|reflexivity]. cbn. split.
  - destruct m. { destruct (buffer st); [reflexivity|discriminate]. }
    assert (buffer st <> []) as NE by (destruct (buffer st); [discriminate|congruence]).
    rewrite push_eq by exact NE. destruct (buffer st) as [|a l]; [congruence|]. cbn [tl].
    cbn [buffer]. rewrite app_length. cbn in *. lia.
  - intros Hm. rewrite map_app. apply push_window; auto.
Qed.

Lemma rbuf_list m pre st : rbuf m pre st ->
  buffer st = map (fun i => Fin (lagged 0 pre (length pre) (m - i))) (seq 0 m).
Proof. intros [Hl Hw]. apply window_fin; auto. intros ->. destruct (buffer st); auto; discriminate. Qed.

(** The recursion *)


Lemma lagged_prefix (l l' : list R) t k : (t <= length l)%nat -> (0 < k)%nat -> lagged 0 (l ++ l') t k = lagged 0 l t k.
Proof. intros H Hk. unfold lagged. destruct (Nat.leb_spec k t); auto. apply app_nth1; lia. Qed.

Lemma arma_value_prefix alpha beta ys ys' eps eps' t :
  (t <= length ys)%nat -> (t < length eps)%nat ->
  arma_value alpha beta (ys ++ ys') (eps ++ eps') t = arma_value alpha beta ys eps t.
Proof.
  intros H1 H2. unfold arma_value. rewrite app_nth1 by auto. f_equal. f_equal.
  - apply sum_n_ext. intros i Hi. rewrite lagged_prefix by lia. auto.
  - apply sum_n_ext. intros i Hi. rewrite lagged_prefix by lia. auto.
Qed.

Definition arma_inv (alpha beta : list R) (pre : list R) (st : arma_state) :=
  exists ys, arma_rec alpha beta pre ys /\
    rbuf (length beta + 1) pre (arma_eps st) /\ rbuf (length alpha) ys (arma_ybuf st) /\
    arma_y st = buffer (arma_ybuf st).

Lemma arma_step_eq alpha beta pre ys st e :
  arma_rec alpha beta pre ys ->
  rbuf (length beta + 1) pre (arma_eps st) -> rbuf (length alpha) ys (arma_ybuf st) ->
  arma_y st = buffer (arma_ybuf st) ->
  exists st', arma_step (map Fin alpha) (map Fin beta) st (Fin e) =
    (Fin (arma_value alpha beta ys (pre ++ [e]) (length pre)), st') /\
    arma_rec alpha beta (pre ++ [e]) (ys ++ [arma_value alpha beta ys (pre ++ [e]) (length pre)]) /\
    rbuf (length beta + 1) (pre ++ [e]) (arma_eps st') /\
    rbuf (length alpha) (ys ++ [arma_value alpha beta ys (pre ++ [e]) (length pre)]) (arma_ybuf st') /\
    arma_y st' = buffer (arma_ybuf st').
Proof.
  intros [Hl Hr] HE HY Hy. unfold arma_step. rewrite !map_length.
  destruct (rbuf_step _ _ _ e HE) as [HE' Eb].
  pose proof (rbuf_list _ _ _ HE') as LB.
  destruct (buffer_apply (length beta + 1) (arma_eps st) (Fin e)) as [b se]. cbn [fst snd] in *. subst b.
  rewrite Hy, (rbuf_list _ _ _ HY).
  assert (RB : removelast (buffer se) = map (fun j => Fin (lagged 0 (pre ++ [e]) (length pre) (length beta - j))) (seq 0 (length beta))).
  { rewrite LB, Nat.add_1_r, seq_S, map_app. cbn [map]. rewrite removelast_last.
    apply map_ext_in. intros j Hj. apply in_seq in Hj. f_equal. rewrite app_length. cbn [length].
    unfold lagged. destruct (Nat.leb_spec (S (length beta) - j) (length pre + 1));
      destruct (Nat.leb_spec (length beta - j) (length pre)); try lia; auto. f_equal; lia. }
  rewrite RB. rewrite Hl. rewrite !fdot_fin. cbn [fadd nan_to_num].
  set (v := sum_n (length alpha) _ + sum_n (length beta) _ + e).
  assert (Ev : v = arma_value alpha beta ys (pre ++ [e]) (length pre)).
  { unfold v, arma_value. rewrite app_nth2, Nat.sub_diag by lia. reflexivity. }
  destruct (rbuf_step _ _ _ v HY) as [HY' Eb'].
  destruct (buffer_apply (length alpha) (arma_ybuf st) (Fin v)) as [yb sy]. cbn [fst snd] in *. subst yb.
  eexists. split; [rewrite <- Ev; reflexivity|]. rewrite <- Ev. cbn [arma_eps arma_y arma_ybuf].
  split; [|auto]. split; [rewrite !app_length; cbn; lia|].
  intros t Ht. rewrite app_length in Ht. cbn in Ht.
  destruct (Nat.eq_dec t (length pre)) as [->|Hne].
  - rewrite app_nth2, Hl, Nat.sub_diag by lia. cbn [nth].
    pose proof (arma_value_prefix alpha beta ys [v] (pre ++ [e]) [] (length pre)) as Q.
    rewrite app_nil_r in Q. rewrite Q; [exact Ev|lia|rewrite app_length; cbn; lia].
  - rewrite app_nth1 by lia. rewrite arma_value_prefix by lia. apply Hr. lia.
Qed.

Lemma arma_run alpha beta eps outs sF :
  run (ARMA (map Fin alpha) (map Fin beta)) (map Fin eps) = Some (outs, sF) ->
  exists ys, outs = map Fin ys /\ arma_rec alpha beta eps ys.
Proof.
  intros H. destruct eps as [|e0 r]; [discriminate|].
  unfold ARMA in H. cbn [map] in H. rewrite run_eq in H. apply some_pair_inj in H. destruct H as [<- _].
  change (Fin e0 :: map Fin r) with (map Fin (e0 :: r)). generalize (e0 :: r). clear e0 r. intros eps.
  assert (G : forall eps pre ys0 st, arma_rec alpha beta pre ys0 ->
     rbuf (length beta + 1) pre (arma_eps st) -> rbuf (length alpha) ys0 (arma_ybuf st) ->
     arma_y st = buffer (arma_ybuf st) ->
     exists ys, snd (lax_scan (stepf (arma_step (map Fin alpha) (map Fin beta))) st (map Fin eps)) = map Fin ys /\
       arma_rec alpha beta (pre ++ eps) (ys0 ++ ys)).
  { clear eps. induction eps as [|e eps IH]; intros pre ys0 st H1 H2 H3 H4.
    - exists []. rewrite !app_nil_r. auto.
    - destruct (arma_step_eq _ _ _ _ _ e H1 H2 H3 H4) as (st' & E & R1 & R2 & R3 & R4).
      destruct (IH _ _ _ R1 R2 R3 R4) as (ys & E' & R).
      exists (arma_value alpha beta ys0 (pre ++ [e]) (length pre) :: ys).
      cbn [map lax_scan]. unfold stepf at 1. rewrite E. cbn [fst snd].
      destruct (lax_scan _ st' (map Fin eps)) as [c l]. cbn [snd] in *. rewrite E'. split; auto.
      rewrite <- !app_assoc in R. exact R. }
  destruct (G eps [] [] (arma_init (map Fin alpha) (map Fin beta))) as (ys & E & R).
  - split; auto. intros t Ht. cbn in Ht. lia.
  - unfold arma_init. cbn [arma_eps]. rewrite map_length. apply rbuf_init.
  - unfold arma_init. cbn [arma_ybuf]. rewrite map_length. apply rbuf_init.
  - reflexivity.
  - exists ys. split; auto.
Qed.

(** The recursion has a unique solution, hence linearity. *)
Lemma arma_rec_unique alpha beta eps ys ys' : arma_rec alpha beta eps ys -> arma_rec alpha beta eps ys' -> ys = ys'.
Proof.
  intros [Hl H] [Hl' H'].
  assert (G : forall n t, (t < n)%nat -> (t < length eps)%nat -> nth t ys 0 = nth t ys' 0).
  { induction n as [|n IH]; intros t Hn Ht; [lia|]. rewrite H, H' by auto. unfold arma_value. f_equal. f_equal.
    apply sum_n_ext. intros i Hi. f_equal. unfold lagged.
    destruct (Nat.leb_spec (length alpha - i) t); auto. apply IH; lia. }
  apply (nth_ext _ _ 0 0); [lia|]. intros t Ht. apply (G (S t)); lia.
Qed.

Lemma lin_nth a b x y t : length x = length y -> nth t (lin a b x y) 0 = a * nth t x 0 + b * nth t y 0.
Proof.
  revert y t; induction x as [|u x IH]; intros [|v y] t H; try discriminate.
  - destruct t; cbn; lra.
  - destruct t; cbn; auto. apply IH. cbn in H; lia.
Qed.
Lemma lin_lagged a b x y t k : length x = length y ->
  lagged 0 (lin a b x y) t k = a * lagged 0 x t k + b * lagged 0 y t k.
Proof. intros H. unfold lagged. destruct (Nat.leb_spec k t); [apply lin_nth; auto|lra]. Qed.

Lemma arma_linear alpha beta a b e1 e2 y1 y2 : length e1 = length e2 ->
  arma_rec alpha beta e1 y1 -> arma_rec alpha beta e2 y2 ->
  arma_rec alpha beta (lin a b e1 e2) (lin a b y1 y2).
Proof.
  intros He [L1 H1] [L2 H2].
  assert (L : length (lin a b e1 e2) = length e1) by (unfold lin; rewrite length_map2; lia).
  split. { rewrite L. unfold lin; rewrite length_map2. lia. }
  rewrite L. intros t Ht. rewrite lin_nth, H1, H2 by lia. unfold arma_value. rewrite lin_nth by auto.
  erewrite (sum_n_ext (length alpha) (fun i => nth i alpha 0 * lagged 0 (lin a b y1 y2) t (length alpha - i))).
  2:{ intros i Hi. rewrite lin_lagged by lia.
      instantiate (1 := fun i => a * (nth i alpha 0 * lagged 0 y1 t (length alpha - i)) + b * (nth i alpha 0 * lagged 0 y2 t (length alpha - i))). cbv beta. ring. }
  erewrite (sum_n_ext (length beta) (fun i => nth i beta 0 * lagged 0 (lin a b e1 e2) t (length beta - i))).
  2:{ intros i Hi. rewrite lin_lagged by lia.
      instantiate (1 := fun i => a * (nth i beta 0 * lagged 0 e1 t (length beta - i)) + b * (nth i beta 0 * lagged 0 e2 t (length beta - i))). cbv beta. ring. }
  rewrite !sum_n_plus, !sum_n_scal. ring.
Qed.

Lemma arma_finite alpha beta eps outs sF :
  run (ARMA alpha beta) eps = Some (outs, sF) -> Forall (fun y => isfinite y = true) outs.
Proof.
  intros H. destruct (run_nonempty _ _ _ _ H) as (e0 & r & ->). unfold ARMA in H.
  destruct (run_nth _ _ _ _ _ _ H) as (Hl & _ & Hn). apply Forall_forall. intros y Hy.
  apply In_nth_error in Hy. destruct Hy as [t Ht].
  assert (t < length outs)%nat by (apply nth_error_Some; congruence).
  destruct (nth_error_lt (e0 :: r) t ltac:(lia)) as [x Hx]. rewrite (Hn t x Hx) in Ht. injection Ht as <-.
  unfold arma_step, buffer_apply. cbn [fst].
  match goal with |- isfinite (nan_to_num _ _ _ ?z) = true => destruct z; reflexivity end.
Qed.

(** *** SNARIMAX *)
Lemma tl_window p (f : fl) pre b : is_window (p + 1) f pre b -> (0 < length pre)%nat ->
  tl b = map (fun i => lagged f pre (length pre) (p - i)) (seq 0 p).
Proof.
  intros [Hl Hw] Hp. apply nth_error_ext. intros i.
  destruct b as [|a b]; [cbn in Hl; lia|]. cbn [tl]. cbn in Hl.
  destruct (Nat.lt_ge_cases i p) as [Hi|Hi].
  - specialize (Hw (p - 1 - i)%nat ltac:(lia)).
    replace (p + 1 - 1 - (p - 1 - i))%nat with (S i) in Hw by lia. cbn [nth_error] in Hw. rewrite Hw.
    rewrite nth_error_map, (nth_error_nth_lt (seq 0 p) i 0%nat) by (rewrite seq_length; auto).
    rewrite seq_nth by auto. cbn [option_map Nat.add]. unfold lagged.
    destruct (Nat.ltb_spec (p - 1 - i) (length pre)); destruct (Nat.leb_spec (p - i) (length pre)); try lia; auto.
    rewrite (nth_error_nth_lt pre _ f) by lia. do 2 f_equal. lia.
  - transitivity (@None fl); [|symmetry]; apply nth_error_None; rewrite ?map_length, ?seq_length; lia.
Qed.

(** features at time t *)

Lemma fill_zero v : nan_to_num (Fin 0) (Fin 0) (Fin 0) v = zero_filled v.
Proof. destruct v; reflexivity. Qed.

Lemma lagged_app_lt {A} (d : A) l l' t k : (t < length l)%nat -> lagged d (l ++ l') t k = lagged d l t k.
Proof. intros H. unfold lagged. destruct (Nat.leb_spec k t); auto. apply app_nth1; lia. Qed.
Lemma lagged_app_le {A} (d : A) l l' t k : (t <= length l)%nat -> (0 < k)%nat -> lagged d (l ++ l') t k = lagged d l t k.
Proof. intros H Hk. unfold lagged. destruct (Nat.leb_spec k t); auto. apply app_nth1; lia. Qed.


Definition sn_inv (p q : nat) (reg : list fl -> fl) (pre : list (fl * list fl)) (preds errs : list fl)
  (st : snarimax_state) : Prop :=
  sn_rec p q reg pre preds errs /\
  is_window (p + 1) NaN (map fst pre) (buffer (sn_y st)) /\
  is_window (q + 1) NaN errs (buffer (sn_err st)) /\
  map zero_filled (sn_errp st) = map (fun i => zero_filled (lagged NaN errs (length pre) (q - i))) (seq 0 q).

Lemma sn_step_inv p q reg pre preds errs st y X : sn_inv p q reg pre preds errs st ->
  let pred := reg (sn_features p q X errs (map fst (pre ++ [(y, X)])) (length pre)) in
  fst (snarimax_step p q reg st (y, X)) = pred /\
  sn_inv p q reg (pre ++ [(y, X)]) (preds ++ [pred]) (errs ++ [fsub y pred]) (snd (snarimax_step p q reg st (y, X))).
Proof.
  intros ((Hlp & Hle & Hr) & Hy & He & Hep) pred.
  assert (Hw : is_window (p + 1) NaN (map fst pre ++ [y]) (set_last (roll1 (buffer (sn_y st))) y))
    by (apply push_window; [lia|auto]).
  assert (F : map (nan_to_num (Fin 0) (Fin 0) (Fin 0)) (X ++ sn_errp st ++ tl (set_last (roll1 (buffer (sn_y st))) y))
     = sn_features p q X errs (map fst (pre ++ [(y, X)])) (length pre)).
  { rewrite (map_ext _ zero_filled) by apply fill_zero. rewrite !map_app, Hep. unfold sn_features. f_equal. f_equal.
    rewrite (tl_window p NaN _ _ Hw) by (rewrite app_length; cbn; lia).
    rewrite map_map. apply map_ext_in. intros i Hi. apply in_seq in Hi. f_equal.
    cbn [map fst]. rewrite app_length, map_length. cbn [length].
    unfold lagged. destruct (Nat.leb_spec (p - i) (length pre + 1)); destruct (Nat.leb_spec (p - 1 - i) (length pre)); try lia; auto.
    f_equal. lia. }
  assert (F1 : fst (snarimax_step p q reg st (y, X)) = pred).
  { unfold snarimax_step, buffer_apply, pred. cbn [fst]. rewrite <- F. reflexivity. }
  split; [exact F1|].
  unfold snarimax_step, buffer_apply. rewrite F. fold pred. cbn [snd].
  assert (Hwe : is_window (q + 1) NaN (errs ++ [fsub y pred]) (set_last (roll1 (buffer (sn_err st))) (fsub y pred)))
    by (apply push_window; [lia|auto]).
  split; [|split; [|split]]; cbn [sn_y sn_err sn_errp buffer].
  - split; [rewrite !app_length; cbn; lia|]. split; [rewrite !app_length; cbn; lia|].
    intros t y' X' Ht. destruct (Nat.lt_ge_cases t (length pre)) as [Hlt|Hge].
    + rewrite nth_error_app1 in Ht by auto. destruct (Hr t y' X' Ht) as [R1 R2].
      rewrite !app_nth1 by lia. split; auto. rewrite R1. f_equal. unfold sn_features. f_equal. f_equal.
      * apply map_ext_in. intros i Hi. apply in_seq in Hi. rewrite lagged_app_lt by lia. auto.
      * apply map_ext_in. intros i Hi. apply in_seq in Hi. rewrite map_app, lagged_app_lt by (rewrite map_length; lia). auto.
    + rewrite nth_error_app2 in Ht by auto. destruct (t - length pre)%nat as [|k] eqn:Ek; [|destruct k; discriminate].
      injection Ht as <- <-. assert (t = length pre) as -> by lia.
      rewrite (app_nth2 preds), (app_nth2 errs), Hlp, Hle, Nat.sub_diag by lia. cbn [nth]. split; auto.
      unfold pred. f_equal. unfold sn_features. f_equal. f_equal.
      apply map_ext_in. intros i Hi. apply in_seq in Hi. rewrite lagged_app_le by lia. auto.
  - rewrite map_app. exact Hw.
  - exact Hwe.
  - rewrite (tl_window q NaN _ _ Hwe) by (rewrite app_length; cbn; lia). rewrite map_map.
    rewrite !app_length. cbn [length]. rewrite Hle. reflexivity.
Qed.

Lemma sn_run p q reg m yX preds sF :
  SNARIMAX p 0 q 0 0 0 reg = Some m -> run m yX = Some (preds, sF) ->
  exists errs, sn_rec p q reg yX preds errs.
Proof.
  intros Hm H. unfold SNARIMAX in Hm. injection Hm as <-.
  destruct (run_nonempty _ _ _ _ H) as (x0 & r & ->). rewrite run_eq in H.
  apply some_pair_inj in H. destruct H as [<- _].
  generalize (x0 :: r). clear x0 r. intros yX.
  set (st0 := SnState _ _ _).
  assert (G : forall l pre ps es st, sn_inv p q reg pre ps es st ->
    exists errs, sn_rec p q reg (pre ++ l) (ps ++ snd (lax_scan (stepf (snarimax_step p q reg)) st l)) errs).
  { induction l as [|[y X] l IH]; intros pre ps es st Hi.
    - cbn. rewrite !app_nil_r. exists es. apply Hi.
    - destruct (sn_step_inv _ _ _ _ _ _ _ y X Hi) as [E Hi'].
      destruct (IH _ _ _ _ Hi') as [errs R]. exists errs.
      cbn [lax_scan]. unfold stepf at 1. rewrite E.
      destruct (lax_scan _ (snd (snarimax_step p q reg st (y, X))) l) as [c ys]. cbn [snd] in *.
      rewrite <- !app_assoc in R. exact R. }
  destruct (G yX [] [] [] st0) as [errs R]; [|exists errs; exact R].
  unfold st0. split; [|split; [|split]].
  - split; auto. split; auto. intros t y X Ht. destruct t; discriminate.
  - apply init_window.
  - apply init_window.
  - cbn [sn_errp length]. rewrite Nat.add_1_r. cbn [repeat tl].
    apply nth_error_ext. intros i. rewrite !nth_error_map, nth_error_repeat'.
    destruct (Nat.ltb_spec i q).
    + rewrite (nth_error_nth_lt (seq 0 q) i 0%nat) by (rewrite seq_length; auto). rewrite seq_nth by auto.
      cbn [option_map]. unfold lagged. destruct (Nat.leb_spec (q - (0 + i)) 0); [lia|]. reflexivity.
    + rewrite (proj2 (nth_error_None (seq 0 q) i)); auto. rewrite seq_length. auto.
Qed.

(** With p >= 1 the current target is one of the features. *)
Lemma sn_leak p q yX m preds sF : (1 <= p)%nat ->
  SNARIMAX p 0 q 0 0 0 (fun X => last X NaN) = Some m -> run m yX = Some (preds, sF) ->
  forall t y X, nth_error yX t = Some (y, X) -> nth_error preds t = Some (zero_filled y).
Proof.
  intros Hp Hm H t y X Ht. destruct (sn_run _ _ _ _ _ _ _ Hm H) as (errs & Hl & _ & R).
  destruct (R t y X Ht) as [R1 _].
  assert (t < length yX)%nat by (apply nth_error_Some; congruence).
  rewrite (nth_error_nth_lt preds t NaN) by lia. f_equal. rewrite R1. unfold sn_features.
  destruct p as [|p]; [lia|]. rewrite seq_S, !map_app, !app_assoc. cbn [map]. rewrite last_last.
  f_equal. unfold lagged. replace (S p - 1 - (0 + p))%nat with 0%nat by lia. cbn [Nat.leb]. rewrite Nat.sub_0_r.
  apply nth_error_nth. rewrite nth_error_map, Ht. reflexivity.
Qed.

Lemma sn_orders p d q sp sd sq reg :
  SNARIMAX p d q sp sd sq reg = None <-> ~ (d = 0 /\ sp = 0 /\ sd = 0 /\ sq = 0)%nat.
Proof.
  unfold SNARIMAX. destruct d, sp, sd, sq; split; intros H; try discriminate; try reflexivity; try (intros (? & ? & ? & ?); discriminate); exfalso; apply H; auto.
Qed.

(** *** GymFeedback *)
Section Gym.
  Context {X O Act Rw IE IA SA SE : Type}.
  Variables (agent : SA -> O -> (Act * IA) * SA) (env : SE -> Act * X -> (Rw * O * IE) * SE)
    (sa0 : SA) (se0 : SE) (as_obs : X -> O).

  Lemma gym_run (ro ra : bool) init_action x0 xs outs sF :
    run (GymFeedback agent env sa0 se0 as_obs ro ra init_action) (x0 :: xs) = Some (outs, sF) ->
    length outs = length (x0 :: xs) /\
    exists (act : nat -> Act) (sa : nat -> SA) (se : nat -> SE),
      act 0%nat = match init_action with Some a => a | None => fst (fst (agent sa0 (as_obs x0))) end /\
      sa 0%nat = sa0 /\ se 0%nat = se0 /\
      forall t x, nth_error (x0 :: xs) t = Some x ->
        exists rw obs ie ia,
          env (se t) (act t, x) = ((rw, obs, ie), se (S t)) /\
          agent (sa t) obs = ((act (S t), ia), sa (S t)) /\
          nth_error outs t = Some (GymOut rw (if ro then Some obs else None)
             (if ra then Some (act (S t)) else None), (ie, ia)).
  Proof.
    intros H. unfold GymFeedback in H. destruct (run_nth _ _ _ _ _ _ H) as (Hl & _ & Hn).
    split; auto.
    set (st := fun t => steps (gym_step agent env ro ra) (gym_init agent sa0 se0 as_obs init_action x0) (firstn t (x0 :: xs))).
    exists (fun t => g_action (st t)), (fun t => g_agent (st t)), (fun t => g_env (st t)).
    split; [reflexivity|]. split; [reflexivity|]. split; [reflexivity|].
    intros t x Hx. specialize (Hn t x Hx). rewrite Hn. fold (st t).
    assert (E : st (S t) = snd (gym_step agent env ro ra (st t) x)).
    { unfold st. rewrite (firstn_snoc _ _ _ Hx), steps_app. reflexivity. }
    rewrite E. unfold gym_step.
    destruct (env (g_env (st t)) (g_action (st t), x)) as [[[rw obs] ie] se] eqn:E1.
    destruct (agent (g_agent (st t)) obs) as [[a ia] sa] eqn:E2. cbn [fst snd g_action g_agent g_env].
    exists rw, obs, ie, ia. split; [reflexivity|]. split; [exact E2|reflexivity].
  Qed.
End Gym.
