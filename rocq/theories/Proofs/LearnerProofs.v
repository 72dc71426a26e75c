From Coq Require Import String List Arith Lia Bool Reals FunctionalExtensionality.
From Verif Require Import Model.Unroll Model.Batch Model.Float Model.Optim Model.Learner Spec.OptimSpec Spec.LearnerSpec
  Proofs.ListFacts Proofs.UnrollProofs Proofs.UnrollExtra Proofs.OptimProofs.
Import ListNotations.
Local Open Scope list_scope.

Lemma set_new {V} k (v : V) m : ~ In k (map fst m) -> set k v m = m ++ [(k, v)].
Proof.
  induction m as [|[k0 v0] m IH]; cbn; intros H; auto.
  destruct (pkey_eqb_spec k k0); [subst; tauto|]. rewrite IH by tauto. reflexivity.
Qed.
Lemma fold_set_new {V} (l : pmap V) : forall m, NoDup (map fst (m ++ l)) ->
  fold_left (fun m kv => set (fst kv) (snd kv) m) l m = m ++ l.
Proof.
  induction l as [|[k v] l IH]; intros m H; cbn; [rewrite app_nil_r; auto|].
  rewrite set_new.
  - rewrite IH; rewrite <- app_assoc; auto.
  - rewrite map_app in H. cbn in H. apply NoDup_remove_2 in H. rewrite in_app_iff in H. tauto.
Qed.
Lemma merge_nil {V} (p : pmap V) : NoDup (map fst p) -> merge p [] = p.
Proof. intros H. unfold merge. rewrite app_nil_r. apply (fold_set_new p []). exact H. Qed.

Lemma partition_all {V} (p : pmap V) : partition pass_all p = (p, []).
Proof.
  unfold partition. f_equal; induction p as [|kv p IH]; cbn; auto. f_equal. exact IH.
Qed.

Section Learner.
  Context {K S X T Yp OS : Type} (split : K -> K * K).
  Variables (has_state : S -> bool) (model : transformed K (pmap array) S X Yp) (loss : T -> Yp -> fl)
    (opt : OS -> pmap array -> pmap array -> pmap array * OS) (opt0 : pmap array -> OS)
    (fillg : bool) (grad : (pmap array -> fl) -> pmap array -> pmap array).

  Lemma osl_init_spec k xy p1 s1 p2 s2 :
    t_init model (Some (snd (split k))) (fst xy) = (p1, s1) ->
    t_init model (Some (snd (split (fst (split k))))) (fst xy) = (p2, s2) ->
    osl_init split has_state model loss opt0 (Some k) xy =
    if has_state s1 then None else Some (FOState p1 ([], s2) (opt0 p1)).
  Proof.
    intros H1 H2. unfold osl_init.
    rewrite (fo_init_spec split has_state (osl_loss model loss) opt0 pass_all k xy p1 s1 p2 s2 H1 H2).
    rewrite !partition_all. reflexivity.
  Qed.

  Lemma osl_stateful k st x y xys :
    has_state (snd (t_init model (Some (snd (split k))) x)) = true ->
    osl_unroll split has_state model loss opt opt0 fillg grad (Some k) st ((x, y) :: xys) = None.
  Proof.
    intros H. unfold osl_unroll.
    destruct (t_init model (Some (snd (split k))) x) as [p1 s1] eqn:E1.
    destruct (t_init model (Some (snd (split (fst (split k))))) x) as [p2 s2] eqn:E2.
    rewrite (osl_init_spec k (x, y) p1 s1 p2 s2 E1 E2). cbn in H. rewrite H. reflexivity.
  Qed.

  Definition osl_f := fun st xy => let '(y, st') := osl_step split model loss opt fillg grad st xy in (st', y).

  Lemma osl_step_spec st x y :
    fst (fo_update st) = [] -> proper (fo_trainable st) -> keeps_proper opt -> on_dictionaries grad ->
    exists yp s' tp os,
      t_apply model (fo_trainable st) (snd (fo_update st)) None x = (yp, s') /\
      opt (fo_opt st) (fo_trainable st)
        (let g := grad (fun q => loss y (fst (t_apply model q (snd (fo_update st)) None x))) (fo_trainable st) in
         if fillg then each_entry zeroed g else g) = (tp, os) /\
      proper tp /\
      osl_step split model loss opt fillg grad st (x, y) =
        ((yp, OslInfo (loss y yp) tp), FOState tp ([], s') os).
  Proof.
    intros Hn Hp Hk Hg. unfold osl_step.
    destruct (fo_step split (osl_loss model loss) opt pass_all fillg grad st (x, y)) as [[[res aux] tp] st'] eqn:E.
    destruct (fo_step_spec split _ opt pass_all fillg grad st (x, y) res aux tp st' E) as ((s' & Ha & Hu) & Ht & Ho).
    rewrite Hn in *. rewrite (merge_nil _ Hp) in Ha. cbn [osl_loss t_apply fst snd] in Ha.
    destruct (t_apply model (fo_trainable st) (snd (fo_update st)) None x) as [yp s''] eqn:Em.
    assert (s'' = s') by congruence. assert (aux = yp) by congruence. assert (res = loss y yp) by congruence. subst s'' aux res.
    cbv zeta in Ho.
    rewrite (Hg _ (fun q => loss y (fst (t_apply model q (snd (fo_update st)) None x)))) in Ho.
    2:{ intros q Hq. rewrite (merge_nil _ Hq). cbn [osl_loss t_apply fst snd]. destruct (t_apply model q _ None x); reflexivity. }
    exists yp, s', tp, (fo_opt st'). split; [reflexivity|]. split; [exact Ho|]. split.
    - specialize (Hk (fo_opt st) (fo_trainable st) (let g := grad (fun q => loss y (fst (t_apply model q (snd (fo_update st)) None x))) (fo_trainable st) in
         if fillg then each_entry zeroed g else g) Hp). cbv zeta in Hk. rewrite Ho in Hk. exact Hk.
    - destruct st' as [a b c]. cbn [fo_trainable fo_update fo_opt fst snd] in *. subst a b. reflexivity.
  Qed.

  (** the states of a run *)
  Lemma osl_scan p0 ms0 os0 l : proper p0 -> keeps_proper opt -> on_dictionaries grad ->
    exists ys sF, lax_scan osl_f (FOState p0 ([], ms0) os0) l = (sF, ys) /\ length ys = length l /\
    exists (params : nat -> pmap array) (ms : nat -> S) (os : nat -> OS),
      params 0 = p0 /\ ms 0 = ms0 /\ os 0 = os0 /\
      sF = FOState (params (length l)) ([], ms (length l)) (os (length l)) /\
      forall t x y, nth_error l t = Some (x, y) ->
        exists y_pred, t_apply model (params t) (ms t) None x = (y_pred, ms (1 + t)) /\
          nth_error ys t = Some (y_pred, OslInfo (loss y y_pred) (params (1 + t))) /\
          let g := grad (fun q => loss y (fst (t_apply model q (ms t) None x))) (params t) in
          opt (os t) (params t) (if fillg then each_entry zeroed g else g) = (params (1 + t), os (1 + t)).
  Proof.
    intros Hp Hk Hg.
    set (st0 := FOState p0 ([], ms0) os0).
    destruct (lax_scan osl_f st0 l) as [sF ys] eqn:E. exists ys, sF. split; [reflexivity|].
    split. { pose proof (lax_scan_length osl_f st0 l) as L. rewrite E in L. exact L. }
    set (st := fun t => scan_carry osl_f st0 (firstn t l)).
    assert (Hstep : forall t xy, nth_error l t = Some xy -> st (Datatypes.S t) = fst (osl_f (st t) xy) /\
                                                       nth_error ys t = Some (snd (osl_f (st t) xy))).
    { intros t xy Hxy. split.
      - unfold st. rewrite (firstn_snoc l t xy Hxy). unfold scan_carry. rewrite lax_scan_app. cbn.
        destruct (lax_scan osl_f st0 (firstn t l)) as [c o]. cbn. destruct (osl_f c xy). reflexivity.
      - pose proof (lax_scan_nth osl_f st0 l t xy Hxy) as L. rewrite E in L. exact L. }
    assert (Hinv : forall t, t <= length l -> fst (fo_update (st t)) = [] /\ proper (fo_trainable (st t))).
    { induction t as [|t IH]; intros Hle; [split; [reflexivity|exact Hp]|].
      destruct (nth_error_lt l t) as [[x y] Hxy]; [lia|]. destruct (Hstep t (x, y) Hxy) as [Hst _].
      destruct IH as [I1 I2]; [lia|].
      destruct (osl_step_spec (st t) x y I1 I2 Hk Hg) as (yp & s' & tp & os & _ & _ & Hpr & Hos).
      unfold osl_f in Hst. rewrite Hos in Hst. cbn in Hst. rewrite Hst. split; [reflexivity|exact Hpr]. }
    exists (fun t => fo_trainable (st t)), (fun t => snd (fo_update (st t))), (fun t => fo_opt (st t)).
    split; [reflexivity|]. split; [reflexivity|]. split; [reflexivity|]. split.
    { assert (EF : st (length l) = sF). { unfold st, scan_carry. rewrite firstn_all, E. reflexivity. }
      destruct (Hinv (length l) (Nat.le_refl _)) as [I1 _]. rewrite EF in *. destruct sF as [a [b c] d]. cbn in I1. subst b. reflexivity. }
    intros t x y Hxy. destruct (Hstep t (x, y) Hxy) as [Hst Hy].
    destruct (Hinv t) as [I1 I2]. { assert (t < length l) by (apply nth_error_Some; congruence). lia. }
    destruct (osl_step_spec (st t) x y I1 I2 Hk Hg) as (yp & s' & tp & os & Ha & Ho & _ & Hos).
    unfold osl_f in Hst, Hy. rewrite Hos in Hst, Hy. cbn [fst snd] in Hst, Hy. exists yp. change (1 + t) with (Datatypes.S t). rewrite Hst. cbn [fo_trainable fo_update fo_opt snd].
    split; [exact Ha|]. split; [exact Hy|exact Ho].
  Qed.

  Lemma osl_run k x0 y0 xys p0 s0 ms0 given :
    t_init model (Some (snd (split k))) x0 = (p0, s0) -> has_state s0 = false ->
    snd (t_init model (Some (snd (split (fst (split k))))) x0) = ms0 ->
    let start := match given with Some st => st | None => FOState p0 ([], ms0) (opt0 p0) end in
    fst (fo_update start) = [] -> proper (fo_trainable start) -> keeps_proper opt -> on_dictionaries grad ->
    exists ys sF, osl_unroll split has_state model loss opt opt0 fillg grad (Some k) given ((x0, y0) :: xys) = Some (ys, sF) /\
    length ys = Datatypes.S (length xys) /\
    exists (params : nat -> pmap array) (ms : nat -> S) (os : nat -> OS),
      params 0 = fo_trainable start /\ ms 0 = snd (fo_update start) /\ os 0 = fo_opt start /\
      sF = FOState (params (length ys)) ([], ms (length ys)) (os (length ys)) /\
      forall t x y, nth_error ((x0, y0) :: xys) t = Some (x, y) ->
        exists y_pred, t_apply model (params t) (ms t) None x = (y_pred, ms (1 + t)) /\
          nth_error ys t = Some (y_pred, OslInfo (loss y y_pred) (params (1 + t))) /\
          let g := grad (fun q => loss y (fst (t_apply model q (ms t) None x))) (params t) in
          opt (os t) (params t) (if fillg then each_entry zeroed g else g) = (params (1 + t), os (1 + t)).
  Proof.
    intros H1 Hs H2 start Hst Hp Hk Hg.
    assert (EU : osl_unroll split has_state model loss opt opt0 fillg grad (Some k) given ((x0, y0) :: xys) =
      let '(sF, ys) := lax_scan osl_f start ((x0, y0) :: xys) in Some (ys, sF)).
    { unfold osl_unroll.
      destruct (t_init model (Some (snd (split (fst (split k))))) x0) as [p2 s2] eqn:E2. cbn in H2. subst s2.
      rewrite (osl_init_spec k (x0, y0) p0 s0 p2 ms0 H1 E2), Hs. reflexivity. }
    clearbody start. destruct start as [tp [nt ms] os]. cbn [fo_update fst fo_trainable fo_opt snd] in Hst, Hp |- *. subst nt.
    destruct (osl_scan tp ms os ((x0, y0) :: xys) Hp Hk Hg) as (ys & sF & E & L & params & mss & oss & R1 & R2 & R3 & R4 & R5).
    exists ys, sF. split; [etransitivity; [exact EU|exact (f_equal (fun z => let '(sF, ys) := z in Some (ys, sF)) E)]|]. split; [exact L|]. exists params, mss, oss. rewrite L.
    repeat (split; [assumption|]). exact R5.
  Qed.

  (** the prediction of a step does not see its target *)
  Lemma osl_first_y st x y y' :
    fst (fst (osl_step split model loss opt fillg grad st (x, y))) = fst (fst (osl_step split model loss opt fillg grad st (x, y'))).
  Proof.
    assert (G : forall z, fst (fst (osl_step split model loss opt fillg grad st (x, z))) =
      fst (t_apply model (merge (fo_trainable st) (fst (fo_update st))) (snd (fo_update st)) None x)).
    { intros z. unfold osl_step.
      destruct (fo_step split (osl_loss model loss) opt pass_all fillg grad st (x, z)) as [[[res aux] tp] st'] eqn:E.
      destruct (fo_step_spec split _ opt pass_all fillg grad st (x, z) res aux tp st' E) as ((s' & Ha & _) & _ & _).
      cbn [osl_loss t_apply fst snd] in Ha. destruct (t_apply model _ _ None x) as [yp s'']. cbn. congruence. }
    rewrite !G. reflexivity.
  Qed.

  Lemma osl_causal rng state (xys xys' : list (X * T)) t ys sF ys' sF' :
    firstn t xys = firstn t xys' -> firstn (t + 1) (map fst xys) = firstn (t + 1) (map fst xys') ->
    osl_unroll split has_state model loss opt opt0 fillg grad rng state xys = Some (ys, sF) ->
    osl_unroll split has_state model loss opt opt0 fillg grad rng state xys' = Some (ys', sF') ->
    firstn (t + 1) (map fst ys) = firstn (t + 1) (map fst ys').
  Proof.
    intros Ht Hx H H'. unfold osl_unroll in H, H'.
    destruct xys as [|[x y] r]; [discriminate|]. destruct xys' as [|[x' y'] r']; [discriminate|].
    assert (Ex : x = x'). { rewrite Nat.add_1_r in Hx. cbn in Hx. congruence. } subst x'.
    assert (Ei : osl_init split has_state model loss opt0 rng (x, y') = osl_init split has_state model loss opt0 rng (x, y)).
    { reflexivity. }
    rewrite Ei in H'. destruct (osl_init split has_state model loss opt0 rng (x, y)) as [s0|]; [|discriminate]. clear Ei.
    fold osl_f in H, H'. set (s := match state with Some s => s | None => s0 end) in *.
    set (l := (x, y) :: r) in *. set (l' := (x, y') :: r') in *.
    destruct (lax_scan osl_f s l) as [c o] eqn:E. destruct (lax_scan osl_f s l') as [c' o'] eqn:E'.
    assert (o = ys) by congruence. assert (o' = ys') by congruence. subst o o'.
    assert (N : forall i xy, nth_error l i = Some xy -> nth_error ys i = Some (snd (osl_f (scan_carry osl_f s (firstn i l)) xy))).
    { intros i xy Hi. pose proof (lax_scan_nth osl_f s l i xy Hi) as L. rewrite E in L. exact L. }
    assert (N' : forall i xy, nth_error l' i = Some xy -> nth_error ys' i = Some (snd (osl_f (scan_carry osl_f s (firstn i l')) xy))).
    { intros i xy Hi. pose proof (lax_scan_nth osl_f s l' i xy Hi) as L. rewrite E' in L. exact L. }
    pose proof (lax_scan_length osl_f s l) as L. rewrite E in L. cbn [snd] in L.
    pose proof (lax_scan_length osl_f s l') as L'. rewrite E' in L'. cbn [snd] in L'.
    apply nth_error_ext. intros i.
    destruct (Nat.lt_ge_cases i (t + 1)) as [Hi|Hi].
    2:{ rewrite !(proj2 (nth_error_None _ _)); auto; rewrite firstn_length; lia. }
    rewrite !nth_error_firstn by auto. rewrite !nth_error_map.
    assert (Hxi : option_map fst (nth_error l i) = option_map fst (nth_error l' i)).
    { apply (f_equal (fun z => nth_error z i)) in Hx. rewrite !nth_error_firstn in Hx by auto. rewrite !nth_error_map in Hx. exact Hx. }
    assert (Hpre : firstn i l = firstn i l').
    { apply (f_equal (firstn i)) in Ht. rewrite !firstn_firstn in Ht. replace (Nat.min i t) with i in Ht by lia. exact Ht. }
    destruct (nth_error l i) as [[xi yi]|] eqn:Ei; destruct (nth_error l' i) as [[xi' yi']|] eqn:Ei'; try discriminate.
    - cbn in Hxi. assert (xi' = xi) by congruence. subst xi'.
      rewrite (N i _ Ei), (N' i _ Ei'). cbn [option_map]. f_equal. rewrite <- Hpre.
      pose proof (osl_first_y (scan_carry osl_f s (firstn i l)) xi yi yi') as G. unfold osl_f at 1 3.
      destruct (osl_step split model loss opt fillg grad (scan_carry osl_f s (firstn i l)) (xi, yi)) as [[a b] c1].
      destruct (osl_step split model loss opt fillg grad (scan_carry osl_f s (firstn i l)) (xi, yi')) as [[a' b'] c1'].
      exact G.
    - assert (length l <= i) by (apply nth_error_None; auto). assert (length l' <= i) by (apply nth_error_None; auto).
      rewrite (proj2 (nth_error_None ys i)) by lia. rewrite (proj2 (nth_error_None ys' i)) by lia. reflexivity.
  Qed.
End Learner.

(** optax transformations keep the keys *)
Lemma optax_keeps {OS} (o : gradient_transformation OS array) : keeps_proper (optax_opt o).
Proof.
  intros os p g H. unfold optax_opt, optax_optimizer. destruct (opt_update o g os) as [u os']. cbn [fst].
  unfold proper, apply_updates. rewrite map_map. cbn [fst]. exact H.
Qed.

Lemma get_each f (g : pmap array) k : get k (each_entry f g) = option_map (map f) (get k g).
Proof.
  induction g as [|[k0 v0] g IH]; cbn; auto. destruct (pkey_eqb k k0); auto.
Qed.
Lemma get_apply_updates p u k : get k (apply_updates p u) =
  option_map (fun v => match get k u with Some d => map (fun ab => fadd (fst ab) (snd ab)) (combine v d) | None => v end) (get k p).
Proof.
  unfold apply_updates.
  assert (G : forall q, get k (map (fun kv : pkey * array => (fst kv, match get (fst kv) u with Some uv => map (fun ab => fadd (fst ab) (snd ab)) (combine (snd kv) uv) | None => snd kv end)) q) =
    option_map (fun v => match get k u with Some d => map (fun ab => fadd (fst ab) (snd ab)) (combine v d) | None => v end) (get k q)).
  { induction q as [|[k0 v0] q IH]; cbn; auto. destruct (pkey_eqb_spec k k0); [subst; reflexivity|exact IH]. }
  apply G.
Qed.

(** one step of SGD *)
Lemma sgd_step lr os p g p' os' :
  optax_opt (sgd lr) os p (each_entry zeroed g) = (p', os') ->
  map fst p' = map fst p /\
  forall key v d, get key p = Some v -> get key g = Some d -> length d = length v ->
    exists w, get key p' = Some w /\ length w = length v /\
    forall i a b, nth_error v i = Some a -> nth_error d i = Some b ->
      nth_error w i = Some (match b with Fin r => fsub a (Fin (lr * r)) | _ => a end).
Proof.
  unfold optax_opt, optax_optimizer. cbn [sgd opt_update]. intros H.
  assert (E : p' = apply_updates p (map (fun kv => (fst kv, map (fmul (Fin (- lr)%R)) (snd kv))) (each_entry zeroed g))) by congruence.
  subst p'. clear H. split.
  - unfold apply_updates. rewrite map_map. reflexivity.
  - intros key v d Hv Hd Hl. rewrite get_apply_updates, Hv. cbn [option_map].
    change (map (fun kv => (fst kv, map (fmul (Fin (- lr)%R)) (snd kv))) (each_entry zeroed g)) with (each_entry (fmul (Fin (- lr)%R)) (each_entry zeroed g)).
    rewrite !get_each, Hd. cbn [option_map]. eexists. split; [reflexivity|]. split.
    + rewrite map_length, combine_length, !map_length. lia.
    + intros i a b Ha Hb. rewrite nth_error_map.
      assert (Hc : nth_error (combine v (map (fmul (Fin (- lr)%R)) (map zeroed d))) i = Some (a, fmul (Fin (- lr)%R) (zeroed b))).
      { clear Hv Hd Hl. revert d i a b Ha Hb. induction v as [|a0 v IH]; intros [|b0 d] [|i] a b Ha Hb; try discriminate; cbn [nth_error map combine] in *.
        - injection Ha as ->. injection Hb as ->. reflexivity.
        - apply IH; auto. }
      rewrite Hc. cbn [option_map fst snd]. f_equal.
      destruct b; cbn; try (rewrite Rmult_0_r; destruct a; cbn; try reflexivity; rewrite Rplus_0_r; reflexivity).
      unfold fsub. cbn. replace (- lr * r)%R with (- (lr * r))%R by ring. reflexivity.
Qed.

(** no finite entry in the gradients: nothing moves *)
Lemma sgd_missing lr os p g p' os' :
  proper p ->
  (forall key d b, get key g = Some d -> In b d -> isfinite b = false) ->
  (forall key v, get key p = Some v -> exists d, get key g = Some d /\ length d = length v) ->
  optax_opt (sgd lr) os p (each_entry zeroed g) = (p', os') -> p' = p.
Proof.
  intros Hp Hnan Hsh H. destruct (sgd_step lr os p g p' os' H) as [Hk Hv].
  assert (G : forall key, get key p' = get key p).
  { intros key. destruct (get key p) as [v|] eqn:Ev.
    - destruct (Hsh key v Ev) as (d & Hd & Hl). destruct (Hv key v d Ev Hd Hl) as (w & Hw & Lw & Hi). rewrite Hw. f_equal.
      apply nth_error_ext. intros i. destruct (Nat.lt_ge_cases i (length v)) as [L|L].
      + destruct (nth_error_lt v i L) as [a Ha]. destruct (nth_error_lt d i) as [b Hb]; [lia|].
        rewrite (Hi i a b Ha Hb), Ha. f_equal. specialize (Hnan key d b Hd (nth_error_In _ _ Hb)). destruct b; auto; discriminate.
      + rewrite !(proj2 (nth_error_None _ _)); auto; lia.
    - apply get_none. rewrite Hk. apply get_none. exact Ev. }
  clear H Hv Hnan Hsh. revert p' Hk G. induction p as [|[k v] p IH]; intros [|[k' v'] p'] Hk G; try discriminate; auto.
  cbn in Hk. assert (k' = k) by congruence. assert (Ek : map fst p' = map fst p) by congruence. subst k'.
  inversion Hp as [|? ? Hn Hd]; subst.
  pose proof (G k) as Gk. cbn in Gk. rewrite pkey_eqb_refl in Gk. assert (v' = v) by congruence. subst v'. f_equal.
  apply IH; [exact Hd|exact Ek|]. intros q. pose proof (G q) as Gq. cbn in Gq. destruct (pkey_eqb_spec q k) as [Eq|]; [|exact Gq].
  rewrite Eq, (proj1 (get_none k p')), (proj1 (get_none k p)); auto. rewrite Ek. exact Hn.
Qed.
