From Coq Require Import String List Bool Arith ZArith Relations Permutation Lia Reals Lra.
From Verif Require Import Model.Tree Model.Unroll Model.FlaxModules Model.FlaxCore Model.Modules Spec.FlaxSpec Spec.FlaxCoreSpec
  Proofs.ListFacts Proofs.RunFacts Proofs.BufferProofs Proofs.FlaxProofs Proofs.FlaxCoreProofs Proofs.HsmProofs.
Import ListNotations.

(** *** StreamingStateMachine *)
Section Machine.
  Context {S X Y : Type}.
  Variable states : list (string * flax_module S X Y).
  Variable transitions : list (string * list (string * (X -> bool))).

  Lemma find_split {A} (p : A -> bool) l a : find p l = Some a ->
    exists l1 l2, l = l1 ++ a :: l2 /\ p a = true /\ forall b, In b l1 -> p b = false.
  Proof.
    induction l as [|b l IH]; cbn; [discriminate|]. destruct (p b) eqn:E.
    - intros F. assert (b = a) by congruence. subst. exists [], l. split; [reflexivity|]. split; [exact E|intros ? []].
    - intros F. destruct (IH F) as (l1 & l2 & E1 & E2 & E3). exists (b :: l1), l2. subst. split; [reflexivity|].
      split; [exact E2|]. intros c [G|G]; [subst; exact E|auto].
  Qed.
  Lemma next_spec current x :
    first_transition transitions current x (get_next_state transitions current x) \/
    (no_transition transitions current x /\ get_next_state transitions current x = current).
  Proof.
    unfold get_next_state. destruct (lookup current transitions) as [conds|] eqn:L.
    - destruct (find (fun p => snd p x) conds) as [[n c]|] eqn:F.
      + left. destruct (find_split _ _ _ F) as (l1 & l2 & E1 & E2 & E3). exists l1, c, l2.
        split; [congruence|]. split; [exact E2|]. intros n' c' I. exact (E3 _ I).
      + right. split; [|reflexivity]. intros l n' c' El I. assert (l = conds) by congruence. subst.
        exact (find_none _ _ F _ I).
    - right. split; [|reflexivity]. intros l n' c' El. congruence.
  Qed.

  Lemma machine_trajectory xs : forall current st ys final st',
    machine_run states transitions (current, st) xs = Some (ys, (final, st')) ->
    length ys = length xs /\ nth_error (visited current ys) (length xs) = Some final /\
    forall t x, nth_error xs t = Some x -> exists c n,
      nth_error (visited current ys) t = Some c /\ nth_error (visited current ys) (t + 1) = Some n /\
      (first_transition transitions c x n \/ (no_transition transitions c x /\ n = c)).
  Proof.
    induction xs as [|x xs IH]; intros current st ys final st' E; cbn [machine_run] in E.
    - assert (ys = []) by congruence. assert (final = current) by congruence. subst. split; [reflexivity|].
      split; [reflexivity|]. intros t x H. destruct t; discriminate.
    - unfold machine_call in E. destruct (lookup current states) as [m|]; [|discriminate].
      destruct (fx_call m (st current) x) as [o s']. set (nx := get_next_state transitions current x) in *.
      destruct (machine_run states transitions (nx, upd st current s') xs) as [[ys' [f' st2]]|] eqn:R; [|discriminate].
      assert (ys = (o, nx) :: ys') by congruence. assert (f' = final) by congruence. subst ys f'.
      destruct (IH _ _ _ _ _ R) as [L [F T]]. split; [cbn; congruence|]. split.
      + exact F.
      + intros t y Hy. destruct t as [|t].
        * cbn in Hy. assert (y = x) by congruence. subst y. exists current, nx. split; [reflexivity|].
          split; [reflexivity|]. apply next_spec.
        * destruct (T t y Hy) as (c & n & H1 & H2 & H3). exists c, n. split; [exact H1|]. split; [exact H2|exact H3].
  Qed.

  Lemma when_cons {A B : Type} q c (o : B) (nx : string) (ys' : list (B * string)) (a : A) l :
    when q (visited c ((o, nx) :: ys')) (a :: l) =
    if String.eqb c q then a :: when q (visited nx ys') l else when q (visited nx ys') l.
  Proof. reflexivity. Qed.
  Lemma machine_states xs : forall current st ys final st' q m,
    machine_run states transitions (current, st) xs = Some (ys, (final, st')) -> lookup q states = Some m ->
    (when q (visited current ys) (map fst ys), st' q) = flax_calls m (st q) (when q (visited current ys) xs).
  Proof.
    induction xs as [|x xs IH]; intros current st ys final st' q m E Lq; cbn [machine_run] in E.
    - assert (ys = []) by congruence. assert (st' = st) by congruence. subst. cbn. destruct (String.eqb current q); reflexivity.
    - unfold machine_call in E. destruct (lookup current states) as [mc|] eqn:Lc; [|discriminate].
      destruct (fx_call mc (st current) x) as [o s'] eqn:C. set (nx := get_next_state transitions current x) in *.
      destruct (machine_run states transitions (nx, upd st current s') xs) as [[ys' [f' st2]]|] eqn:R; [|discriminate].
      assert (ys = (o, nx) :: ys') by congruence. assert (st2 = st') by congruence. subst ys st2.
      specialize (IH _ _ _ _ _ q m R Lq). cbn [map fst]. rewrite !when_cons. destruct (String.eqb_spec current q) as [F|F].
      + subst q. assert (mc = m) by congruence. subst mc. cbn [flax_calls]. rewrite C.
        unfold upd in IH. rewrite String.eqb_refl in IH. rewrite <- IH. reflexivity.
      + unfold upd in IH. destruct (String.eqb_spec q current); [congruence|]. exact IH.
  Qed.

  Lemma machine_total xs : forall current st,
    (forall s l n c, lookup s transitions = Some l -> In (n, c) l -> In n (map fst states)) ->
    In current (map fst states) -> machine_run states transitions (current, st) xs <> None.
  Proof.
    induction xs as [|x xs IH]; intros current st T I; cbn [machine_run]; [discriminate|].
    unfold machine_call. destruct (lookup current states) as [m|] eqn:L.
    - destruct (fx_call m (st current) x) as [o s'].
      assert (In (get_next_state transitions current x) (map fst states)).
      { destruct (next_spec current x) as [(l1 & c & l2 & E1 & _)|[_ E]]; [|rewrite E; exact I].
        eapply T; [exact E1|]. apply in_app_iff. right. left. reflexivity. }
      specialize (IH _ (upd st current s') T H).
      destruct (machine_run states transitions (get_next_state transitions current x, upd st current s') xs) as [[? ?]|];
        congruence.
    - apply lookup_None in L. contradiction.
  Qed.
End Machine.

(** *** streaming_scan *)
Section Scan.
  Context {K P S X Y : Type}.
  Variable tf : transformed K P S X Y.

  Definition scan_from (p : P) (rng : option K) (s : S) (xs : list X) : S * list Y :=
    lax_scan (fun carry x => let '(o, s') := t_apply tf p carry rng x in (s', o)) s xs.

  Lemma segments_ne (r : X -> bool) xs : segments r xs <> [].
  Proof. destruct xs as [|x xs]; cbn; [congruence|]. destruct (r x); [congruence|]. destruct (segments r xs); congruence. Qed.
  Lemma segments_concat (r : X -> bool) xs : concat (segments r xs) = xs.
  Proof.
    induction xs as [|x xs IH]; cbn; [reflexivity|]. destruct (r x); cbn; [congruence|].
    destruct (segments r xs) eqn:E; [destruct (segments_ne r xs E)|]. cbn in *. congruence.
  Qed.

  Lemma segmented_scan (r : X -> bool) p rng s0 xs : forall s,
    let F := lax_scan (fun carry x => let '(o, s') := t_apply tf p carry rng x in
                         ((if r x then s0 else s'), o)) s xs in
    match segments r xs with
    | [] => False
    | seg :: more =>
        snd F = snd (scan_from p rng s seg) ++ concat (map (fun g => snd (scan_from p rng s0 g)) more) /\
        fst F = match more with [] => fst (scan_from p rng s seg) | _ => fst (scan_from p rng s0 (last more [])) end
    end.
  Proof.
    induction xs as [|x xs IH]; intros s; cbn [segments lax_scan].
    - cbn. auto.
    - destruct (r x) eqn:R.
      + specialize (IH s0). destruct (t_apply tf p s rng x) as [o s'] eqn:T.
        destruct (lax_scan _ s0 xs) as [c ys]. cbn [fst snd] in *.
        destruct (segments r xs) as [|seg more] eqn:Sg; [destruct IH|]. destruct IH as [I1 I2].
        unfold scan_from at 1. cbn [lax_scan]. rewrite T. cbn [snd app map concat].
        split; [rewrite I1; reflexivity|]. rewrite I2. destruct more; reflexivity.
      + destruct (t_apply tf p s rng x) as [o s'] eqn:T. specialize (IH s').
        destruct (lax_scan _ s' xs) as [c ys]. cbn [fst snd] in *.
        destruct (segments r xs) as [|seg more] eqn:Sg; [destruct IH|]. destruct IH as [I1 I2].
        unfold scan_from at 1 3. cbn [lax_scan]. rewrite T.
        fold (scan_from p rng s' seg). unfold scan_from at 1 in I1. unfold scan_from at 1 in I2.
        unfold scan_from at 1 3.
        destruct (lax_scan (fun carry x => let '(o, s') := t_apply tf p carry rng x in (s', o)) s' seg) as [c' ys'].
        cbn [fst snd] in *. split; [rewrite I1; reflexivity|exact I2].
  Qed.
End Scan.

Section Scan2.
  Context {K P S X Y : Type}.
  Variable k0 : K.
  Variable tf : transformed K P S X Y.

  Lemma sts_eq p s rng xs : streaming_transform_scan tf p s rng xs = (snd (scan_from tf p rng s xs), fst (scan_from tf p rng s xs)).
  Proof. unfold streaming_transform_scan, scan_from. destruct (lax_scan _ s xs). reflexivity. Qed.

  Theorem streaming_scan_segments (r : X -> bool) xs p s rng :
    streaming_scan k0 tf (Some r) true xs (Some p) (Some s) rng =
    Some (concat (map (fun g => fst (streaming_transform_scan tf p s rng g)) (segments r xs)),
          snd (streaming_transform_scan tf p s rng (last (segments r xs) []))).
  Proof.
    unfold streaming_scan. pose proof (segmented_scan tf r p rng s xs s) as H. cbn zeta in H.
    destruct (lax_scan _ s xs) as [c ys] eqn:E.
    destruct (segments r xs) as [|seg more] eqn:Sg; [destruct H|]. destruct H as [H1 H2].
    cbn [fst snd] in H1, H2.
    f_equal. rewrite sts_eq. cbn [map concat snd]. f_equal.
    - rewrite H1. f_equal; [rewrite sts_eq; reflexivity|]. f_equal. apply map_ext. intros g. rewrite sts_eq. reflexivity.
    - rewrite H2. destruct more; reflexivity.
  Qed.

  Theorem streaming_scan_no_reset reset_on preserve xs p s rng : reset_on = None \/ preserve = false ->
    streaming_scan k0 tf reset_on preserve xs (Some p) (Some s) rng = Some (streaming_transform_scan tf p s rng xs).
  Proof.
    intros H. unfold streaming_scan, streaming_transform_scan.
    destruct H as [H|H]; subst.
    - destruct (lax_scan _ s xs). reflexivity.
    - destruct reset_on; destruct (lax_scan _ s xs); reflexivity.
  Qed.

  Theorem streaming_scan_init reset_on preserve x0 xs params state : params = None \/ state = None ->
    streaming_scan k0 tf reset_on preserve (x0 :: xs) params state None =
    let ps := t_init tf (Some k0) x0 in
    streaming_scan k0 tf reset_on preserve (x0 :: xs) (Some (fst ps)) (Some (snd ps)) None.
  Proof.
    intros H. unfold streaming_scan. destruct H; subst; [|destruct params];
      destruct (t_init tf (Some k0) x0); reflexivity.
  Qed.
  Theorem streaming_scan_key_raises reset_on preserve xs params state k : params = None \/ state = None ->
    streaming_scan k0 tf reset_on preserve xs params state (Some k) = None.
  Proof. intros H. unfold streaming_scan. destruct H; subst; [|destruct params]; destruct xs; reflexivity. Qed.
End Scan2.

Lemma segments_shape {X} (r : X -> bool) xs :
  concat (segments r xs) = xs /\
  (forall g, In g (removelast (segments r xs)) -> exists l x, g = l ++ [x] /\ r x = true /\ no_event r l) /\
  no_event r (last (segments r xs) []).
Proof.
  split; [apply segments_concat|]. induction xs as [|x xs [IH1 IH2]]; cbn [segments].
  - split; [intros g []|intros y []].
  - destruct (r x) eqn:R.
    + pose proof (segments_ne r xs) as NE. destruct (segments r xs) as [|seg more] eqn:E; [congruence|]. split.
      * intros g [F|F]; [|exact (IH1 g F)]. subst. exists [], x. split; [reflexivity|]. split; [exact R|intros y []].
      * exact IH2.
    + pose proof (segments_ne r xs) as NE. destruct (segments r xs) as [|seg more]; [congruence|].
      destruct more as [|g2 more].
      * split; [intros g []|]. intros y [F|F]; [subst; exact R|apply IH2; exact F].
      * split; [|exact IH2]. intros g [F|F].
        -- destruct (IH1 seg (or_introl eq_refl)) as (l & y & E1 & E2 & E3). exists (x :: l), y. subst.
           split; [reflexivity|]. split; [exact E2|]. intros z [G|G]; [subst; exact R|apply E3; exact G].
        -- apply IH1. right. exact F.
Qed.

Lemma streaming_scan_module_map {X Y} (fn : X -> Y) xs s :
  streaming_scan_module fn None xs s = Some (map fn xs, s).
Proof.
  unfold streaming_scan_module.
  assert (H : lax_scan (fun (carry : R) x => (carry, fn x)) s xs = (s, map fn xs)).
  { induction xs as [|x xs IH]; cbn [lax_scan map]; [reflexivity|]. rewrite IH. reflexivity. }
  rewrite H. reflexivity.
Qed.

(** *** ConditionalComputation *)
Section Conditional.
  Context {S X Y : Type}.
  Variable full_like : Y -> Y.
  Variable m : flax_module S X Y.

  Lemma conditional_none xs x0 : 
    flax_from_scratch (ConditionalComputation full_like m None) (x0 :: xs) = flax_from_scratch m (x0 :: xs).
  Proof.
    unfold flax_from_scratch.
    assert (H : forall l s c, fst (flax_calls (ConditionalComputation full_like m None) (s, c) l) = fst (flax_calls m s l)).
    { induction l as [|x l IH]; intros s c; cbn [flax_calls]; [reflexivity|].
      cbn [fx_call ConditionalComputation]. unfold conditional_call. destruct (fx_call m s x) as [y s'] eqn:E.
      specialize (IH s' (Some y)). 
      change (fx_call (ConditionalComputation full_like m None)) with (conditional_call full_like m None) in *.
      destruct (flax_calls (ConditionalComputation full_like m None) (s', Some y) l). 
      destruct (flax_calls m s' l). cbn in *. congruence. }
    apply H.
  Qed.

  Variable ev : X -> bool.
  Notation CC := (ConditionalComputation full_like m (Some ev)).

  (** the inner state *)
  Lemma conditional_inner xs : forall s c, fst (snd (flax_calls CC (s, c) xs)) = snd (flax_calls m s xs).
  Proof.
    induction xs as [|x l IH]; intros s c; [reflexivity|]. cbn [flax_calls].
    change (fx_call CC (s, c) x) with (conditional_call full_like m (Some ev) (s, c) x). unfold conditional_call.
    destruct (fx_call m s x) as [y s'] eqn:E.
    set (sel := if ev x then y else match c with Some c0 => c0 | None => full_like y end).
    specialize (IH s' (Some sel)). destruct (flax_calls CC (s', Some sel) l). destruct (flax_calls m s' l). exact IH.
  Qed.

  Lemma conditional_from xs : forall s c t, t < length xs ->
    let ys := fst (flax_calls CC (s, Some c) xs) in
    let zs := fst (flax_calls m s xs) in
    (forall i, last_event ev (firstn (t + 1) xs) i -> nth_error ys t = nth_error zs i) /\
    (no_event ev (firstn (t + 1) xs) -> nth_error ys t = Some c).
  Proof.
    induction xs as [|x l IH]; intros s c t Ht; [cbn in Ht; lia|]. cbn zeta. cbn [flax_calls].
    change (fx_call CC (s, Some c) x) with (conditional_call full_like m (Some ev) (s, Some c) x). unfold conditional_call.
    destruct (fx_call m s x) as [y s'] eqn:E. set (sel := if ev x then y else c).
    destruct t as [|t].
    - specialize (IH s' sel). destruct (flax_calls CC (s', Some sel) l) as [ys s2]. destruct (flax_calls m s' l) as [zs s3].
      cbn [fst nth_error firstn Nat.add]. split.
      + intros i [[z [Hz Ez]] _]. destruct i as [|i]; [|destruct i; discriminate]. cbn in Hz. cbn.
        assert (z = x) by congruence. subst. unfold sel. rewrite Ez. reflexivity.
      + intros N. unfold sel. rewrite (N x (or_introl eq_refl)). reflexivity.
    - assert (Ht' : t < length l) by (cbn in Ht; lia). specialize (IH s' sel t Ht'). cbn zeta in IH.
      destruct (flax_calls CC (s', Some sel) l) as [ys s2]. destruct (flax_calls m s' l) as [zs s3].
      cbn [fst nth_error Nat.add] in *. cbn [firstn]. destruct IH as [I1 I2]. split.
      + intros i [[z [Hz Ez]] La]. destruct i as [|i].
        * cbn in Hz. assert (z = x) by congruence. subst z.
          rewrite I2; [unfold sel; rewrite Ez; reflexivity|]. intros w Iw. apply In_nth_error in Iw.
          destruct Iw as [j Hj]. apply (La (Datatypes.S j) w); [lia|exact Hj].
        * apply I1. split; [exists z; split; [exact Hz|exact Ez]|]. intros j w Lt Hj.
          apply (La (Datatypes.S j) w); [lia|exact Hj].
      + intros N. rewrite I2; [|intros w Iw; apply N; right; exact Iw].
        unfold sel. rewrite (N x (or_introl eq_refl)). reflexivity.
  Qed.

  Theorem conditional_spec x0 xs t : t < length (x0 :: xs) ->
    let ys := flax_from_scratch CC (x0 :: xs) in
    let zs := flax_from_scratch m (x0 :: xs) in
    (forall i, last_event ev (firstn (t + 1) (x0 :: xs)) i -> nth_error ys t = nth_error zs i) /\
    (no_event ev (firstn (t + 1) (x0 :: xs)) -> nth_error ys t = option_map full_like (nth_error zs 0)).
  Proof.
    intros Ht. cbn zeta. unfold flax_from_scratch. cbn [fx_vars ConditionalComputation].
    assert (H : flax_calls CC (fx_vars m x0, None) (x0 :: xs) =
                flax_calls CC (fx_vars m x0, Some (full_like (fst (fx_call m (fx_vars m x0) x0)))) (x0 :: xs)).
    { cbn [flax_calls].
      change (fx_call CC (fx_vars m x0, None) x0) with (conditional_call full_like m (Some ev) (fx_vars m x0, None) x0).
      change (fx_call CC (fx_vars m x0, Some (full_like (fst (fx_call m (fx_vars m x0) x0)))) x0)
        with (conditional_call full_like m (Some ev) (fx_vars m x0, Some (full_like (fst (fx_call m (fx_vars m x0) x0)))) x0).
      unfold conditional_call. destruct (fx_call m (fx_vars m x0) x0). reflexivity. }
    rewrite H. destruct (conditional_from (x0 :: xs) (fx_vars m x0) (full_like (fst (fx_call m (fx_vars m x0) x0))) t Ht) as [H1 H2].
    split; [exact H1|]. intros N. rewrite (H2 N). cbn [flax_calls]. destruct (fx_call m (fx_vars m x0) x0) as [y s'].
    destruct (flax_calls m s' xs). reflexivity.
  Qed.
  Lemma conditional_inner_scratch x0 xs :
    fst (snd (flax_calls CC (fx_vars CC x0) (x0 :: xs))) = snd (flax_calls m (fx_vars m x0) (x0 :: xs)).
  Proof. apply conditional_inner. Qed.
End Conditional.

(** *** ConditionalStateUpdate *)
Section CondUpdate.
  Context {S X : Type}.
  Variable m : flax_module S X X.
  Variable cond : X -> bool.
  Notation CU := (ConditionalStateUpdate m cond).
  Theorem cond_update_spec xs : forall s,
    snd (flax_calls CU s xs) = snd (flax_calls m s (events cond xs)) /\
    forall t x, nth_error xs t = Some x ->
      nth_error (fst (flax_calls CU s xs)) t =
      if cond x then nth_error (fst (flax_calls m s (events cond xs))) (length (events cond (firstn t xs)))
      else Some x.
  Proof.
    induction xs as [|a l IH]; intros s.
    - split; [reflexivity|]. intros [|t] x H; discriminate.
    - cbn [flax_calls]. change (fx_call CU s a) with (conditional_update_call m cond s a). unfold conditional_update_call.
      unfold events in *. cbn [filter]. destruct (cond a) eqn:C.
      + cbn [flax_calls]. destruct (fx_call m s a) as [y s'] eqn:E. destruct (IH s') as [I1 I2].
        destruct (flax_calls CU s' l) as [ys s2]. destruct (flax_calls m s' (filter cond l)) as [zs s3].
        cbn [fst snd] in *. split; [exact I1|]. intros t x H. destruct t as [|t].
        * cbn in H. assert (x = a) by congruence. subst. rewrite C. reflexivity.
        * cbn in H. cbn [nth_error firstn filter]. rewrite C. cbn [length nth_error]. rewrite (I2 t x H). reflexivity.
      + destruct (IH s) as [I1 I2]. destruct (flax_calls CU s l) as [ys s2]. cbn [fst snd] in *.
        split; [exact I1|]. intros t x H. destruct t as [|t].
        * cbn in H. assert (x = a) by congruence. subst. rewrite C. reflexivity.
        * cbn in H. cbn [nth_error firstn filter]. rewrite C. exact (I2 t x H).
  Qed.
End CondUpdate.
