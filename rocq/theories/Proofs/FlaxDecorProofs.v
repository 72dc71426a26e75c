From Coq Require Import String List Bool Arith Lia Reals DecimalString DecimalNat DecimalFacts.
From Verif Require Import Model.Unroll Model.Float Model.FlaxModules Model.FlaxCore Model.Compressed Model.FlaxDecor Spec.FlaxCoreSpec
  Proofs.ListFacts Proofs.FlaxProofs Proofs.FlaxCoreProofs3.
Import ListNotations.

Section Dec.
  Context {SP SF X O Y : Type} (pattern : SP -> X -> option (O * SP)) (fn : flax_module SF (O * X) Y).

  Lemma decorated_runs xs : forall sp sf,
    calls (decorated pattern fn) (sp, sf) xs =
    match calls pattern sp xs with
    | None => None
    | Some (os, sp') => let '(ys, sf') := alone fn sf (combine os xs) in Some (ys, (sp', sf'))
    end.
  Proof.
    unfold alone. induction xs as [|x xs IH]; intros sp sf; [reflexivity|]. cbn [calls]. unfold decorated at 1. cbn [fst snd].
    destruct (pattern sp x) as [[o sp1]|]; [|reflexivity].
    destruct (fx_call fn sf (o, x)) as [y sf1] eqn:Ef. rewrite IH.
    destruct (calls pattern sp1 xs) as [[os sp2]|]; [|reflexivity].
    cbn [combine flax_calls]. rewrite Ef. destruct (flax_calls fn sf1 (combine os xs)). reflexivity.
  Qed.
End Dec.

Lemma calls_total {S X Z Y} (call : S -> Z -> Y * S) (g : X -> Z) xs : forall s,
  calls (fun s x => Some (call s (g x))) s xs =
  Some (let '(ys, s') := flax_calls (FlaxModule (fun _ => s) call) s (map g xs) in (ys, s')).
Proof.
  induction xs as [|x xs IH]; intros s; [reflexivity|]. cbn [calls map flax_calls fx_call].
  destruct (call s (g x)) as [y s1]. rewrite IH.
  assert (G : forall v v' s0 l, flax_calls (FlaxModule v call) s0 l = flax_calls (FlaxModule v' call) s0 l).
  { clear. intros v v' s0 l. revert s0. induction l as [|z l IH]; intros s0; [reflexivity|]. cbn [flax_calls fx_call].
    destruct (call s0 z) as [y s1]. rewrite IH. reflexivity. }
  rewrite (G (fun _ => s) (fun _ => s1)). destruct (flax_calls _ s1 (map g xs)). reflexivity.
Qed.

Lemma flax_calls_vars {S X Y} (m : flax_module S X Y) v s xs : flax_calls (FlaxModule v (fx_call m)) s xs = flax_calls m s xs.
Proof.
  revert s; induction xs as [|x xs IH]; intros s; [reflexivity|]. cbn [flax_calls fx_call].
  destruct (fx_call m s x) as [y s1]. rewrite IH. reflexivity.
Qed.

(** a decorator whose pattern is a module called on the first argument *)
Lemma decorated_module {S SF Z A O Y} (m : flax_module S Z O) (fn : flax_module SF (O * (Z * A)) Y) s f (xs : list (Z * A)) :
  calls (decorated (fun st xa => Some (fx_call m st (fst xa))) fn) (s, f) xs =
  let '(os, s') := alone m s (map fst xs) in
  let '(ys, f') := alone fn f (combine os xs) in Some (ys, (s', f')).
Proof.
  rewrite decorated_runs. rewrite (calls_total (fx_call m) (@fst Z A)). rewrite flax_calls_vars. unfold alone.
  destruct (flax_calls m s (map fst xs)) as [os s']. reflexivity.
Qed.

(** the names of the patterns *)
Lemma to_uint_nonnil n : Nat.to_uint n <> Decimal.Nil.
Proof.
  intros H. pose proof (Unsigned.to_of (Nat.to_uint n)) as E. rewrite Unsigned.of_to, H in E. cbn in E. discriminate.
Qed.
Lemma pattern_name_inj i j : pattern_name i = pattern_name j -> i = j.
Proof.
  unfold pattern_name. intros H. cbn in H. repeat (injection H as H).
  apply (f_equal NilZero.uint_of_string) in H. rewrite !NilZero.usu in H.
  - injection H as H. apply (f_equal Nat.of_uint) in H. rewrite !Unsigned.of_to in H. exact H.
  - apply to_uint_nonnil.
  - apply to_uint_nonnil.
Qed.
Lemma numbered_names {M} (ms : list M) : map fst (numbered ms) = map pattern_name (seq 0 (length ms)).
Proof.
  unfold numbered. assert (G : forall (a : list string) (b : list M), length a = length b -> map fst (combine a b) = a).
  { induction a as [|x a IH]; intros [|y b] H; try discriminate; [reflexivity|]. cbn. f_equal. apply IH. cbn in H. lia. }
  apply G. rewrite map_length, seq_length. reflexivity.
Qed.
Lemma numbered_spec {M} (ms : list M) :
  NoDup (map fst (numbered ms)) /\ map snd (numbered ms) = ms /\
  forall i m, nth_error ms i = Some m -> nth_error (numbered ms) i = Some (pattern_name i, m).
Proof.
  assert (ND : NoDup (map fst (numbered ms))).
  { rewrite numbered_names. apply FinFun.Injective_map_NoDup; [exact pattern_name_inj|apply seq_NoDup]. }
  split; [exact ND|].
  assert (G : forall (l : list M) n, map snd (combine (map pattern_name (seq n (length l))) l) = l /\
            forall i m, nth_error l i = Some m -> nth_error (combine (map pattern_name (seq n (length l))) l) i = Some (pattern_name (n + i), m)).
  { clear. induction l as [|a l IH]; intros n; split; [reflexivity|intros [|i] m H; discriminate| |].
    - cbn. f_equal. apply (IH (S n)).
    - intros [|i] m H; cbn in H |- *.
      + rewrite Nat.add_0_r. congruence.
      + destruct (IH (S n)) as [_ G]. replace (n + S i) with (S n + i) by lia. exact (G i m H). }
  destruct (G ms 0) as [G1 G2]. split; [exact G1|]. intros i m H. exact (G2 i m H).
Qed.

(** *** the optimiser with auxiliary outputs *)
Section Aux.
  Context {S X Y A L T O : Type}.
  Variables (model : flax_module S X (Y * A)) (target : X -> T) (vg : Y -> T -> R -> L * R) (opt_init : R -> O)
    (opt_update : R -> O -> R -> R * O).
  Definition without_aux : flax_module S X Y :=
    FlaxModule (fx_vars model) (fun s x => let '((y, a), s') := fx_call model s x in (y, s')).

  Lemma sopt_aux xs : forall st,
    let '(ys, st') := alone (streaming_optimizer (StreamingOptimizerAux model target vg opt_init opt_update)) st xs in
    alone (streaming_optimizer (StreamingOptimizer without_aux target vg opt_init opt_update)) st xs = (map fst ys, st') /\
    map snd ys = map snd (fst (alone model (fst st) xs)) /\
    fst st' = snd (alone model (fst st) xs).
  Proof.
    unfold alone. induction xs as [|x xs IH]; intros [s [sc os]]; [repeat split|].
    set (m1 := streaming_optimizer (StreamingOptimizerAux model target vg opt_init opt_update)) in *.
    set (m2 := streaming_optimizer (StreamingOptimizer without_aux target vg opt_init opt_update)) in *.
    destruct (fx_call model s x) as [[y a] s1] eqn:Em. destruct (vg y (target x) sc) as [l g] eqn:Ev.
    destruct (opt_update g os sc) as [u os'] eqn:Eo.
    assert (E1 : fx_call m1 (s, (sc, os)) x = ((l, y, a), (s1, ((sc + u)%R, os')))).
    { unfold m1. cbn. rewrite Em, Ev, Eo. reflexivity. }
    assert (E2 : fx_call m2 (s, (sc, os)) x = ((l, y), (s1, ((sc + u)%R, os')))).
    { unfold m2. cbn. rewrite Em, Ev, Eo. reflexivity. }
    specialize (IH (s1, ((sc + u)%R, os'))). cbn [fst] in IH. cbn [flax_calls fst]. rewrite E1, E2, Em.
    destruct (flax_calls m1 (s1, ((sc + u)%R, os')) xs) as [ys st']. destruct IH as (H1 & H2 & H3). rewrite H1.
    destruct (flax_calls model s1 xs) as [os2 s2]. cbn [map fst snd] in *. split; [reflexivity|]. split; [f_equal; exact H2|exact H3].
  Qed.
End Aux.

(** the decorator returns the loss and the output of each step *)
Lemma streaming_optimizer_outputs {S X I U} (opt : flax_module S X (I * U)) xs : forall s,
  alone (streaming_optimizer opt) s xs = (map fst (fst (alone opt s xs)), snd (alone opt s xs)).
Proof.
  unfold alone. induction xs as [|x xs IH]; intros s; [reflexivity|]. set (m := streaming_optimizer opt) in *.
  destruct (fx_call opt s x) as [[i u] s1] eqn:E.
  assert (E1 : fx_call m s x = (i, s1)) by (unfold m; cbn; rewrite E; reflexivity).
  cbn [flax_calls]. rewrite E1, E, IH. destruct (flax_calls opt s1 xs). reflexivity.
Qed.

(** *** the selector *)
Lemma fit_spec d v : length (fit d v) = d /\ forall i, i < d -> nth i (fit d v) 0%R = nth i v 0%R.
Proof.
  unfold fit. destruct (Nat.ltb_spec d (length v)) as [L|L].
  - split; [rewrite firstn_length; lia|]. intros i Hi. rewrite <- (firstn_skipn d v) at 2. rewrite app_nth1; [reflexivity|rewrite firstn_length; lia].
  - split; [rewrite app_length, repeat_length; lia|]. intros i Hi. destruct (Nat.lt_ge_cases i (length v)).
    + rewrite app_nth1 by auto. reflexivity.
    + rewrite app_nth2, nth_repeat, nth_overflow by lia. reflexivity.
Qed.
Lemma fit_same d v v' : (forall i, i < d -> nth i v 0%R = nth i v' 0%R) -> fit d v = fit d v'.
Proof.
  intros H. destruct (fit_spec d v) as [L1 N1]. destruct (fit_spec d v') as [L2 N2].
  apply (nth_ext _ _ 0%R 0%R); [congruence|]. intros i Hi. rewrite L1 in Hi. rewrite N1, N2 by auto. apply H; auto.
Qed.

Lemma selector_same {E} (N d : nat) (dense : list R -> E) attend zero ua vs vs' :
  Forall2 (fun v v' => forall i, i < d -> nth i v 0%R = nth i v' 0%R) vs vs' ->
  forall s, alone (Selector N (fun v => dense (fit d v)) attend zero ua) s vs = alone (Selector N (fun v => dense (fit d v)) attend zero ua) s vs'.
Proof.
  unfold alone. induction 1 as [|v v' vs vs' Hv H IH]; intros s; [reflexivity|]. cbn [flax_calls fx_call Selector].
  assert (Ec : selector_call N (fun v => dense (fit d v)) attend zero ua s v = selector_call N (fun v => dense (fit d v)) attend zero ua s v').
  { unfold selector_call. rewrite (fit_same d v v' Hv). reflexivity. }
  rewrite Ec. destruct (selector_call N _ attend zero ua s v') as [o s1]. exact (f_equal (fun p => let '(ys, s2) := p in (o :: ys, s2)) (IH s1)).
Qed.

Lemma relevant_oldest {X E} (N : nat) (encode : X -> E) attend zero ua xs x0 cur k v :
  0 < N -> state_vector cur = Some v ->
  let st := snd (alone (Selector N encode attend zero ua) (fx_vars (Selector N encode attend zero ua) x0) xs) in
  let past := lastn N (map encode xs) in
  get_relevant_states N zero st cur k =
  Some (match past with [] => ([zero], [0%R]) | _ => (firstn k past, repeat (1 / INR (length past))%R (Nat.min k (length past))) end).
Proof.
  intros HN Hv st past. unfold get_relevant_states. rewrite Hv.
  assert (I : sel_inv N zero (map encode xs) st).
  { unfold st, alone. apply (sel_after N encode attend zero HN xs []). apply sel_inv_init. exact HN. }
  pose proof (sel_valid N zero HN (map encode xs) st I) as V. destruct I as (_ & _ & Sz & _). fold past in V. rewrite V.
  assert (Lp : length past = Nat.min (length (map encode xs)) N) by (unfold past, lastn; rewrite skipn_length; lia).
  rewrite Sz, <- Lp. destruct past as [|e past']; [reflexivity|]. cbn [length Nat.eqb]. set (past2 := e :: past') in *. change (S (length past')) with (length past2).
  f_equal. f_equal.
  - destruct (Nat.le_ge_cases k (length past2)).
    + rewrite Nat.min_l by auto. reflexivity.
    + rewrite Nat.min_r by auto. rewrite firstn_all, firstn_all2 by auto. reflexivity.
  - assert (G : forall (a : R) m n, m <= n -> firstn m (repeat a n) = repeat a m).
    { clear. induction m as [|m IH]; intros [|n] H; cbn; auto; try lia. f_equal. apply IH. lia. }
    apply G. lia.
Qed.
