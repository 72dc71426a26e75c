(** C124, C125: the processors of the scan demos, the conditional demo. *)
From Coq Require Import String List Arith ZArith Reals Lra Lia Bool.
From Verif Require Import Model.Unroll Model.Float Model.Modules Model.Ewm Model.FlaxModules Model.FlaxCore Model.Compositions
  Model.Demos Spec.EwmSpec Spec.FlaxSpec Spec.MaskSpec Spec.CompositionSpec Spec.DemoSpec
  Proofs.ListFacts Proofs.FloatFacts Proofs.RunFacts Proofs.EwmFacts Proofs.EwmProofs Proofs.FlaxProofs
  Proofs.CompositionProofs Proofs.CompositionProofs2 Proofs.DemoProofs.
Import ListNotations.
Local Open Scope R_scope.

(** a ring and an average side by side *)
Lemma pair_steps {Y} w fm c (call : ring_state fl * ewma_state -> fl -> Y * (ring_state fl * ewma_state)) :
  (forall st x, snd (call st x) = (snd (ring_call w (fst st) x), snd (ema_call fm c (snd st) x))) ->
  forall h st, steps call st h = (steps (ring_call w) (fst st) h, steps (ema_call fm c) (snd st) h).
Proof.
  intros H h. induction h as [|x h IH]; intros st; cbn [steps]; [destruct st; reflexivity|].
  rewrite IH, H. reflexivity.
Qed.
Lemma fmean_known l : l <> [] -> fmean (map of_option l) = mean_or_nan l.
Proof.
  intros Hne. unfold mean_or_nan. destruct (all_known l) as [r|] eqn:E.
  - apply all_known_some in E. subst l. rewrite map_map. change (fun x => of_option (Some x)) with Fin.
    apply fmean_Fin. intros ->. apply Hne. reflexivity.
  - apply all_known_none in E. unfold fmean, fsum. rewrite fsum_nan; [reflexivity|]. apply in_map_iff. exists None. auto.
Qed.
Lemma padded_ne {A} m (f : A) l : (0 < m)%nat -> padded_window m f l <> [].
Proof. intros H E. apply (f_equal (@length _)) in E. rewrite padded_length in E. cbn in E. lia. Qed.

Section Pair.
Context {Y : Type} (w : nat) (f : R) (fm a : R) (Hw : (0 < w)%nat) (Ha : 0 < a < 1)
  (call : ring_state fl * ewma_state -> fl -> Y * (ring_state fl * ewma_state)) (view : fl -> list fl -> fl -> Y)
  (Hcall : forall st x, call st x =
     (view x (fst (ring_call w (fst st) x)) (fst (ema_call fm (com_of_alpha a) (snd st) x)),
      (snd (ring_call w (fst st) x), snd (ema_call fm (com_of_alpha a) (snd st) x)))).
Lemma pair_ok o0 os t o : index_safe w (o0 :: os) -> nth_error os t = Some o ->
  nth_error (session (flax_tf (FlaxModule (fun _ => (ring_init w (Fin f), ema_vars)) call)) (of_option o0) (map of_option os)) t =
  Some (view (of_option o) (map of_option (padded_window w (Some f) (seen o0 os t))) (of_option (ema a (seen o0 os t)))).
Proof.
  intros Hs Ho. assert (Hlt : (t < length os)%nat) by (apply nth_error_Some; congruence).
  rewrite (session_nth _ _ _ t (of_option o)).
  2:{ rewrite nth_error_map, Ho. reflexivity. }
  cbn [fx_call fx_vars]. rewrite firstn_map.
  change (of_option o0 :: map of_option (firstn t os)) with (map of_option (o0 :: firstn t os)).
  rewrite (seen_snoc o0 os t o Ho). set (h := o0 :: firstn t os).
  rewrite (pair_steps w fm (com_of_alpha a)). 2:{ intros st x. rewrite Hcall. reflexivity. }
  rewrite Hcall. cbn [fst snd].
  assert (Hsafe : index_safe w (map of_option h ++ [of_option o])).
  { unfold index_safe in *. rewrite app_length, map_length. cbn [length] in *. subst h. cbn [length]. rewrite firstn_length.
    destruct Hs as [Hs|Hs]; [left; lia|right; exact Hs]. }
  rewrite (ring_window w (Fin f) _ _ Hw Hsafe), (ema_after fm a h o Ha).
  change (Fin f) with (of_option (Some f)). change ([of_option o]) with (map of_option [o]).
  rewrite <- map_app, padded_map. reflexivity.
Qed.
End Pair.

Lemma processor_ok fm o0 os t o : index_safe 5 (o0 :: os) -> nth_error os t = Some o ->
  nth_error (session (streaming_processor fm) (of_option o0) (map of_option os)) t =
  Some (ProcessorOut (of_option o) (of_option (ema (2 / 10) (seen o0 os t)))
          (mean_or_nan (padded_window 5 (Some 0) (seen o0 os t))) (volatility_of (padded_window 5 (Some 0) (seen o0 os t)))).
Proof.
  intros Hs Ho. unfold streaming_processor.
  rewrite (pair_ok 5 0 fm (2 / 10) ltac:(lia) ltac:(lra) (processor_call fm)
             (fun x w e => ProcessorOut x e (fmean w) (fstd w))) with (o := o); [|intros st x|exact Hs|exact Ho].
  - rewrite fmean_known, fstd_volatility by (apply padded_ne; lia). reflexivity.
  - unfold processor_call. destruct (ring_call 5 (fst st) x), (ema_call fm _ (snd st) x). reflexivity.
Qed.
Lemma simple_ok fm o0 os t o : index_safe 3 (o0 :: os) -> nth_error os t = Some o ->
  nth_error (session (simple_processor fm) (of_option o0) (map of_option os)) t =
  Some (SimpleOut (of_option o) (of_option (ema (1 / 2) (seen o0 os t))) (mean_or_nan (padded_window 3 (Some 0) (seen o0 os t)))).
Proof.
  intros Hs Ho. unfold simple_processor.
  rewrite (pair_ok 3 0 fm (1 / 2) ltac:(lia) ltac:(lra) (simple_call fm)
             (fun x w e => SimpleOut x e (fmean w))) with (o := o); [|intros st x|exact Hs|exact Ho].
  - rewrite fmean_known by (apply padded_ne; lia). reflexivity.
  - unfold simple_call. destruct (ring_call 3 (fst st) x), (ema_call fm _ (snd st) x). reflexivity.
Qed.

(** the mean of the first prices contains the zeros *)
Lemma processor_zeros fm p : p <> 0 ->
  exists y m, nth_error (session (streaming_processor fm) (Fin p) [Fin p]) 0 = Some y /\
    q_smoothed y = Fin p /\ q_mean y = Fin m /\ m = 2 / 5 * p.
Proof.
  intros Hp. eexists _, _. split.
  { apply (processor_ok fm (Some p) [Some p] 0 (Some p)); [left; cbn; lia|reflexivity]. }
  cbn [q_smoothed q_mean]. change (seen (Some p) [Some p] 0) with [Some p; Some p]. split; [|split].
  - rewrite (ema_const _ _ p); [reflexivity|lra|cbn; lia|]. apply Forall_cons; [reflexivity|apply Forall_cons; [reflexivity|constructor]].
  - reflexivity.
  - unfold mean_of, MaskSpec.total. cbn. field.
Qed.

(** *** the loop and the scan *)
Lemma scan_is_loop {K P S X Y} (tf : transformed K P S X Y) params xs : forall s,
  lax_scan (fun carry x => let '(o, n) := t_apply tf params carry None x in (n, o)) s xs =
  (snd (process_with_for_loop tf xs params s), fst (process_with_for_loop tf xs params s)).
Proof.
  induction xs as [|x xs IH]; intros s; cbn [lax_scan process_with_for_loop]; [reflexivity|].
  destruct (t_apply tf params s None x) as [o n]. rewrite IH.
  destruct (process_with_for_loop tf xs params n). reflexivity.
Qed.
Lemma loop_length {K P S X Y} (tf : transformed K P S X Y) params xs : forall s,
  length (fst (process_with_for_loop tf xs params s)) = length xs.
Proof.
  induction xs as [|x xs IH]; intros s; cbn [process_with_for_loop]; [reflexivity|].
  destruct (t_apply tf params s None x) as [o n]. specialize (IH n).
  destruct (process_with_for_loop tf xs params n). cbn in *. congruence.
Qed.
Lemma loop_applied {K P S X Y} (tf : transformed K P S X Y) params xs : forall s,
  fst (process_with_for_loop tf xs params s) = applied tf params s xs.
Proof.
  induction xs as [|x xs IH]; intros s; cbn [process_with_for_loop applied]; [reflexivity|].
  destruct (t_apply tf params s None x) as [o n]. specialize (IH n).
  destruct (process_with_for_loop tf xs params n). cbn in *. congruence.
Qed.
Lemma row_stack l i : row_of (stack_outputs l) i = nth_error l i.
Proof.
  unfold row_of, stack_outputs. cbn. rewrite !nth_error_map. destruct (nth_error l i) as [[]|]; reflexivity.
Qed.
Lemma collect_some {A} (l : list A) : collect (map Some l) = Some l.
Proof. induction l as [|x l IH]; cbn; [reflexivity|]. rewrite IH. reflexivity. Qed.
Lemma rows_all {A} (l : list A) : map (nth_error l) (seq 0 (length l)) = map Some l.
Proof.
  induction l as [|x l IH]; [reflexivity|]. cbn [length seq map nth_error]. f_equal.
  rewrite <- seq_shift, map_map. exact IH.
Qed.
Lemma scan_equals_loop fm prices s :
  process_with_jax_scan fm prices tt s = Some (process_with_for_loop (streaming_processor fm) prices tt s).
Proof.
  unfold process_with_jax_scan. rewrite scan_is_loop.
  pose proof (loop_length (streaming_processor fm) tt prices s) as L.
  destruct (process_with_for_loop (streaming_processor fm) prices tt s) as [l f]. cbn [fst snd] in *.
  rewrite (map_ext _ (nth_error l)) by (intros i; apply row_stack). rewrite <- L, rows_all, collect_some. reflexivity.
Qed.

(** *** the baseline *)
Lemma all_known_in l r : all_known l = Some r -> l <> [] -> r <> [].
Proof. intros H Hn ->. apply all_known_some in H. cbn in H. congruence. Qed.
Lemma baseline_ok fm o0 os t o : index_safe 5 (o0 :: os) -> nth_error os t = Some o ->
  nth_error (session (always_updating_baseline fm) (of_option o0) (map of_option os)) t =
  Some (baseline_view (seen o0 os t) o).
Proof.
  intros Hs Ho. unfold always_updating_baseline, price_vars.
  rewrite (pair_ok 5 100 fm (2 / 10) ltac:(lia) ltac:(lra) (price_signal "always_updated" fm)
             (fun x w e => [("price"%string, Arr x); ("smoothed"%string, Arr e);
                ("signal"%string, Arr (ftanh (fdiv (fsub x e) (fadd (fstd w) (Fin (1 / 10 ^ 6))))));
                ("volatility"%string, Arr (fstd w)); ("always_updated"%string, PyBool true)])) with (o := o);
    [|intros st x|exact Hs|exact Ho].
  - rewrite fstd_volatility by (apply padded_ne; lia). rewrite minus_of. unfold baseline_view. fold (price_window (seen o0 os t)).
    unfold baseline_signal, volatility_of.
    assert (E : ftanh (fdiv (of_option (minus o (ema (2 / 10) (seen o0 os t))))
                  (fadd match all_known (price_window (seen o0 os t)) with Some r => Fin (deviation r) | None => NaN end
                     (Fin (1 / 10 ^ 6)))) =
                of_option match minus o (ema (2 / 10) (seen o0 os t)), all_known (price_window (seen o0 os t)) with
                  | Some m, Some w => Some (tanh (m / (deviation w + 1 / 10 ^ 6)))
                  | _, _ => None end).
    { destruct (minus o _) as [m|]; [|destruct (all_known _); reflexivity]. destruct (all_known _) as [r|]; [|reflexivity].
      cbn [of_option fadd]. pose proof (eps_pos 6). pose proof (deviation_nonneg r).
      rewrite fdiv_Fin by lra. reflexivity. }
    rewrite E. reflexivity.
  - unfold price_signal. destruct (ring_call 5 (fst st) x), (ema_call fm _ (snd st) x). reflexivity.
Qed.
Lemma all_known_total l : ~ In None l -> exists r, all_known l = Some r.
Proof.
  intros H. destruct (all_known l) as [r|] eqn:E; [eauto|]. exfalso. apply H. apply all_known_none. exact E.
Qed.
Lemma all_known_no l : In None l -> all_known l = None.
Proof.
  intros H. destruct (all_known l) as [r|] eqn:E; [|reflexivity]. apply all_known_some in E. subst l.
  apply in_map_iff in H. destruct H as (x & Hx & _). discriminate.
Qed.
Lemma window_none h : In None (price_window h) <-> In None (skipn (length h - 5) h).
Proof.
  unfold price_window, padded_window. rewrite in_app_iff. split; [intros [H|H]|]; auto.
  apply repeat_spec in H. discriminate.
Qed.
Lemma skipn_snoc_in {A} n (h : list A) x : (n <= length h)%nat -> In x (skipn n (h ++ [x])).
Proof.
  intros H. rewrite skipn_app. replace (n - length h)%nat with 0%nat by lia. apply in_or_app. right. left. reflexivity.
Qed.
Lemma baseline_bounds h o :
  (In None (skipn (length (h ++ [o]) - 5) (h ++ [o])) /\ baseline_signal (h ++ [o]) o = None) \/
  (~ In None (skipn (length (h ++ [o]) - 5) (h ++ [o])) /\
   exists g, baseline_signal (h ++ [o]) o = Some g /\ -1 < g < 1).
Proof.
  unfold baseline_signal. destruct (all_known (price_window (h ++ [o]))) as [r|] eqn:E.
  - right. assert (Hn : ~ In None (skipn (length (h ++ [o]) - 5) (h ++ [o]))).
    { intros H. apply window_none in H. rewrite (all_known_no _ H) in E. discriminate. }
    split; [exact Hn|].
    destruct o as [p|].
    2:{ exfalso. apply Hn. apply skipn_snoc_in. rewrite app_length. cbn. lia. }
    destruct (ema (2 / 10) (h ++ [Some p])) as [e|] eqn:Ee.
    + cbn [minus]. eexists. split; [reflexivity|apply tanh_bound].
    + apply ema_none in Ee. rewrite count_app in Ee. cbn in Ee. lia.
  - left. apply all_known_none in E. apply window_none in E. split; [exact E|]. destruct (minus o _); reflexivity.
Qed.

(** *** the conditional demo *)
Lemma full_none o : full_outputs o = None <-> has_python_leaf o.
Proof.
  unfold has_python_leaf. induction o as [|[k l] o IH]; cbn [full_outputs].
  - split; [discriminate|intros (k & b & [])].
  - destruct l as [x|b|b]; cbn [full_leaf].
    + destruct (full_outputs o) as [r|].
      * split; [discriminate|]. intros (k' & b & [H|H]); [discriminate|].
        enough (Some r = None) by discriminate. apply IH. eauto.
      * split; [|reflexivity]. intros _. destruct (proj1 IH eq_refl) as (k' & b & H). exists k', b. right. exact H.
    + destruct (full_outputs o) as [r|].
      * split; [discriminate|]. intros (k' & b' & [H|H]); [discriminate|].
        enough (Some r = None) by discriminate. apply IH. eauto.
      * split; [|reflexivity]. intros _. destruct (proj1 IH eq_refl) as (k' & b' & H). exists k', b'. right. exact H.
    + split; [|reflexivity]. intros _. exists k, b. left. reflexivity.
Qed.
Lemma conditional_raises {S X} (vars : S) (call : S -> X -> outputs * S) ev x :
  conditional_init vars call ev x = None <-> has_python_leaf (fst (call vars x)).
Proof.
  rewrite <- full_none. unfold conditional_init, conditional_outputs. cbn [fst snd].
  destruct (call vars x) as [o s]. cbn [fst]. destruct (full_outputs o); split; congruence.
Qed.
Lemma high_price_raises fm x : high_price_init fm x = None.
Proof.
  apply conditional_raises. unfold price_signal.
  destruct (ema_call _ _ _ _), (ring_call _ _ _). cbn [fst]. exists "updated"%string, true. cbn. tauto.
Qed.
Lemma volume_raises fm d : volume_init fm d = None.
Proof.
  apply conditional_raises. unfold volume_signal. destruct d as [p v].
  destruct (ema_call _ _ (fst _) _), (ema_call _ _ (snd _) _). cbn [fst]. exists "high_volume_event"%string, true. cbn. tauto.
Qed.

(** outputs made of arrays only *)
Lemma full_some o : ~ has_python_leaf o -> full_outputs o = Some (nan_outputs o).
Proof.
  unfold has_python_leaf. induction o as [|[k l] o IH]; intros H; [reflexivity|]. cbn [full_outputs nan_outputs map fst snd].
  rewrite IH by (intros (k' & b & Hb); apply H; exists k', b; right; exact Hb). fold (nan_outputs o).
  destruct l as [x|b|b]; [reflexivity|reflexivity|]. exfalso. apply H. exists k, b. left. reflexivity.
Qed.
Lemma as_array_id k l o : ~ has_python_leaf o -> In (k, l) o -> as_array l = l.
Proof. intros H Hi. destruct l as [x|b|b]; [reflexivity|reflexivity|]. exfalso. apply H. exists k, b. exact Hi. Qed.
Lemma where_some c new cached : keys new = keys cached -> ~ has_python_leaf new -> ~ has_python_leaf cached ->
  where_outputs c new cached = if c then new else cached.
Proof.
  unfold where_outputs. revert cached. induction new as [|[k l] new IH]; intros [|[k' l'] cached] K Hn Hc; try discriminate.
  - destruct c; reflexivity.
  - cbn in K. injection K as -> K. cbn [combine map fst snd]. rewrite IH.
    + unfold where_leaf. destruct c.
      * rewrite (as_array_id k' l ((k', l) :: new) Hn (or_introl eq_refl)). reflexivity.
      * rewrite (as_array_id k' l' ((k', l') :: cached) Hc (or_introl eq_refl)). reflexivity.
    + exact K.
    + intros (q & b & Hb). apply Hn. exists q, b. right. exact Hb.
    + intros (q & b & Hb). apply Hc. exists q, b. right. exact Hb.
Qed.
Lemma nan_keys o : keys (nan_outputs o) = keys o.
Proof. unfold keys, nan_outputs. rewrite map_map. reflexivity. Qed.
Lemma nan_arrays o : ~ has_python_leaf (nan_outputs o).
Proof.
  intros (k & b & H). unfold nan_outputs in H. apply in_map_iff in H. destruct H as ([k' l] & E & _). cbn in E.
  destruct l; discriminate.
Qed.

Section Conditional.
Context {S X : Type} (ks : list string) (call : S -> X -> outputs * S) (ev : X -> bool).
Hypothesis Hk : forall s x, keys (fst (call s x)) = ks.
Hypothesis Ha : forall s x, ~ has_python_leaf (fst (call s x)).

Lemma conditional_step s (c : outputs) x : keys c = ks -> ~ has_python_leaf c ->
  conditional_outputs call ev (s, Some c) x =
  let c' := if ev x then fst (call s x) else c in Some (c', (snd (call s x), Some c')).
Proof using Hk Ha.
  intros K A. unfold conditional_outputs. cbn [fst snd]. pose proof (Hk s x) as Kx. pose proof (Ha s x) as Ax.
  destruct (call s x) as [o s']. cbn [fst snd] in *. rewrite where_some by (try congruence; assumption). reflexivity.
Qed.
Lemma conditional_all v0 xs : forall s (c : outputs), keys c = ks -> ~ has_python_leaf c ->
  exists outs, conditional_applies call ev (s, Some c) xs = Some outs /\ length outs = length xs /\
  forall t, (t < length xs)%nat ->
    nth_error outs t =
    Some (last_event (combine (map ev (firstn (t + 1) xs)) (firstn (t + 1) (fst (process_with_for_loop
            (flax_tf (FlaxModule (fun _ => v0) call)) xs tt s)))) c).
Proof using Hk Ha.
  induction xs as [|x xs IH]; intros s c K A.
  - exists []. split; [reflexivity|]. split; [reflexivity|]. cbn. lia.
  - cbn [conditional_applies]. rewrite conditional_step by assumption. cbv zeta.
    set (c' := if ev x then fst (call s x) else c).
    destruct (IH (snd (call s x)) c') as (outs & E & L & N).
    { unfold c'. destruct (ev x); [apply Hk|exact K]. }
    { unfold c'. destruct (ev x); [apply Ha|exact A]. }
    rewrite E. exists (c' :: outs). split; [reflexivity|]. split; [cbn; congruence|].
    intros [|t] Ht; cbn [process_with_for_loop flax_tf flax_transform_with_state t_apply fx_call].
    + unfold c'. destruct (call s x) as [o s'].
      destruct (process_with_for_loop _ xs tt s'). reflexivity.
    + cbn [nth_error]. cbn [length] in Ht. rewrite (N t) by lia.
      unfold c'. destruct (call s x) as [o s'] eqn:Ec. cbn [fst snd].
      change (Transformed _ _) with (flax_tf (FlaxModule (fun _ : X => v0) call)).
      destruct (process_with_for_loop _ xs tt s') as [l f]. reflexivity.
Qed.
Lemma conditional_ok s x0 xs :
  exists st outs, conditional_init s call ev x0 = Some st /\ conditional_applies call ev st xs = Some outs /\
  length outs = length xs /\
  forall t, (t < length xs)%nat ->
    nth_error outs t =
    Some (last_event (combine (map ev (seen x0 xs t)) (firstn (t + 2) (applied (flax_tf (FlaxModule (fun _ => s) call)) tt s (x0 :: xs))))
            (nan_outputs (fst (call s x0)))).
Proof using Hk Ha.
  unfold conditional_init, conditional_outputs. cbn [fst snd].
  destruct (call s x0) as [o s'] eqn:E. cbn [fst snd].
  pose proof (Ha s x0) as A. rewrite E in A. cbn [fst] in A. pose proof (Hk s x0) as K. rewrite E in K. cbn [fst] in K.
  rewrite (full_some o A). rewrite where_some by (try apply nan_arrays; try assumption; rewrite nan_keys; reflexivity).
  set (c := if ev x0 then o else nan_outputs o).
  destruct (conditional_all s xs s' c) as (outs & E1 & L & N).
  { unfold c. destruct (ev x0); [exact K|rewrite nan_keys; exact K]. }
  { unfold c. destruct (ev x0); [exact A|apply nan_arrays]. }
  eexists _, outs. split; [reflexivity|]. split; [exact E1|]. split; [exact L|]. intros t Ht. rewrite (N t Ht). f_equal.
  rewrite loop_applied. cbn [applied flax_tf flax_transform_with_state t_apply fx_call].
  rewrite E. unfold seen.
  replace (t + 2)%nat with (Datatypes.S (t + 1)) by lia. reflexivity.
Qed.
End Conditional.
