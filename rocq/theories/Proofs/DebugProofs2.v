(** Proofs for C82 (records), C83 (conditions), C84 (wrappers). *)
From Coq Require Import String List Bool Arith Lia Reals Lra.
From Verif Require Import Model.Float Model.FlaxOptim Model.Debug Spec.StreamSpec Spec.DebugSpec
  Proofs.FloatFacts Proofs.FlaxOptimProofs Proofs.StreamProofs Proofs.FlaxMoreProofs Proofs.DebugProofs.
Import ListNotations.
Local Open Scope list_scope.

Section Rec.
  Context {S I O M H : Type}.
  Variable copy : S -> H.
  Lemma records_exact (track_state track_perf : bool) (mx : nat) (ops : list (op S I O M)) :
    let items := seen track_perf true 0 [] ops in
    let l := since_clear items in
    let d : debugger S I O M H := session copy ops (new_debugger track_state track_perf mx) in
    d_history d = (if track_state then lastn mx (map (fun x => copy (ob_state x)) l) else []) /\
    d_times d = (if track_perf then flat_map (fun x => match ob_time x with Some t => [t] | None => [] end) l else []) /\
    d_steps d = (if track_perf then flat_map (fun x => match ob_time x with Some t => [ob_step x] | None => [] end) l else []) /\
    d_current d = count_seen items /\ d_globals d = [].
  Proof.
    cbn zeta. destruct (records_run copy ops (new_debugger track_state track_perf mx) []) as (A & B & C & D & E).
    - cbn. destruct track_state; reflexivity.
    - cbn. destruct track_perf; reflexivity.
    - cbn. destruct track_perf; reflexivity.
    - reflexivity.
    - cbn [new_debugger d_track_state d_track_perf d_max d_enabled d_current d_times] in *.
      fold (since_clear (seen track_perf true 0 [] ops)) in A, B, C.
      rewrite map_map in A. rewrite A, B, C, D, E. split; [reflexivity|].
      split; [|split; [|split; reflexivity]]; (destruct track_perf; [|reflexivity]); unfold timed;
        generalize (since_clear (seen true true 0 [] ops)) as l; clear;
        (induction l as [|x l IH]; cbn [flat_map map]; [reflexivity|]; rewrite map_app, IH; destruct (ob_time x); reflexivity).
  Qed.
  Lemma disabled_nothing (ops : list (op S I O M)) (d : debugger S I O M H) :
    d_enabled d = false -> Forall step_only ops -> session copy ops d = d.
  Proof.
    intros E. induction ops as [|op ops IH]; intros HF; [reflexivity|]. inversion HF as [|? ? H1 H2]; subst.
    unfold session. cbn [fold_left]. destruct op as [name s i o t| | | | |]; try contradiction. cbn [do_op].
    replace (debug_step copy name s i o t d) with d by (unfold debug_step; rewrite E; reflexivity). apply IH. exact H2.
  Qed.

  (** sessions of steps only *)
  Fixpoint step_obs (tp : bool) (n : nat) (ts : list R) (ops : list (op S I O M)) : list (obs S I O) :=
    match ops with
    | OStep name s i o t :: r =>
        let ts' := match t with Some x => if tp then ts ++ [x] else ts | None => ts end in
        Obs (n + 1) ts' name s i o t :: step_obs tp (n + 1) ts' r
    | _ => []
    end.
  Lemma seen_steps tp : forall ops n ts, Forall step_only ops -> seen tp true n ts ops = map Seen (step_obs tp n ts ops).
  Proof.
    induction ops as [|op ops IH]; intros n ts HF; [reflexivity|]. inversion HF as [|? ? H1 H2]; subst.
    destruct op as [name s i o t| | | | |]; try contradiction. cbn [seen step_obs map]. rewrite IH by exact H2. reflexivity.
  Qed.
  Lemma step_obs_steps tp : forall ops n ts, Forall step_only ops -> map ob_step (step_obs tp n ts ops) = seq (n + 1) (length ops).
  Proof.
    induction ops as [|op ops IH]; intros n ts HF; [reflexivity|]. inversion HF as [|? ? H1 H2]; subst.
    destruct op as [name s i o t| | | | |]; try contradiction. cbn [step_obs map length seq ob_step]. rewrite IH by exact H2.
    replace (n + 1 + 1) with (Datatypes.S (n + 1)) by lia. reflexivity.
  Qed.
  Lemma since_clear_seen (l acc : list (obs S I O)) : since_clear_from acc (map Seen l) = acc ++ l.
  Proof. revert acc. induction l as [|x l IH]; intros acc; cbn [map since_clear_from]; [now rewrite app_nil_r|]. rewrite IH, <- app_assoc. reflexivity. Qed.
  Lemma accepted_pure (c : condition S I O M) (p : obs S I O -> bool) m (l : list (obs S I O)) :
    (forall x, In x l -> snd (c m (ob_times x) (ob_step x) (ob_state x) (ob_in x) (ob_out x)) = m /\
       (match fst (c m (ob_times x) (ob_step x) (ob_state x) (ob_in x) (ob_out x)) with Some true => true | _ => false end) = p x) ->
    accepted c m (map Seen l) = map Seen (filter p l).
  Proof.
    induction l as [|x l IH]; intros Hp; [reflexivity|]. cbn [map accepted filter].
    destruct (Hp x (or_introl eq_refl)) as [E1 E2].
    destruct (c m (ob_times x) (ob_step x) (ob_state x) (ob_in x) (ob_out x)) as [b m']. cbn [fst snd] in *. subst m'.
    rewrite <- E2. destruct b as [[|]|]; cbn [map]; rewrite IH; auto; intros; apply Hp; right; assumption.
  Qed.
  Lemma steps_keep k (ops : list (op S I O M)) : Forall step_only ops -> Forall (keeps k) ops.
  Proof. intros HF. eapply Forall_impl; [|exact HF]. intros a. destruct a; cbn; tauto. Qed.

  (** a hook over a session of steps only *)
  Lemma hook_steps k (c : condition S I O M) (p : obs S I O -> bool) m a mx ops (d : debugger S I O M H) :
    Forall step_only ops -> d_enabled d = true ->
    (forall x, In x (step_obs (d_track_perf d) (d_current d) (d_times d) ops) ->
       snd (c m (ob_times x) (ob_step x) (ob_state x) (ob_in x) (ob_out x)) = m /\
       (match fst (c m (ob_times x) (ob_step x) (ob_state x) (ob_in x) (ob_out x)) with Some true => true | _ => false end) = p x) ->
    let l := filter p (step_obs (d_track_perf d) (d_current d) (d_times d) ops) in
    exists h, sget k (d_hooks (session copy ops (add_hook k (new_hook (Some c) m a mx) d))) = Some h /\
      h_hits h = length l /\ map e_step (h_events h) = lastn mx (map ob_step l).
  Proof.
    intros HF E Hp. cbn zeta. destruct (hook_exact copy k c m a mx ops d (steps_keep k ops HF)) as (h & A & B & C).
    exists h. rewrite E, seen_steps, accepted_pure with (p := p) in B, C by assumption.
    unfold since_clear in B, C. rewrite since_clear_seen in B, C. cbn [app] in B, C.
    split; [exact A|]. split; [exact B|]. rewrite C, <- lastn_map, map_map. f_equal.
  Qed.

  Lemma multiples k n : k <> 0 -> filter (fun j => j mod k =? 0) (seq 1 n) = map (fun j => j * k) (seq 1 (n / k)).
  Proof.
    intros Hk. induction n as [|n IH]; [rewrite Nat.div_0_l by exact Hk; reflexivity|].
    rewrite seq_S, filter_app, IH. cbn [plus filter]. clear IH.
    pose proof (Nat.div_mod n k Hk). pose proof (Nat.mod_upper_bound n k Hk).
    destruct (Datatypes.S n mod k =? 0) eqn:E.
    - apply Nat.eqb_eq in E.
      assert (Hd : Datatypes.S n / k = Datatypes.S (n / k)).
      { pose proof (Nat.div_mod (Datatypes.S n) k Hk) as HS. rewrite E in HS. nia. }
      rewrite Hd, seq_S, map_app. cbn [map]. f_equal. f_equal.
      pose proof (Nat.div_mod (Datatypes.S n) k Hk) as HS. rewrite E, Hd in HS.
      replace (1 + n / k) with (Datatypes.S (n / k)) by lia. nia.
    - apply Nat.eqb_neq in E. rewrite app_nil_r. f_equal. f_equal.
      pose proof (Nat.div_mod (Datatypes.S n) k Hk) as HS. pose proof (Nat.mod_upper_bound (Datatypes.S n) k Hk). nia.
  Qed.
  Lemma filter_map_comm {A B} (f : A -> B) p l : map f (filter (fun x => p (f x)) l) = filter p (map f l).
  Proof. induction l as [|x l IH]; [reflexivity|]. cbn [map filter]. destruct (p (f x)); cbn [map]; now rewrite IH. Qed.

  (** C83: step_interval *)
  Lemma step_interval_hits (name : string) (k : nat) (m : M) (a : action) (mx : nat) (ts tp : bool) (hist : nat)
      (ops : list (op S I O M)) :
    k <> 0 -> Forall step_only ops ->
    exists h, sget name (d_hooks (session copy ops (add_hook name (new_hook (Some (step_interval k)) m a mx)
                                 (new_debugger ts tp hist : debugger S I O M H)))) = Some h /\
      h_hits h = length ops / k /\
      map e_step (h_events h) = lastn mx (map (fun j => j * k) (seq 1 (length ops / k))).
  Proof.
    intros Hk HF.
    destruct (hook_steps name (step_interval k) (fun x => ob_step x mod k =? 0) m a mx ops (new_debugger ts tp hist) HF eq_refl)
      as (h & A & B & C).
    { intros x _. unfold step_interval. apply Nat.eqb_neq in Hk. rewrite Hk. cbn. split; [reflexivity|].
      destruct (ob_step x mod k =? 0); reflexivity. }
    exists h. split; [exact A|].
    assert (E : map ob_step (filter (fun x => ob_step x mod k =? 0)
       (step_obs tp 0 [] ops)) = map (fun j => j * k) (seq 1 (length ops / k))).
    { rewrite (filter_map_comm ob_step (fun j => j mod k =? 0)), step_obs_steps by exact HF. now apply multiples. }
    cbn [new_debugger d_track_perf d_current d_times] in *. rewrite C, E. split; [|reflexivity].
    rewrite B, <- (map_length ob_step), E, map_length, seq_length. reflexivity.
  Qed.

  (** C83: performance monitor *)
  Lemma perf_timed (name : string) (thr : R) (m : M) (ts : bool) (hist : nat) (ops : list (op S I O M)) (times : list R) :
    Forall2 (fun a t => match a with OStep _ _ _ _ t' => t' = Some t | _ => False end) ops times ->
    exists h, sget (String.append "perf_" name) (d_hooks (session copy ops (add_performance_monitor name thr m
                                 (new_debugger ts true hist : debugger S I O M H)))) = Some h /\
      h_hits h = length (filter (fun t => Rlt_b thr (t * 1000)) times).
  Proof.
    intros HF2.
    assert (HF : Forall step_only ops).
    { clear -HF2. induction HF2 as [|a t l l' Hh Ht IH]; constructor; [|exact IH]. destruct a; try contradiction. exact Logic.I. }
    destruct (hook_steps (String.append "perf_" name) (slow_condition thr)
      (fun x => match ob_time x with Some t => Rlt_b thr (t * 1000) | None => false end) m AAlert (Z.to_nat 1000) ops
      (new_debugger ts true hist) HF eq_refl) as (h & A & B & C).
    { cbn [new_debugger d_track_perf d_current d_times]. generalize 0 as n. generalize (@nil R) as acc.
      intros acc n x Hx. split; [reflexivity|]. revert acc n x Hx.
      induction HF2 as [|a t l l' Hh Ht IH]; intros acc n x Hx; [destruct Hx|].
      inversion HF; subst. destruct a as [nm s i o t'| | | | |]; try contradiction. subst t'. cbn [step_obs] in Hx.
      destruct Hx as [<-|Hx].
      - unfold slow_condition. cbn [fst ob_times ob_time]. rewrite rev_app_distr. cbn [rev app].
        destruct (Rlt_b thr (t * 1000)); reflexivity.
      - eapply IH; eassumption. }
    exists h. split; [exact A|]. rewrite B. cbn [new_debugger d_track_perf d_current d_times]. clear -HF2.
    generalize 0 as n. generalize (@nil R) as acc.
    induction HF2 as [|a t l l' Hh Ht IH]; intros acc n; [reflexivity|].
    destruct a as [nm s i o t'| | | | |]; try contradiction. subst t'. cbn [step_obs filter ob_time].
    destruct (Rlt_b thr (t * 1000)); cbn [length]; rewrite IH; reflexivity.
  Qed.
  (** untimed steps after a slow one are alerts too *)
  Lemma perf_stale (name : string) (thr : R) (m : M) (ts : bool) (hist : nat) nm s i o t (ops : list (op S I O M)) :
    (thr < t * 1000)%R ->
    Forall (fun a => match a with OStep _ _ _ _ t' => t' = None | _ => False end) ops ->
    exists h, sget (String.append "perf_" name) (d_hooks (session copy (OStep nm s i o (Some t) :: ops) (add_performance_monitor name thr m
                                 (new_debugger ts true hist : debugger S I O M H)))) = Some h /\
      h_hits h = 1 + length ops.
  Proof.
    intros Ht HF'.
    assert (HF : Forall step_only (OStep nm s i o (Some t) :: ops : list (op S I O M))).
    { constructor; [exact Logic.I|]. eapply Forall_impl; [|exact HF']. intros a. destruct a; cbn; tauto. }
    destruct (hook_steps (String.append "perf_" name) (slow_condition thr)
      (fun x => true) m AAlert (Z.to_nat 1000) _
      (new_debugger ts true hist) HF eq_refl) as (h & A & B & C).
    { cbn [new_debugger d_track_perf d_current d_times step_obs app].
      assert (G : forall n x, In x (step_obs true n [t] ops) -> ob_times x = [t]).
      { clear -HF'. induction HF' as [|a l Ha Hl IH]; intros n x Hx; [destruct Hx|].
        destruct a as [nm s i o t'| | | | |]; try contradiction. subst t'. destruct Hx as [<-|Hx]; [reflexivity|]. eapply IH; exact Hx. }
      intros x Hx. split; [reflexivity|].
      assert (E : ob_times x = [t]) by (destruct Hx as [<-|Hx]; [reflexivity|eapply G; exact Hx]).
      unfold slow_condition. cbn [fst]. rewrite E. cbn [rev app]. unfold Rlt_b. destruct (Rlt_dec thr (t * 1000)); [reflexivity|contradiction]. }
    exists h. split; [exact A|]. rewrite B. cbn [new_debugger d_track_perf d_current d_times].
    rewrite <- (map_length ob_step).
    replace (filter (fun _ : obs S I O => true) (step_obs true 0 [] (OStep nm s i o (Some t) :: ops)))
      with (step_obs true 0 [] (OStep nm s i o (Some t) :: ops)).
    - rewrite step_obs_steps, seq_length by exact HF. reflexivity.
    - generalize (step_obs true 0 [] (OStep nm s i o (Some t) :: ops)) as q. clear. induction q as [|x q IH]; [reflexivity|]. cbn [filter]. now rewrite <- IH.
  Qed.
End Rec.

(** C83: value_threshold *)
Lemma value_threshold_hits {S O M H : Type} (copy : S -> H) (name : string) (thr : fl) (field : string) (m : M) (a : action) (mx : nat)
    (ts tp : bool) (hist : nat) (ops : list (op S inp O M)) (ins : list inp) :
  Forall2 (fun a i => match a with OStep _ _ i' _ _ => i' = i | _ => False end) ops ins ->
  exists h, sget name (d_hooks (session copy ops (add_hook name (new_hook (Some (value_threshold thr field)) m a mx)
                               (new_debugger ts tp hist : debugger S inp O M H)))) = Some h /\
    h_hits h = length (filter (fun i => match reading field i with Some x => flt thr x | None => false end) ins).
Proof.
  intros HF2.
  assert (HF : Forall step_only ops).
  { clear -HF2. induction HF2 as [|b i l l' Hh Ht IH]; constructor; [|exact IH]. destruct b; try contradiction. exact Logic.I. }
  destruct (hook_steps copy name (value_threshold thr field)
    (fun x => match reading field (ob_in x) with Some v => flt thr v | None => false end) m a mx ops
    (new_debugger ts tp hist) HF eq_refl) as (h & A & B & C).
  { intros x _. split; [reflexivity|]. unfold value_threshold, reading. cbn [fst].
    destruct (ob_in x) as [v|kvs|]; destruct field as [|ch f]; cbn [String.eqb];
      try (destruct (flt thr v); reflexivity); try reflexivity.
    destruct (sget (String ch f) kvs) as [[v|kvs'|]|]; try reflexivity; destruct (flt thr _); reflexivity. }
  exists h. split; [exact A|]. rewrite B. cbn [new_debugger d_track_perf d_current d_times]. clear -HF2.
  generalize 0 as n. generalize (@nil R) as acc.
  induction HF2 as [|b i l l' Hh Ht IH]; intros acc n; [reflexivity|].
  destruct b as [nm s i' o t'| | | | |]; try contradiction. subst i'. cbn [step_obs filter ob_in].
  destruct (reading field i) as [v|]; [destruct (flt thr v)|]; cbn [length]; rewrite IH; reflexivity.
Qed.

(** C83: state_change_detector *)
Lemma map_combine_fsub : forall v w : list R, length v = length w ->
  map (fun p => fsub (fst p) (snd p)) (combine (map Fin v) (map Fin w)) =
  map Fin (map (fun p => (fst p - snd p)%R) (combine v w)).
Proof. induction v as [|a v IH]; intros [|b w] HL; try discriminate; [reflexivity|]. cbn [map combine fst snd]. rewrite IH by (cbn in HL; lia). reflexivity. Qed.
Lemma sq_dist_sum : forall v w : list R,
  fold_right Rplus 0%R (map (fun x => (x * x)%R) (map (fun p => (fst p - snd p)%R) (combine v w))) = sq_dist v w.
Proof. induction v as [|a v IH]; intros [|b w]; try reflexivity. cbn [combine map fold_right fst snd sq_dist]. rewrite IH. reflexivity. Qed.
Lemma sq_dist_nonneg : forall v w, (0 <= sq_dist v w)%R.
Proof. induction v as [|a v IH]; intros [|b w]; cbn [sq_dist]; try lra. specialize (IH w). pose proof (Rle_0_sqr (a - b)) as Q. unfold Rsqr in Q. lra. Qed.
Lemma norm_dist (v w : list R) : length v = length w ->
  exists d, bsub (map Fin v) (map Fin w) = Some d /\ norm d = Fin (dist v w).
Proof.
  intros HL. eexists. split.
  - unfold bsub. rewrite !map_length, HL, Nat.eqb_refl. reflexivity.
  - unfold norm. rewrite map_combine_fsub, map_map by exact HL.
    erewrite map_ext by (intros x; cbn [fmul]; reflexivity).
    rewrite <- (map_map (fun x => (x * x)%R) Fin), fsum_Fin, sq_dist_sum.
    rewrite fsqrt_Fin by apply sq_dist_nonneg. reflexivity.
Qed.
Lemma norm_nan x y d : length x = length y -> (exists j, nth_error x j = Some NaN \/ nth_error y j = Some NaN /\ j < length x) ->
  bsub x y = Some d -> norm d = NaN.
Proof.
  intros HL [j Hj] E. unfold bsub in E. rewrite HL, Nat.eqb_refl in E. injection E; intros <-. unfold norm.
  rewrite fsum_nan; [reflexivity|]. rewrite map_map. clear E.
  revert y HL j Hj. induction x as [|a x IH]; intros [|b y] HL j Hj; try discriminate.
  - destruct j; destruct Hj as [Hj|[Hj Hl]]; cbn in *; try discriminate; lia.
  - cbn [combine map fst snd]. destruct j as [|j].
    + left. cbn in Hj. destruct Hj as [Hj|[Hj _]]; injection Hj; intros ->; [reflexivity|]. destruct a; reflexivity.
    + right. apply (IH y ltac:(cbn in HL; lia) j). cbn in Hj. destruct Hj as [Hj|[Hj Hl]]; [left; exact Hj|right; split; [exact Hj|lia]].
Qed.

Definition fire (tol : R) (m : option (list R)) (v : list R) : bool * option (list R) :=
  match m with
  | None => (false, Some v)
  | Some r => if Rlt_b tol (dist v r) then (true, Some v) else (false, m)
  end.
Fixpoint fires (tol : R) (m : option (list R)) (vs : list (list R)) : list bool :=
  match vs with [] => [] | v :: r => fst (fire tol m v) :: fires tol (snd (fire tol m v)) r end.
Fixpoint fmem (tol : R) (m : option (list R)) (vs : list (list R)) : option (list R) :=
  match vs with [] => m | v :: r => fmem tol (snd (fire tol m v)) r end.
Lemma fires_length tol vs : forall m, length (fires tol m vs) = length vs.
Proof. induction vs as [|v vs IH]; intros m; cbn; [reflexivity|]. now rewrite IH. Qed.
Lemma fires_snoc tol v vs : forall m, fires tol m (vs ++ [v]) = fires tol m vs ++ [fst (fire tol (fmem tol m vs) v)].
Proof. induction vs as [|w vs IH]; intros m; cbn [app fires fmem]; [reflexivity|]. now rewrite IH. Qed.
Lemma fmem_snoc tol v vs : forall m, fmem tol m (vs ++ [v]) = snd (fire tol (fmem tol m vs) v).
Proof. induction vs as [|w vs IH]; intros m; cbn [app fmem]; [reflexivity|]. apply IH. Qed.
Lemma last_fired_app f g t : t <= length f -> last_fired (f ++ g) t = last_fired f t.
Proof.
  induction t as [|t IH]; intros Ht; [reflexivity|]. cbn [last_fired]. rewrite app_nth1 by lia. rewrite IH by lia. reflexivity.
Qed.
Lemma last_fired_bound f t : 0 < t -> last_fired f t < t.
Proof. induction t as [|t IH]; intros Ht; [lia|]. cbn [last_fired]. destruct (nth t f false); [lia|]. destruct t; [cbn; lia|]. specialize (IH ltac:(lia)). lia. Qed.
Lemma fmem_ref tol vs : vs <> [] -> fmem tol None vs = Some (nth (last_fired (fires tol None vs) (length vs)) vs []).
Proof.
  induction vs as [|v vs IH] using rev_ind; intros N; [congruence|]. clear N.
  rewrite fmem_snoc, fires_snoc, app_length. cbn [length]. rewrite Nat.add_1_r. cbn [last_fired].
  rewrite (app_nth2 (fires tol None vs)), fires_length, Nat.sub_diag by (rewrite fires_length; lia). cbn [nth].
  destruct vs as [|w vs]; [reflexivity|]. rewrite IH by discriminate. remember (w :: vs) as q eqn:Eq.
  assert (Hq : 0 < length q) by (subst; cbn; lia).
  unfold fire. destruct (Rlt_b tol _); cbn [fst snd].
  - rewrite app_nth2, Nat.sub_diag by lia. reflexivity.
  - rewrite last_fired_app by (rewrite fires_length; lia). rewrite app_nth1; [reflexivity|]. now apply last_fired_bound.
Qed.
Lemma fires_spec tol vs : forall t, t < length vs ->
  (nth t (fires tol None vs) false = true <-> 0 < t /\ (tol < dist (nth t vs []) (nth (last_fired (fires tol None vs) t) vs []))%R).
Proof.
  induction vs as [|v vs IH] using rev_ind; intros t Ht; [cbn in Ht; lia|].
  rewrite app_length in Ht. cbn [length] in Ht. rewrite fires_snoc.
  destruct (Nat.eq_dec t (length vs)) as [->|N].
  - rewrite app_nth2, fires_length, Nat.sub_diag by (rewrite fires_length; lia). cbn [nth].
    destruct vs as [|w vs]; [cbn; split; [discriminate|lia]|].
    rewrite fmem_ref by discriminate. remember (w :: vs) as q eqn:Eq. assert (Hq : 0 < length q) by (subst; cbn; lia).
    rewrite last_fired_app by (rewrite fires_length; lia). rewrite (app_nth2 q), Nat.sub_diag by lia. cbn [nth].
    rewrite app_nth1 by now apply last_fired_bound.
    unfold fire, Rlt_b. destruct (Rlt_dec tol _); cbn [fst]; split; intros; try tauto; [discriminate].
  - rewrite app_nth1 by (rewrite fires_length; lia). rewrite last_fired_app by (rewrite fires_length; lia).
    rewrite IH by lia. rewrite (app_nth1 vs) by lia. destruct t; [split; lia|].
    rewrite (app_nth1 vs); [reflexivity|]. pose proof (last_fired_bound (fires tol None vs) (Datatypes.S t)). lia.
Qed.

Definition positions (n : nat) (fired : list bool) : list nat :=
  map fst (filter snd (combine (seq n (length fired)) fired)).
Lemma detector_run {I O : Type} field tol w : forall (ops : list (op (list (string * list fl)) I O (option (list fl)))) vs tp n ts m,
  Forall2 (fun a v => match a with OStep _ s _ _ _ => sget field s = Some (map Fin v) | _ => False end) ops vs ->
  Forall (fun v => length v = w) vs -> match m with Some r => length r = w | None => True end ->
  exists l, accepted (state_change_detector field tol) (option_map (map Fin) m) (map Seen (step_obs tp n ts ops)) = map Seen l /\
    map ob_step l = positions (n + 1) (fires tol m vs).
Proof.
  intros ops vs tp n ts m HF. revert n ts m. induction HF as [|a v ops vs Ha HF IH]; intros n ts m HW Hm.
  - exists []. split; reflexivity.
  - inversion HW as [|? ? HW1 HW2]; subst. destruct a as [name s i o t| | | | |]; try contradiction.
    cbn [step_obs map accepted ob_times ob_step ob_state ob_in ob_out fires].
    set (ts' := match t with Some x => if tp then ts ++ [x] else ts | None => ts end).
    assert (HP : forall b r, positions (n + 1) (b :: r) = if b then (n + 1) :: positions (n + 1 + 1) r else positions (n + 1 + 1) r).
    { intros b r. unfold positions. cbn [length seq combine filter snd]. replace (Datatypes.S (n + 1)) with (n + 1 + 1) by lia.
      destruct b; reflexivity. }
    unfold state_change_detector at 1. rewrite Ha. destruct m as [r|]; cbn [option_map fire fst snd].
    + destruct (norm_dist v r ltac:(congruence)) as (d & E1 & E2). rewrite E1. cbn zeta. rewrite E2. cbn [flt].
      destruct (Rlt_b tol (dist v r)) eqn:EB; cbn [fst snd].
      * destruct (IH (n + 1) ts' (Some v) HW2 eq_refl) as (l & A & B).
        exists (Obs (n + 1) ts' name s i o t :: l). cbn [map]. cbn [option_map] in A. rewrite A. split; [reflexivity|].
        rewrite HP. cbn [ob_step]. rewrite B. reflexivity.
      * destruct (IH (n + 1) ts' (Some r) HW2 Hm) as (l & A & B).
        exists l. cbn [option_map] in A. rewrite A. split; [reflexivity|]. rewrite HP. exact B.
    + destruct (IH (n + 1) ts' (Some v) HW2 eq_refl) as (l & A & B).
      exists l. cbn [option_map] in A. rewrite A. split; [reflexivity|]. rewrite HP. exact B.
Qed.
Lemma detector_exact {I O H : Type} (copy : list (string * list fl) -> H) (name field : string) (tol : R) (a : action) (mx w : nat)
    (ts tp : bool) (hist : nat) (ops : list (op (list (string * list fl)) I O (option (list fl)))) (vs : list (list R)) :
  Forall2 (fun a v => match a with OStep _ s _ _ _ => sget field s = Some (map Fin v) | _ => False end) ops vs ->
  Forall (fun v => length v = w) vs ->
  exists h fired,
    sget name (d_hooks (session copy ops (add_hook name (new_hook (Some (state_change_detector field tol)) None a mx)
                        (new_debugger ts tp hist)))) = Some h /\
    length fired = length vs /\
    h_hits h = count_occ bool_dec fired true /\
    map e_step (h_events h) = lastn mx (map fst (filter snd (combine (seq 1 (length fired)) fired))) /\
    (forall t, t < length vs ->
       (nth t fired false = true <-> 0 < t /\ (tol < dist (nth t vs []) (nth (last_fired fired t) vs []))%R)).
Proof.
  intros HF HW.
  assert (HS : Forall step_only ops).
  { clear -HF. induction HF as [|b i l l' Hh Ht IH]; constructor; [|exact IH]. destruct b; try contradiction. exact Logic.I. }
  destruct (hook_exact copy name (state_change_detector field tol) None a mx ops (new_debugger ts tp hist) (steps_keep copy name ops HS))
    as (h & A & B & C).
  cbn [new_debugger d_track_perf d_enabled d_current d_times] in B, C. rewrite seen_steps in B, C by exact HS.
  destruct (detector_run field tol w ops vs tp 0 [] None HF HW Logic.I) as (l & E1 & E2).
  cbn [option_map] in E1. rewrite E1 in B, C. unfold since_clear in B, C. rewrite since_clear_seen in B, C. cbn [app] in B, C.
  exists h, (fires tol None vs). split; [exact A|]. split; [apply fires_length|]. split; [|split].
  - rewrite B, <- (map_length ob_step), E2. unfold positions. rewrite map_length. generalize (0 + 1) as n.
    generalize (fires tol None vs) as f. clear. induction f as [|b f IH]; intros n; [reflexivity|].
    cbn [length seq combine filter snd count_occ]. destruct b; cbn [bool_dec]; [|apply IH].
    destruct (bool_dec true true); [|congruence]. cbn [length]. now rewrite IH.
  - rewrite C, <- lastn_map, map_map. unfold positions in E2. rewrite Nat.add_0_l in E2. rewrite <- E2. reflexivity.
  - apply fires_spec.
Qed.
Lemma detector_nan_skipped {I O : Type} field tol (l cur : list fl) perf n s (i : I) (o : O) :
  sget field s = Some cur -> length cur = length l -> In NaN cur ->
  state_change_detector field tol (Some l) perf n s i o = (Some false, Some l).
Proof.
  intros G HL HN. unfold state_change_detector. rewrite G. destruct (bsub cur l) as [d|] eqn:E; [|reflexivity].
  rewrite (norm_nan cur l d HL); [reflexivity| |exact E]. apply In_nth_error in HN. destruct HN as [j Hj]. exists j. left. exact Hj.
Qed.
Lemma detector_nan_dead {I O H : Type} (copy : list (string * list fl) -> H) (name field : string) (tol : R) (a : action) (mx : nat)
    (ts tp : bool) (hist : nat) v0 nm s0 i0 o0 t0 (ops : list (op (list (string * list fl)) I O (option (list fl)))) :
  sget field s0 = Some v0 -> In NaN v0 ->
  Forall (fun a => match a with OStep _ s _ _ _ => exists v, sget field s = Some v /\ length v = length v0 | _ => False end) ops ->
  exists h, sget name (d_hooks (session copy (OStep nm s0 i0 o0 t0 :: ops)
      (add_hook name (new_hook (Some (state_change_detector field tol)) None a mx) (new_debugger ts tp hist)))) = Some h /\
    h_hits h = 0.
Proof.
  intros G HN HF.
  assert (HS : Forall step_only (OStep nm s0 i0 o0 t0 :: ops)).
  { constructor; [exact Logic.I|]. eapply Forall_impl; [|exact HF]. intros b. destruct b; cbn; tauto. }
  destruct (hook_exact copy name (state_change_detector field tol) None a mx _ (new_debugger ts tp hist) (steps_keep copy name _ HS))
    as (h & A & B & _).
  exists h. split; [exact A|]. rewrite B. cbn [new_debugger d_track_perf d_enabled d_current d_times].
  rewrite seen_steps by exact HS. cbn [step_obs map accepted ob_times ob_step ob_state ob_in ob_out].
  unfold state_change_detector at 1. rewrite G. clear -HF HN.
  match goal with |- context [step_obs tp ?n ?q ops] => generalize n, q end.
  induction HF as [|b ops Hb HF IH]; intros n q; [reflexivity|]. destruct b as [nm' s i o t| | | | |]; try contradiction.
  cbn [step_obs map accepted ob_times ob_step ob_state ob_in ob_out]. destruct Hb as (v & G & HL).
  unfold state_change_detector at 1. rewrite G. destruct (bsub v v0) as [d|] eqn:E; [|apply IH].
  cbn zeta. rewrite (norm_nan v v0 d HL); [cbn [flt]; apply IH| |exact E].
  apply In_nth_error in HN. destruct HN as [j Hj]. exists j. right. split; [exact Hj|].
  rewrite HL. apply nth_error_Some. congruence.
Qed.

(** C82: what a history entry keeps of a flax variable dictionary *)
Lemma sget_map_values {V Sh : Type} k (st : list (string * ptree V)) :
  sget k (map (fun kv => (fst kv, @CValues V Sh (snd kv))) st) = option_map CValues (sget k st).
Proof. induction st as [|[k' v] st IH]; [reflexivity|]. cbn [map sget fst snd]. destruct (String.eqb k k'); [reflexivity|exact IH]. Qed.
Lemma copy_keeps_all {V Sh : Type} (shape : V -> Sh) (st : list (string * ptree V)) :
  sget "params"%string st = None \/ sget "state"%string st = None ->
  forall k, sget k (safe_copy_state shape st) = option_map CValues (sget k st).
Proof.
  intros H k. unfold safe_copy_state. destruct (sget "params"%string st); destruct (sget "state"%string st);
    try apply sget_map_values. destruct H; discriminate.
Qed.
Lemma map_leafwise {A B : Type} (f : A -> B) t : leafwise (fun a b => b = f a) t (ptree_map f t).
Proof.
  induction t as [v|kvs IH] using ptree_ind'; cbn [ptree_map]; constructor; [reflexivity|].
  induction IH as [|kv r H _ IHr]; cbn [map]; constructor; [|exact IHr]. split; [reflexivity|exact H].
Qed.
Lemma copy_drops_collections {V Sh : Type} (shape : V -> Sh) (st : list (string * ptree V)) p s :
  sget "params"%string st = Some p -> sget "state"%string st = Some s ->
  sget "state_values"%string (safe_copy_state shape st) = Some (CValues s) /\
  (exists q, sget "params_shapes"%string (safe_copy_state shape st) = Some (CShapes q) /\ leafwise (fun v sh => sh = shape v) p q) /\
  forall k, k <> "state_values"%string -> k <> "params_shapes"%string -> sget k (safe_copy_state shape st) = None.
Proof.
  intros E1 E2. unfold safe_copy_state. rewrite E1, E2. split; [reflexivity|].
  split; [exists (ptree_map shape p); split; [reflexivity|apply map_leafwise]|].
  intros k H1 H2. cbn [sget]. destruct (String.eqb_spec k "params_shapes") as [->|]; [congruence|].
  destruct (String.eqb_spec k "state_values") as [->|]; [congruence|]. reflexivity.
Qed.
