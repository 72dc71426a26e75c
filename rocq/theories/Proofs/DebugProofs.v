(** Proofs for C82, C83, C84 (debugger). *)
From Coq Require Import String List Bool Arith Lia Reals Lra.
From Verif Require Import Model.Float Model.FlaxOptim Model.Debug Spec.StreamSpec Spec.DebugSpec
  Proofs.FloatFacts Proofs.FlaxOptimProofs Proofs.StreamProofs.
Import ListNotations.
Local Open Scope list_scope.

Lemma dq_append_lastn {A} n (l : list A) x : dq_append n (lastn n l) x = lastn n (l ++ [x]).
Proof. unfold dq_append. apply lastn_snoc. Qed.
Lemma lastn_nil {A} n : lastn n ([] : list A) = [].
Proof. reflexivity. Qed.
Lemma lastn_map {A B} (f : A -> B) n l : lastn n (map f l) = map f (lastn n l).
Proof. unfold lastn. rewrite map_length, skipn_map. reflexivity. Qed.
Lemma lastn_all {A} n (l : list A) : length l <= n -> lastn n l = l.
Proof. intros H. unfold lastn. replace (length l - n) with 0 by lia. reflexivity. Qed.
Lemma lastn_length {A} n (l : list A) : length (lastn n l) = Nat.min n (length l).
Proof. unfold lastn. rewrite skipn_length. lia. Qed.

Lemma sget_map_snd {A B} (f : string * A -> B) k (l : list (string * A)) :
  sget k (map (fun kh => (fst kh, f kh)) l) = match sget k l with Some v => Some (f (k, v)) | None => None end.
Proof.
  induction l as [|[k' v] l IH]; cbn [map sget fst]; [reflexivity|].
  destruct (String.eqb k k') eqn:E; [|exact IH]. apply String.eqb_eq in E. subst. reflexivity.
Qed.
Lemma sget_map_gen {A B} (g : string * A -> string * B) k (l : list (string * A)) :
  (forall kh, fst (g kh) = fst kh) ->
  sget k (map g l) = match sget k l with Some v => Some (snd (g (k, v))) | None => None end.
Proof.
  intros Hg. induction l as [|[k' v] l IH]; cbn [map sget]; [reflexivity|].
  pose proof (Hg (k', v)) as E1. destruct (g (k', v)) as [k1 v1] eqn:E2. cbn [fst] in E1. subst k1.
  destruct (String.eqb k k') eqn:E; [|exact IH]. apply String.eqb_eq in E. subst. rewrite E2. reflexivity.
Qed.
Lemma sget_filter_other {A} k k' (l : list (string * A)) : k' <> k ->
  sget k (filter (fun kh => negb (String.eqb (fst kh) k')) l) = sget k l.
Proof.
  intros N. induction l as [|[k1 v] l IH]; cbn [filter sget fst]; [reflexivity|].
  destruct (String.eqb k1 k') eqn:E; cbn [negb].
  - apply String.eqb_eq in E. subst. destruct (String.eqb k k') eqn:E2; [|exact IH].
    apply String.eqb_eq in E2. congruence.
  - cbn [sget]. now rewrite IH.
Qed.

Section Sess.
  Context {S I O M H : Type}.
  Variable copy : S -> H.
  Notation dbg := (debugger S I O M H).

  Lemma debug_step_hooks k name s i o t (d : dbg) h :
    d_enabled d = true -> sget k (d_hooks d) = Some h ->
    let n := d_current d + 1 in
    let ts := match t with Some x => if d_track_perf d then d_times d ++ [x] else d_times d | None => d_times d end in
    sget k (d_hooks (debug_step copy name s i o t d)) =
      (let '(b, h') := check_condition h ts n s i o in
       Some (if b then trigger h' n name s i o (meta_ms t) else h')) /\
    d_times (debug_step copy name s i o t d) = ts /\ d_current (debug_step copy name s i o t d) = n /\
    d_enabled (debug_step copy name s i o t d) = true /\
    d_track_perf (debug_step copy name s i o t d) = d_track_perf d.
  Proof.
    intros E G n ts. unfold debug_step. rewrite E.
    destruct (d_track_perf d) eqn:TP; destruct t as [x|]; cbn [d_hooks d_times d_current d_enabled d_track_perf];
      (split; [|repeat split; assumption || reflexivity]);
      (rewrite sget_map_gen; [|intros kh; destruct (check_condition (snd kh) _ _ s i o); reflexivity]);
      rewrite G; cbn [snd]; subst n ts; destruct (check_condition h _ _ s i o); reflexivity.
  Qed.

  Definition brk (a : action) : bool := match a with ABreak => true | _ => false end.
  Lemma event_of_eq a x : event_of (brk a) x =
    @Event S I O (ob_step x) (match a with ABreak => true | _ => false end) (ob_module x) (ob_state x) (ob_in x)
      (ob_out x) (meta_ms (ob_time x)).
  Proof. unfold event_of, meta_ms, Req_b. destruct (ob_time x) as [t|]; [destruct (Req_EM_T t 0)|]; destruct a; reflexivity. Qed.

  Lemma hook_run k c a mx (acc : list (obs S I O)) : forall ops (d : dbg) m,
    Forall (keeps k) ops ->
    sget k (d_hooks d) = Some (Hook (Some c) m a mx true (length acc) (lastn mx (map (event_of (brk a)) acc))) ->
    exists m',
      let l := since_clear_from acc (accepted c m (seen (d_track_perf d) (d_enabled d) (d_current d) (d_times d) ops)) in
      sget k (d_hooks (session copy ops d)) =
        Some (Hook (Some c) m' a mx true (length l) (lastn mx (map (event_of (brk a)) l))).
  Proof.
    intros ops. revert acc. induction ops as [|op ops IH]; intros acc d m HK G; cbn zeta.
    - exists m. cbn. exact G.
    - inversion HK as [|? ? HK1 HK2]; subst. unfold session. cbn [fold_left]. fold (session copy ops (do_op copy d op)).
      destruct op as [name s i o t| | | |k' h|k']; cbn [do_op].
      + destruct (d_enabled d) eqn:E.
        * destruct (debug_step_hooks k name s i o t d _ E G) as (A & B & C & D & F). cbn zeta in A, B, C.
          cbn [check_condition h_enabled h_cond h_mem] in A.
          cbn [seen accepted ob_times ob_step ob_state ob_in ob_out].
          set (ts := match t with Some x => if d_track_perf d then d_times d ++ [x] else d_times d | None => d_times d end) in *.
          destruct (c m ts (d_current d + 1) s i o) as [b m1] eqn:EC.
          assert (Hacc : (b = Some true /\
               sget k (d_hooks (debug_step copy name s i o t d)) =
               Some (Hook (Some c) m1 a mx true (length (acc ++ [Obs (d_current d + 1) ts name s i o t]))
                  (lastn mx (map (event_of (brk a)) (acc ++ [Obs (d_current d + 1) ts name s i o t])))))
            \/ (b <> Some true /\ sget k (d_hooks (debug_step copy name s i o t d)) =
               Some (Hook (Some c) m1 a mx true (length acc) (lastn mx (map (event_of (brk a)) acc))))).
          { destruct b as [[|]|]; cbn [h_cond h_action h_max h_enabled h_hits h_events] in A.
            - left. split; [reflexivity|]. rewrite A. unfold trigger.
              cbn [h_cond h_mem h_action h_max h_enabled h_hits h_events].
              rewrite dq_append_lastn, map_app, app_length. cbn [map length]. rewrite event_of_eq. reflexivity.
            - right. split; [discriminate|]. exact A.
            - right. split; [discriminate|]. exact A. }
          destruct Hacc as [[-> A']|[NB A']].
          -- destruct (IH _ (debug_step copy name s i o t d) m1 HK2 A') as [m' R]. exists m'.
             rewrite B, C, D, F in R. exact R.
          -- destruct (IH _ (debug_step copy name s i o t d) m1 HK2 A') as [m' R]. exists m'.
             rewrite B, C, D, F in R. destruct b as [[|]|]; [congruence| |]; exact R.
        * cbn [seen]. unfold debug_step. rewrite E. destruct (IH acc d m HK2 G) as [m' R]. exists m'.
          rewrite E in R. exact R.
      + cbn [seen accepted since_clear_from].
        assert (G' : sget k (d_hooks (clear_history d)) =
             Some (Hook (Some c) m a mx true (length (@nil (obs S I O))) (lastn mx (map (event_of (brk a)) [])))).
        { unfold clear_history. cbn [d_hooks map length]. rewrite lastn_nil.
          rewrite (sget_map_snd (fun kh => Hook (h_cond (snd kh)) (h_mem (snd kh)) (h_action (snd kh)) (h_max (snd kh))
                                      (h_enabled (snd kh)) 0 []) k (d_hooks d)), G. reflexivity. }
        destruct (IH [] (clear_history d) m HK2 G') as [m' R]. exists m'. exact R.
      + destruct (IH acc (set_enabled true d) m HK2 G) as [m' R]. exists m'. exact R.
      + destruct (IH acc (set_enabled false d) m HK2 G) as [m' R]. exists m'. exact R.
      + assert (G' : sget k (d_hooks (add_hook k' h d)) =
          Some (Hook (Some c) m a mx true (length acc) (lastn mx (map (event_of (brk a)) acc)))).
        { unfold add_hook. cbn [d_hooks]. rewrite sget_sset. cbn [keeps] in HK1.
          destruct (String.eqb k k') eqn:E; [apply String.eqb_eq in E; congruence|exact G]. }
        destruct (IH acc (add_hook k' h d) m HK2 G') as [m' R]. exists m'. exact R.
      + assert (G' : sget k (d_hooks (remove_hook k' d)) =
          Some (Hook (Some c) m a mx true (length acc) (lastn mx (map (event_of (brk a)) acc)))).
        { unfold remove_hook. cbn [d_hooks]. rewrite sget_filter_other by exact HK1. exact G. }
        destruct (IH acc (remove_hook k' d) m HK2 G') as [m' R]. exists m'. exact R.
  Qed.

  (** C82: hits and events of a hook *)
  Lemma hook_exact (k : string) (c : condition S I O M) (m : M) (a : action) (mx : nat) (ops : list (op S I O M)) (d : dbg) :
    Forall (keeps k) ops ->
    let d' := session copy ops (add_hook k (new_hook (Some c) m a mx) d) in
    let l := since_clear (accepted c m (seen (d_track_perf d) (d_enabled d) (d_current d) (d_times d) ops)) in
    exists h, sget k (d_hooks d') = Some h /\ h_hits h = length l /\
              h_events h = lastn mx (map (event_of (match a with ABreak => true | _ => false end)) l).
  Proof.
    intros HK. cbn zeta.
    destruct (hook_run k c a mx [] ops (add_hook k (new_hook (Some c) m a mx) d) m HK) as [m' R].
    - unfold add_hook, new_hook. cbn [d_hooks map length]. rewrite lastn_nil, sget_sset, String.eqb_refl. reflexivity.
    - cbn zeta in R. eexists. split; [exact R|]. split; reflexivity.
  Qed.

  (** a hook without a condition, or disabled, is never triggered *)
  Lemma dead_hook (k : string) (h : hook S I O M) : forall (ops : list (op S I O M)) (d : dbg),
    h_cond h = None \/ h_enabled h = false ->
    h_hits h = 0 -> h_events h = [] ->
    Forall (keeps k) ops -> sget k (d_hooks d) = Some h ->
    sget k (d_hooks (session copy ops d)) = Some h.
  Proof.
    intros ops d HD H0 H1. revert d. induction ops as [|op ops IH]; intros d HK G; [exact G|].
    inversion HK as [|? ? HK1 HK2]; subst. unfold session. cbn [fold_left]. fold (session copy ops (do_op copy d op)).
    apply IH; [exact HK2|]. destruct op as [name s i o t| | | |k' h'|k']; cbn [do_op].
    - destruct (d_enabled d) eqn:E; [|unfold debug_step; rewrite E; exact G].
      destruct (debug_step_hooks k name s i o t d h E G) as (A & _). cbn zeta in A.
      destruct HD as [HD|HD]; unfold check_condition in A; rewrite HD in A; [|exact A].
      destruct (h_enabled h); exact A.
    - unfold clear_history. cbn [d_hooks].
      rewrite (sget_map_snd (fun kh => Hook (h_cond (snd kh)) (h_mem (snd kh)) (h_action (snd kh)) (h_max (snd kh))
                                      (h_enabled (snd kh)) 0 []) k (d_hooks d)), G. cbn [snd]. rewrite <- H0, <- H1. destruct h; reflexivity.
    - exact G.
    - exact G.
    - unfold add_hook. cbn [d_hooks]. rewrite sget_sset. cbn [keeps] in HK1.
      destruct (String.eqb k k') eqn:E; [apply String.eqb_eq in E; congruence|exact G].
    - unfold remove_hook. cbn [d_hooks]. rewrite sget_filter_other by exact HK1. exact G.
  Qed.
  Lemma no_condition_never (name : string) (m : M) (ops : list (op S I O M)) (d : dbg) :
    Forall (keeps (String.append "state_change_" name)) ops ->
    exists h, sget (String.append "state_change_" name) (d_hooks (session copy ops (add_state_change_hook name None m d))) = Some h /\
              h_hits h = 0 /\ h_events h = [].
  Proof.
    intros HK. exists (new_hook None m ALog (Z.to_nat 1000)). split; [|split; reflexivity].
    apply dead_hook; [left; reflexivity|reflexivity|reflexivity|exact HK|].
    unfold add_state_change_hook, add_hook. cbn [d_hooks]. rewrite sget_sset, String.eqb_refl. reflexivity.
  Qed.

  (** C82: what the debugger itself records *)
  Definition timed (l : list (obs S I O)) : list (R * nat) :=
    flat_map (fun x => match ob_time x with Some t => [(t, ob_step x)] | None => [] end) l.
  Lemma records_run : forall ops (d : dbg) (acc : list (obs S I O)),
    d_history d = (if d_track_state d then lastn (d_max d) (map copy (map ob_state acc)) else []) ->
    d_times d = (if d_track_perf d then map fst (timed acc) else []) ->
    d_steps d = (if d_track_perf d then map snd (timed acc) else []) ->
    d_globals d = [] ->
    let items := seen (d_track_perf d) (d_enabled d) (d_current d) (d_times d) ops in
    let l := since_clear_from acc items in
    let d' := session copy ops d in
    d_history d' = (if d_track_state d then lastn (d_max d) (map copy (map ob_state l)) else []) /\
    d_times d' = (if d_track_perf d then map fst (timed l) else []) /\
    d_steps d' = (if d_track_perf d then map snd (timed l) else []) /\
    d_globals d' = [] /\ d_current d' = d_current d + count_seen items.
  Proof.
    induction ops as [|op ops IH]; intros d acc HH HT HS HG; cbn zeta.
    - cbn. repeat split; try assumption. unfold count_seen. cbn. lia.
    - unfold session. cbn [fold_left]. fold (session copy ops (do_op copy d op)).
      destruct op as [name s i o t| | | |k' h|k']; cbn [do_op].
      + destruct (d_enabled d) eqn:E.
        * set (ts := match t with Some x => if d_track_perf d then d_times d ++ [x] else d_times d | None => d_times d end).
          set (x := Obs (d_current d + 1) ts name s i o t).
          specialize (IH (debug_step copy name s i o t d) (acc ++ [x])). cbn zeta in IH.
          assert (F : d_track_state (debug_step copy name s i o t d) = d_track_state d /\
                      d_track_perf (debug_step copy name s i o t d) = d_track_perf d /\
                      d_max (debug_step copy name s i o t d) = d_max d /\
                      d_enabled (debug_step copy name s i o t d) = true /\
                      d_globals (debug_step copy name s i o t d) = d_globals d /\
                      d_current (debug_step copy name s i o t d) = d_current d + 1 /\
                      d_times (debug_step copy name s i o t d) = ts /\
                      d_steps (debug_step copy name s i o t d) =
                        match t with Some x => if d_track_perf d then d_steps d ++ [d_current d + 1] else d_steps d | None => d_steps d end /\
                      d_history (debug_step copy name s i o t d) =
                        if d_track_state d then dq_append (d_max d) (d_history d) (copy s) else d_history d).
          { unfold debug_step. rewrite E. unfold ts.
            destruct (d_track_perf d), t; cbn; repeat split; reflexivity || assumption. }
          destruct F as (F1 & F2 & F3 & F4 & F5 & F6 & F7 & F8 & F9).
          rewrite F1, F2, F3, F4, F5, F6, F7, F8, F9 in IH.
          destruct IH as (A & B & C & D & G).
          -- destruct (d_track_state d); [|exact HH]. rewrite HH, dq_append_lastn, !map_app. reflexivity.
          -- unfold ts, timed. rewrite flat_map_app, map_app. cbn [flat_map ob_time x].
             destruct t; destruct (d_track_perf d); rewrite ?HT; cbn; rewrite ?app_nil_r; reflexivity.
          -- unfold timed. rewrite flat_map_app, map_app. cbn [flat_map ob_time x].
             destruct t; destruct (d_track_perf d); rewrite ?HS; cbn; rewrite ?app_nil_r; reflexivity.
          -- exact HG.
          -- cbn [seen]. fold ts. cbn [since_clear_from]. fold x. rewrite A, B, C, D, G.
             repeat split. unfold count_seen. cbn [filter length]. lia.
        * cbn [seen]. unfold debug_step. rewrite E. specialize (IH d acc HH HT HS HG). cbn zeta in IH. rewrite E in IH. exact IH.
      + cbn [seen since_clear_from]. specialize (IH (clear_history d) []). cbn zeta in IH.
        unfold clear_history in IH at 1 2 3 4 5 6 7 8. cbn [d_history d_track_state d_max d_times d_track_perf d_steps d_globals map timed flat_map] in IH.
        destruct IH as (A & B & C & D & G).
        * rewrite lastn_nil. destruct (d_track_state d); reflexivity.
        * destruct (d_track_perf d); reflexivity.
        * destruct (d_track_perf d); reflexivity.
        * reflexivity.
        * unfold clear_history in A, B, C, G at 2 3 4 5. 
          unfold clear_history at 1. cbn [d_current d_enabled d_times d_track_state d_max d_track_perf] in *.
          repeat split; try assumption.
      + specialize (IH (set_enabled true d) acc HH HT HS HG). exact IH.
      + specialize (IH (set_enabled false d) acc HH HT HS HG). exact IH.
      + specialize (IH (add_hook k' h d) acc HH HT HS HG). exact IH.
      + specialize (IH (remove_hook k' d) acc HH HT HS HG). exact IH.
  Qed.
End Sess.
