(** C83: state_change_detector on steps without the field and on values of other lengths. *)
From Coq Require Import String List Bool Arith Lia Reals Lra.
From Verif Require Import Model.Float Model.FlaxOptim Model.Debug Spec.StreamSpec Spec.DebugSpec
  Proofs.FloatFacts Proofs.FlaxOptimProofs Proofs.StreamProofs Proofs.FlaxMoreProofs Proofs.DebugProofs Proofs.DebugProofs2.
Import ListNotations.
Local Open Scope list_scope.

Section D.
  Context {I O : Type}.
  Notation dop := (op (list (string * list fl)) I O (option (list fl))).

  Definition reacts tol (m : option (list fl)) (cur : list fl) : bool * option (list fl) :=
    match m with
    | None => (false, Some cur)
    | Some l => match bsub cur l with None => (false, Some l) | Some d => let b := flt (Fin tol) (norm d) in (b, if b then Some cur else Some l) end
    end.
  Lemma reacts_eq field tol m perf n s (i : I) (o : O) cur : sget field s = Some cur ->
    state_change_detector field tol m perf n s i o = (Some (fst (reacts tol m cur)), snd (reacts tol m cur)).
  Proof. intros G. unfold state_change_detector, reacts. rewrite G. destruct m as [l|]; [|reflexivity]. destruct (bsub cur l); reflexivity. Qed.

  Lemma detector_skip field tol (l : list dop) : Forall step_only l -> forall tp tp' n n' ts ts' m,
    exists a a', accepted (state_change_detector field tol) m (map Seen (step_obs tp n ts l)) = map Seen a /\
      accepted (state_change_detector field tol) m (map Seen (step_obs tp' n' ts' (filter (has_field field) l))) = map Seen a' /\
      map ob_state a = map ob_state a'.
  Proof.
    induction 1 as [|b l Hb HF IH]; intros tp tp' n n' ts ts' m.
    - exists [], []. repeat split.
    - destruct b as [nm s i o t| | | | |]; try contradiction. cbn [filter has_field].
      destruct (sget field s) as [cur|] eqn:G.
      + cbn [step_obs map accepted ob_times ob_step ob_state ob_in ob_out].
        set (u := match t with Some x => if tp then ts ++ [x] else ts | None => ts end).
        set (u' := match t with Some x => if tp' then ts' ++ [x] else ts' | None => ts' end).
        rewrite !(reacts_eq field tol m _ _ s i o cur G).
        destruct (IH tp tp' (n + 1) (n' + 1) u u' (snd (reacts tol m cur))) as (a & a' & A & A' & E).
        destruct (fst (reacts tol m cur)).
        * exists (Obs (n + 1) u nm s i o t :: a), (Obs (n' + 1) u' nm s i o t :: a'). cbn [map]. rewrite A, A', E. repeat split.
        * exists a, a'. auto.
      + cbn [step_obs map accepted ob_times ob_step ob_state ob_in ob_out]. unfold state_change_detector at 1. rewrite G. apply IH.
  Qed.

  Lemma filter_steps field (l : list dop) : Forall step_only l -> Forall step_only (filter (has_field field) l).
  Proof. intros H. apply Forall_forall. intros x Hx. apply filter_In in Hx. rewrite Forall_forall in H. apply H. tauto. Qed.

  Lemma detector_absent {H : Type} (copy : list (string * list fl) -> H) (name field : string) (tol : R) (a : action) (mx : nat)
    (ts tp : bool) (hist : nat) (ops : list dop) :
    Forall (fun a => match a with OStep _ _ _ _ _ => True | _ => False end) ops ->
    let hook := fun ops => sget name (d_hooks (session copy ops (add_hook name (new_hook (Some (state_change_detector field tol)) None a mx)
                        (new_debugger ts tp hist)))) in
    exists h h', hook ops = Some h /\ hook (filter (has_field field) ops) = Some h' /\
      h_hits h = h_hits h' /\ map e_state (h_events h) = map e_state (h_events h').
  Proof.
    intros HS0. assert (HS : Forall step_only ops) by (eapply Forall_impl; [|exact HS0]; intros b; destruct b; exact (fun x => x)).
    cbv zeta. assert (HS' := filter_steps field ops HS).
    destruct (hook_exact copy name (state_change_detector field tol) None a mx ops (new_debugger ts tp hist) (steps_keep copy name ops HS))
      as (h & A & B & C).
    destruct (hook_exact copy name (state_change_detector field tol) None a mx _ (new_debugger ts tp hist) (steps_keep copy name _ HS'))
      as (h' & A' & B' & C').
    cbn [new_debugger d_track_perf d_enabled d_current d_times] in B, C, B', C'.
    rewrite seen_steps in B, C by exact HS. rewrite seen_steps in B', C' by exact HS'.
    destruct (detector_skip field tol ops HS tp tp 0 0 [] [] None) as (l & l' & E & E' & F).
    rewrite E in B, C. rewrite E' in B', C'. unfold since_clear in B, C, B', C'. rewrite since_clear_seen in B, C, B', C'. cbn [app] in B, C, B', C'.
    exists h, h'. split; [exact A|]. split; [exact A'|]. split.
    - rewrite B, B', <- (map_length ob_state l), F, map_length. reflexivity.
    - rewrite C, C', <- !lastn_map, !map_map. f_equal. exact F.
  Qed.

  (** other lengths *)
  Lemma detector_shapes field tol (l cur : list fl) perf n s (i : I) (o : O) :
    sget field s = Some cur -> length cur <> length l -> length cur <> 1 -> length l <> 1 ->
    state_change_detector field tol (Some l) perf n s i o = (Some false, Some l).
  Proof.
    intros G H1 H2 H3. unfold state_change_detector. rewrite G. unfold bsub. apply Nat.eqb_neq in H1. rewrite H1.
    destruct cur as [|a [|b c]]; [|exfalso; apply H2; reflexivity|]; (destruct l as [|x [|y z]]; [|exfalso; apply H3; reflexivity|]); reflexivity.
  Qed.

  Lemma bsub_scalar (v w : list R) : v <> [] -> w <> [] -> length v = 1 \/ length w = 1 ->
    exists d, bsub (map Fin v) (map Fin w) = Some d /\ norm d = Fin (dist (spread (length w) v) (spread (length v) w)).
  Proof.
    intros Hv Hw H1. destruct (Nat.eq_dec (length v) (length w)) as [E|E].
    - assert (L : length v = 1 /\ length w = 1) by lia. destruct L as [L1 L2].
      destruct v as [|a [|? ?]]; try discriminate. destruct w as [|b [|? ?]]; try discriminate. cbn [spread length].
      exact (norm_dist [a] [b] eq_refl).
    - assert (N : forall v w, length v = length w -> norm (map Fin (map (fun p => (fst p - snd p)%R) (combine v w))) = Fin (dist v w)).
      { intros v' w' L. destruct (norm_dist v' w' L) as (d & E1 & E2). unfold bsub in E1. rewrite !map_length, L, Nat.eqb_refl in E1.
        injection E1 as <-. rewrite map_combine_fsub in E2 by exact L. exact E2. }
      unfold bsub. rewrite !map_length. pose proof (proj2 (Nat.eqb_neq _ _) E) as E'. rewrite E'.
      destruct v as [|a [|a' v]]; [easy| |].
      + assert (Es : spread (length [a]) w = w) by (destruct w as [|b [|? ?]]; reflexivity). rewrite Es. cbn [map spread].
        eexists. split; [reflexivity|]. rewrite <- N by (rewrite repeat_length; reflexivity). f_equal.
        clear. induction w as [|b w IH]; [reflexivity|]. cbn [map length repeat combine fst snd]. rewrite IH. reflexivity.
      + destruct H1 as [H1|H1]; [discriminate|]. destruct w as [|b [|? ?]]; try discriminate.
        cbn [map]. eexists. split; [reflexivity|]. cbn [spread length].
        change (a :: a' :: v) with (a :: a' :: v). rewrite <- N by (cbn [length repeat]; rewrite repeat_length; reflexivity). f_equal.
        cbn [repeat combine map fst snd fsub]. repeat f_equal.
        clear. induction v as [|c v IH]; [reflexivity|]. cbn [map length repeat combine fst snd]. rewrite IH. reflexivity.
  Qed.

  Lemma detector_broadcast field tol (v w : list R) perf n s (i : I) (o : O) :
    sget field s = Some (map Fin v) -> v <> [] -> w <> [] -> length v = 1 \/ length w = 1 ->
    state_change_detector field tol (Some (map Fin w)) perf n s i o =
    if Rlt_b tol (dist (spread (length w) v) (spread (length v) w)) then (Some true, Some (map Fin v)) else (Some false, Some (map Fin w)).
  Proof.
    intros G Hv Hw H1. unfold state_change_detector. rewrite G. destruct (bsub_scalar v w Hv Hw H1) as (d & -> & ->). cbn [flt]. cbv zeta.
    destruct (Rlt_b tol _); reflexivity.
  Qed.
End D.
