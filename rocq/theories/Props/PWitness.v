(** Instances of property theorems whose hypotheses are long or of higher order: each [Example] applies a
    theorem to concrete, non-trivial data and discharges all its hypotheses. *)
From Coq Require Import String List Arith ZArith Lia Reals Lra Bool.
From Verif Require Import Model.Tree Model.Unroll Model.Batch Model.Float Model.Modules Model.Ewm Model.Masks Model.Dynamics
  Model.Newton Model.Optim Model.Stream Model.Gym Spec.TreeSpec Spec.BatchSpec Spec.EwmSpec Spec.CovSpec Spec.MaskSpec
  Spec.DynSpec Spec.NewtonSpec Spec.OptimSpec Spec.StreamSpec Spec.GymSpec.
From Verif Require Import Proofs.FloatFacts Proofs.EwmExamples Proofs.RunFacts.
From Verif Require Import Props.PUnroll Props.PEwm Props.PDyn Props.POptim Props.PStream Props.PGym.
Import ListNotations.

Module WUnroll.
  Definition splitn (n k : nat) : list nat := map (fun i => k + i) (seq 0 n).
  Lemma splitn_len n k : length (splitn n k) = n.
  Proof. unfold splitn. rewrite map_length, seq_length. reflexivity. Qed.

  (** two lanes, the second changed: the first sees no difference *)
  Example C09_noninterference_applies :
    column 0 [[(1, Some 31, 1); (6, Some 32, 2)]; [(2, Some 59, 3); (7, Some 60, 4)]] =
    column 0 [[(1, Some 31, 1); (10, Some 32, 8)]; [(2, Some 59, 3); (11, Some 60, 7)]].
  Proof.
    refine (proj1 (C09_vmap_noninterference nat unit nat nat _ demo_split splitn demo true 2 0 [tt; tt] [tt; tt] [0; 5] [0; 9]
      (Some 7) [[1; 2]; [3; 4]] [[1; 8]; [3; 7]] _ [2; 7] _ [2; 11] splitn_len _ eq_refl eq_refl eq_refl eq_refl _ _ eq_refl eq_refl
      eq_refl eq_refl eq_refl)); [lia|..]; intros xs [<-|[<-|[]]]; reflexivity.
  Qed.
  Example C09_lanes_applies :
    column 1 [[(1, Some 31, 1); (6, Some 32, 2)]; [(2, Some 59, 3); (7, Some 60, 4)]] =
      map Some [(6, Some 32, 2); (7, Some 60, 4)] /\
    nth_error [2; 7] 1 = Some 7.
  Proof.
    refine (C09_vmap_lanes nat unit nat nat _ demo_split splitn demo true 2 [tt; tt] splitn_len [[1; 2]; [3; 4]] [0; 5]
      (Some 7) _ [2; 7] eq_refl _ eq_refl 1 tt 5 eq_refl eq_refl [2; 4] eq_refl _ 7 eq_refl).
    intros xs [<-|[<-|[]]]; reflexivity.
  Qed.
  (** inputs without event may differ *)
  Example C30_only_events_applies (full_like : nat -> nat) :
    unroll_apply demo_split (update_on_event full_like (Transformed (fun _ (x : nat) => (tt, 0)) (fun _ s _ x => (s + x, s + x))))
      false tt (4, 3) None [(true, 5); (false, 6); (true, 7)] =
    unroll_apply demo_split (update_on_event full_like (Transformed (fun _ (x : nat) => (tt, 0)) (fun _ s _ x => (s + x, s + x))))
      false tt (4, 3) None [(true, 5); (false, 100); (true, 7)].
  Proof.
    apply C30_only_events_matter; [reflexivity|].
    intros [|[|[|t]]] x x' H H'; cbn [nth_error] in *; try congruence; destruct t; discriminate.
  Qed.
End WUnroll.

Module WEwm.
  Local Open Scope R_scope.
  Definition cfg := EwmaCfg 1 0 AdjFalse false NaN.
  (** the outputs 3, 3, 5 of C20_example lie in the range [3, 6] of the observations; the missing value is not one *)
  Example C21_applies t y :
    nth_error [Fin 3; Fin 3; Fin 5] t = Some y -> y = NaN \/ exists r, y = Fin r /\ 3 <= r <= 6.
  Proof.
    destruct C20_example as [sF E]. intros H.
    refine (C21_ewma_within_range 1000 cfg _ _ _ 3 6 _ E _ t y _ H).
    - cbn. lra.
    - cbn. discriminate.
    - intros s x v _ Hx Hv. destruct s as [|[|[|s]]]; cbn [nth_error] in Hx; try (injection Hx as <-); cbn in Hv; try discriminate.
      + injection Hv as <-. lra.
      + injection Hv as <-. lra.
      + destruct s; discriminate.
  Qed.
  (** weights for the third step of a series with a hole *)
  Example C62_applies :
    exists w : nat -> R, w 1%nat = 0 /\ sum_n 3 w = 1 /\
      forall a b ys sF, run (EWMA 1000 cfg) (map of_option [Some a; None; Some b]) = Some (ys, sF) ->
        nth_error ys 2 = Some (Fin (sum_n 3 (fun k => w k * match nth k [Some a; None; Some b] None with Some x => x | None => 0 end))).
  Proof.
    destruct (C62_ewma_weights_independent_of_values 1000 cfg [true; false; true] 2) as (w & _ & H0 & H1 & H2);
      [cbn; lra|reflexivity|cbn; lia|].
    exists w. split; [apply H0; reflexivity|]. split; [apply H1; reflexivity|].
    intros a b ys sF E. exact (H2 [Some a; None; Some b] ys sF eq_refl E).
  Qed.
  Example C25_applies :
    exists res sF, numba_ewma (EwmaCfg 1 0 AdjTrue true NaN) (map (map of_option) [[Some 3; None]; [None; Some 1]; [Some 6; Some 1]]) None = Some (res, sF) /\
      forall ys s, run (EWMA 1000 (EwmaCfg 1 0 AdjTrue true NaN)) [NaN; Fin 1; Fin 1] = Some (ys, s) -> ys = [NaN; Fin 1; Fin 1].
  Proof.
    destruct C25_example as [sF E]. do 2 eexists. split; [exact E|].
    intros ys s Hr.
    destruct (C25_numba_agrees_with_jax 1000 (EwmaCfg 1 0 AdjTrue true NaN) [[Some 3; None]; [None; Some 1]; [Some 6; Some 1]] 2 None _ _ eq_refl
      ltac:(repeat constructor) E) as (_ & _ & H).
    symmetry. exact (H 1%nat ltac:(lia) ys s Hr).
  Qed.
End WEwm.

Module WOptim.
  Local Open Scope R_scope.
  (** two optimizers which differ on gradients that are not finite *)
  Example C34_only_finite_gradients_applies :
    let model := @Transformed unit (pmap array) unit fl (fl * unit)
      (fun _ _ => ([(("m", "w"), [Fin 1])], tt))%string
      (fun p s _ x => ((match get ("m", "w")%string p with Some [w] => fsub w x | _ => NaN end, tt), s)) in
    let clip := fun v => if isfinite v then fneg v else Fin 7 in
    let sgd := @GradTrans unit array (fun _ => tt) (fun g s => (map (fun kv => (fst kv, map fneg (snd kv))) g, s)) in
    let sgd' := @GradTrans unit array (fun _ => tt) (fun g s => (map (fun kv => (fst kv, map clip (snd kv))) g, s)) in
    let grad := fun (_ : pmap array -> fl) (_ : pmap array) => [(("m", "w")%string, [PInf])] in
    opt_update sgd [(("m", "w")%string, [PInf])] tt <> opt_update sgd' [(("m", "w")%string, [PInf])] tt /\
    unroll (fun k : unit => (k, k)) (OnlineOptimizer (fun k => (k, k)) 1000 model sgd None None (fun _ _ => true) true grad)
      false (Some tt) None None [Fin 0; Fin 3] =
    unroll (fun k : unit => (k, k)) (OnlineOptimizer (fun k => (k, k)) 1000 model sgd' None None (fun _ _ => true) true grad)
      false (Some tt) None None [Fin 0; Fin 3].
  Proof.
    cbv zeta. split; [cbn; discriminate|].
    apply C34_only_finite_gradients; [reflexivity|].
    intros g os H. cbn. f_equal. apply map_ext_in. intros [k l] Hin. cbn. f_equal.
    rewrite Forall_forall in H. specialize (H _ Hin). cbn in H. rewrite Forall_forall in H.
    apply map_ext_in. intros v Hv. rewrite (H _ Hv). reflexivity.
  Qed.
  (** the second of two leaves, over two steps *)
  Example C35_newton_tree_applies (g1 g2 h1 h2 : vec) :
    let gss := [[(2%nat, g1); (3%nat, h1)]; [(2%nat, g2); (3%nat, h2)]] in
    nth_error (snd (newton_run_tree (newton_init_tree (1 / 10) [2; 3]%nat) gss)) 1 =
    Some (snd (newton_run 3 (newton_init (1 / 10) 3) [h1; h2])).
  Proof.
    cbv zeta. refine (proj2 (C35_newton_tree [2; 3]%nat _ 1 3 [h1; h2] eq_refl (1 / 10) _ _)).
    - repeat constructor.
    - repeat constructor.
  Qed.
End WOptim.

Module WGym.
  (** a countdown which is done at 0 or 1, observed by a callback without effect on it, ends from every start *)
  Definition countdown : @environment ex_world nat nat nat unit :=
    Env (fun w => (fst (fst w), w))
        (fun a w => let '(n, t, r) := w in ((pred n, a, Nat.leb n 1, tt), (pred n, t, r)))
        (fun w => w).
  Example C46_environment_terminates_applies n :
    exists r, gym_unroll ex_agent countdown None [ex_record] (S n) (n, 0%Z, []) = Some r.
  Proof.
    refine (C46_environment_terminates _ _ _ _ _ ex_agent countdown [ex_record] (fun w : ex_world => fst (fst w)) None (n, 0%Z, []) _ _ _ _).
    - intros w. cbn. lia.
    - intros o w. reflexivity.
    - intros a [[m t] r]. cbn. destruct m as [|[|m]]; cbn; [left; reflexivity|left; reflexivity|right; lia].
    - intros c [<-|[]]. cbn. repeat split; try discriminate.
      intros f s w [= <-]. destruct (done s); reflexivity.
  Qed.
  Example C46_record_applies :
    exists o0 its l s w', gym_unroll ex_agent ex_env None [ex_record] 9 (3, 0%Z, []) = Some (s, w', l) /\
      chained o0 its /\
      snd w' = map (fun it : @iteration nat nat nat unit => [FReward (rw (state it))]) (filter (fun it => negb (done (state it)) && true) its).
  Proof.
    destruct C46_example as ((l & E) & _).
    pose proof (C46_record _ _ _ _ _ ex_agent ex_env [] [] (fun _ => false) false false (fun w : ex_world => snd w)
      (fun v w => (fst w, v)) None 9 _ _ _ l (fun _ _ => eq_refl)
      ltac:(repeat split; try reflexivity; intros a [[n t] r]; reflexivity) ltac:(intros c []) E) as (o0 & its & _ & H & H').
    exists o0, its, l. do 2 eexists. split; [exact E|]. split; [exact H|]. exact H'.
  Qed.
End WGym.

Module WStream.
  (** a traced stream read before its first observation: the default index 1 is taken for an observation *)
  Example C44_nonnegative_default_applies :
    exists outz, nth_error [One (None, 1%Z)] 0 = Some outz /\ access_out 99%Z (map snd [(5, 50); (15, 51)]%Z) outz = [51%Z].
  Proof.
    refine (C44_nonnegative_default_refuted Z 99%Z [(5, 50); (15, 51)]%Z _ (fun T => T) true 1 15%Z 51%Z
      [(0, 0); (4, 0); (6, 0)]%Z [(SecCfg (fun T => T) true None 1%Z, [(5, 0); (5, 0); (15, 1)]%Z)] _ 0 (4, 0)%Z _ 0 eq_refl eq_refl eq_refl eq_refl eq_refl _).
    intros To o [<-|[]] [<-|[<-|[]]]; cbn; lia.
  Qed.
End WStream.
