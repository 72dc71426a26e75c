(** Invariant principle for module runs. *)
From Coq Require Import List Arith Lia.
From Verif Require Import Model.Unroll Model.Modules Proofs.ListFacts Proofs.UnrollProofs.
Import ListNotations.

Lemma some_pair_inj {A B} (a c : A) (b d : B) : Some (a, b) = Some (c, d) -> a = c /\ b = d.
Proof. intros H; injection H; auto. Qed.

Section R.
  Context {S X Y : Type} (init : X -> S) (step : S -> X -> Y * S).

  Definition stepf (s : S) (x : X) : S * Y := (snd (step s x), fst (step s x)).

  Lemma run_eq x0 xs :
    run (hk_module init step) (x0 :: xs) =
    Some (snd (lax_scan stepf (init x0) (x0 :: xs)), fst (lax_scan stepf (init x0) (x0 :: xs))).
  Proof.
    unfold run. rewrite unroll_unfold. cbn [hk_module t_init fst snd]. rewrite unroll_apply_eq.
    set (f := scan_f _ _ _).
    assert (G : forall l s, lax_scan f (s, None) l =
              (fst (lax_scan stepf s l), None, snd (lax_scan stepf s l))).
    { induction l as [|x l IH]; intros s; cbn [lax_scan]; auto.
      unfold f at 1, scan_f at 1. cbn [t_apply hk_module]. unfold stepf at 1 3.
      destruct (step s x) as [y s']. cbn [fst snd]. rewrite IH.
      destruct (lax_scan stepf s' l). reflexivity. }
    rewrite G. reflexivity.
  Qed.

  (** state after a list of inputs from state s *)
  Fixpoint steps (s : S) (xs : list X) : S :=
    match xs with [] => s | x :: r => steps (snd (step s x)) r end.

  Lemma steps_app s xs ys : steps s (xs ++ ys) = steps (steps s xs) ys.
  Proof. revert s; induction xs as [|x xs IH]; intros s; simpl; auto. Qed.

  Lemma carry_steps s xs : scan_carry stepf s xs = steps s xs.
  Proof.
    unfold scan_carry. revert s; induction xs as [|x xs IH]; intros s; simpl; auto.
    specialize (IH (snd (step s x))). destruct (lax_scan stepf (snd (step s x)) xs); auto.
  Qed.

  Lemma run_nth x0 xs ys sF :
    run (hk_module init step) (x0 :: xs) = Some (ys, sF) ->
    length ys = length (x0 :: xs) /\ sF = steps (init x0) (x0 :: xs) /\
    forall t x, nth_error (x0 :: xs) t = Some x ->
      nth_error ys t = Some (fst (step (steps (init x0) (firstn t (x0 :: xs))) x)).
  Proof.
    rewrite run_eq. intros H; apply some_pair_inj in H; destruct H as [<- <-].
    split; [apply lax_scan_length|]. split.
    - change (fst (lax_scan stepf (init x0) (x0 :: xs))) with (scan_carry stepf (init x0) (x0 :: xs)).
      apply carry_steps.
    - intros t x Hx. rewrite (lax_scan_nth _ _ _ _ _ Hx), carry_steps. reflexivity.
  Qed.

  (** Invariant over all prefixes. *)
  Lemma steps_inv (Inv : list X -> S -> Prop) s0 :
    Inv [] s0 ->
    (forall pre s x, Inv pre s -> Inv (pre ++ [x]) (snd (step s x))) ->
    forall xs, Inv xs (steps s0 xs).
  Proof.
    intros H0 Hs xs. rewrite <- (app_nil_l xs) at 1.
    generalize (@nil X) s0 H0. clear H0 s0.
    induction xs as [|x xs IH]; intros pre s H; simpl.
    - rewrite app_nil_r; exact H.
    - specialize (IH (pre ++ [x]) (snd (step s x)) (Hs _ _ _ H)).
      rewrite <- app_assoc in IH. exact IH.
  Qed.

  Lemma run_inv (Inv : list X -> S -> Prop) x0 xs ys sF :
    Inv [] (init x0) ->
    (forall pre s x, Inv pre s -> Inv (pre ++ [x]) (snd (step s x))) ->
    run (hk_module init step) (x0 :: xs) = Some (ys, sF) ->
    length ys = length (x0 :: xs) /\ Inv (x0 :: xs) sF /\
    forall t x, nth_error (x0 :: xs) t = Some x ->
      exists s, Inv (firstn t (x0 :: xs)) s /\ Inv (firstn (t + 1) (x0 :: xs)) (snd (step s x)) /\
        nth_error ys t = Some (fst (step s x)).
  Proof.
    intros H0 Hs Hr. destruct (run_nth _ _ _ _ Hr) as (Hl & HsF & Hn).
    split; auto. split. { subst sF; apply steps_inv; auto. }
    intros t x Hx. exists (steps (init x0) (firstn t (x0 :: xs))).
    assert (Hi : Inv (firstn t (x0 :: xs)) (steps (init x0) (firstn t (x0 :: xs))))
      by (apply steps_inv; auto).
    split; auto. split; [|apply Hn; exact Hx].
    rewrite Nat.add_1_r, (firstn_snoc _ _ _ Hx). apply Hs; exact Hi.
  Qed.

  Lemma run_total x0 xs : exists ys sF, run (hk_module init step) (x0 :: xs) = Some (ys, sF).
  Proof. rewrite run_eq. eauto. Qed.
End R.

Lemma run_nonempty {S X Y} (m : transformed unit unit S X Y) xs ys sF :
  run m xs = Some (ys, sF) -> exists x0 r, xs = x0 :: r.
Proof. destruct xs as [|x0 r]; [discriminate|eauto]. Qed.
