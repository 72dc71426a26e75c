From Coq Require Import String List Bool Arith Relations Permutation Lia.
From Verif Require Import Model.Tree Model.Unroll Model.FlaxModules Model.FlaxCore Spec.FlaxCoreSpec.
Import ListNotations.

Lemma mem_spec x l : mem x l = true <-> In x l.
Proof.
  unfold mem. rewrite existsb_exists. split.
  - intros [y [I E]]. apply String.eqb_eq in E. subst. exact I.
  - intros I. exists x. split; [exact I|apply String.eqb_refl].
Qed.
Lemma mem_false x l : mem x l = false <-> ~ In x l.
Proof. rewrite <- mem_spec. destruct (mem x l); split; congruence. Qed.

Lemma needs_deps deps s d : needs deps s d <-> In d (deps_of deps s).
Proof.
  unfold needs, deps_of. destruct (lookup s deps) as [l|]; split.
  - intros [l' [E I]]. congruence.
  - intros I. eauto.
  - intros [l' [E I]]. congruence.
  - intros [].
Qed.

(** *** minimal elements of finite sets *)
Lemma min_exists (R : string -> string -> Prop) l : acyclic R -> l <> [] ->
  ~ (forall x, In x l -> exists y, In y l /\ clos_trans _ R x y).
Proof.
  intros A. induction l as [|a l IH]; [congruence|]. intros _ H.
  destruct l as [|b l].
  - destruct (H a (or_introl eq_refl)) as [y [[E|[]] T]]. subst. exact (A _ T).
  - apply IH; [congruence|]. intros x Ix.
    destruct (H x (or_intror Ix)) as [y [[E|Iy] T]]; [|eauto].
    subst y. destruct (H a (or_introl eq_refl)) as [z [[E|Iz] T2]].
    + subst z. destruct (A _ T2).
    + exists z. split; [exact Iz|]. eapply t_trans; eauto.
Qed.

Lemma min_exists' (R : string -> string -> Prop) l : acyclic R -> l <> [] ->
  ~ (forall x, In x l -> exists y, In y l /\ R x y).
Proof.
  intros A N H. apply (min_exists R l A N). intros x I. destruct (H x I) as [y [Iy T]].
  exists y. split; [exact Iy|apply t_step; exact T].
Qed.

Lemma some_sublist {A} (Q : A -> Prop) (l : list A) : ~ ~ exists l', forall y, In y l' <-> In y l /\ Q y.
Proof.
  induction l as [|a l IH]; intros H.
  - apply H. exists []. cbn. tauto.
  - apply IH. intros (l' & E). assert (NN : ~ ~ (Q a \/ ~ Q a)) by tauto. apply NN. intros [D|D]; apply H.
    + exists (a :: l'). intros y. cbn. rewrite E. split; [intros [<-|]; tauto|intros [[<-|] ?]; tauto].
    + exists l'. intros y. cbn. rewrite E. split; [tauto|]. intros [[<-|] ?]; tauto.
Qed.
Lemma min_exists_from (R : string -> string -> Prop) l x : off_cycles R x -> In x l ->
  ~ (forall y, In y l -> exists z, In z l /\ R y z).
Proof.
  intros O I H. apply (some_sublist (clos_refl_trans _ R x) l). intros (l' & E).
  apply (min_exists' (fun a b => R a b /\ clos_refl_trans _ R x a) l').
  - intros s T. assert (G : forall a b, clos_trans _ (fun a b => R a b /\ clos_refl_trans _ R x a) a b ->
      clos_trans _ R a b /\ clos_refl_trans _ R x a).
    { intros a b U. induction U as [a b [U V]|a b c U [IU1 IU2] V [IV1 IV2]]; [split; [now apply t_step|exact V]|].
      split; [now apply t_trans with b|exact IU2]. }
    apply G in T as [T V]. exact (O s V T).
  - intros ->. assert (In x []) as []. apply E. split; [exact I|apply rt_refl].
  - intros y Iy. apply E in Iy as [Iy V]. destruct (H y Iy) as (z & Iz & Ryz). exists z. split; [|now split].
    apply E. split; [exact Iz|]. apply rt_trans with y; [exact V|now apply rt_step].
Qed.

(** *** get_execution_order *)
Section Order.
  Variable pick : list string -> list string -> list string.
  Variable dependencies : list (string * list string).
  Hypothesis Hpick : any_order pick.

  Definition readyf (ordered remaining : list string) (state : string) : bool :=
    forallb (fun dep => mem dep ordered || negb (mem dep remaining)) (deps_of dependencies state).
  Definition chosen (ordered remaining : list string) : list string :=
    let it := pick ordered remaining in
    let ready := filter (readyf ordered remaining) it in
    match ready with [] => firstn 1 it | _ => ready end.
  Lemma order_loop_S f ordered remaining : remaining <> [] ->
    order_loop (S f) pick dependencies ordered remaining =
    order_loop f pick dependencies (ordered ++ chosen ordered remaining)
      (filter (fun s => negb (mem s (chosen ordered remaining))) remaining).
  Proof. destruct remaining; [congruence|]. intros _. reflexivity. Qed.

  Lemma chosen_sub o r x : In x (chosen o r) -> In x r.
  Proof.
    unfold chosen. intros H. apply (Permutation_in x (Hpick o r)).
    destruct (filter (readyf o r) (pick o r)) eqn:E.
    - destruct (pick o r); [destruct H|]. cbn in H. destruct H as [H|[]]. left; exact H.
    - rewrite <- E in H. apply filter_In in H. tauto.
  Qed.
  Lemma chosen_nonempty o r : r <> [] -> chosen o r <> [].
  Proof.
    intros N. unfold chosen. destruct (filter (readyf o r) (pick o r)) eqn:E; [|congruence].
    destruct (pick o r) eqn:P; [|cbn; congruence].
    destruct N. apply Permutation_nil. rewrite <- P. apply Hpick.
  Qed.
  Lemma NoDup_firstn1 {A} (l : list A) : NoDup (firstn 1 l).
  Proof. destruct l; cbn; repeat constructor; intros []. Qed.
  Lemma chosen_nodup o r : NoDup r -> NoDup (chosen o r).
  Proof.
    intros N. unfold chosen. assert (NoDup (pick o r)) by (eapply Permutation_NoDup; [symmetry; apply Hpick|exact N]).
    destruct (filter (readyf o r) (pick o r)) eqn:E; [apply NoDup_firstn1|]. rewrite <- E. apply NoDup_filter; auto.
  Qed.
  Lemma filter_length_le {A} (p : A -> bool) l : length (filter p l) <= length l.
  Proof. induction l as [|a l IH]; cbn; [lia|]. destruct (p a); cbn; lia. Qed.
  Lemma NoDup_app' {A} (l l' : list A) : NoDup l -> NoDup l' -> (forall x, In x l -> ~ In x l') -> NoDup (l ++ l').
  Proof.
    induction l as [|a l IH]; cbn; intros N N' D; [exact N'|]. apply NoDup_cons_iff in N. destruct N as [Na N].
    constructor; [|apply IH; auto]. rewrite in_app_iff. intros [I|I]; [exact (Na I)|exact (D a (or_introl eq_refl) I)].
  Qed.
  Lemma filter_shorter {A} (p : A -> bool) l x : In x l -> p x = false -> length (filter p l) < length l.
  Proof.
    induction l as [|a l IH]; [intros []|]. cbn. intros [E|I] P.
    - subst. rewrite P. pose proof (filter_length_le p l). lia.
    - specialize (IH I P). destruct (p a); cbn; lia.
  Qed.

  Definition order_inv (active ordered remaining : list string) : Prop :=
    NoDup ordered /\ NoDup remaining /\ (forall s, In s ordered -> ~ In s remaining) /\
    (forall s, In s active <-> In s ordered \/ In s remaining).

  Lemma order_inv_step active o r : order_inv active o r ->
    order_inv active (o ++ chosen o r) (filter (fun s => negb (mem s (chosen o r))) r).
  Proof.
    intros [N1 [N2 [D U]]]. pose proof (chosen_nodup o r N2) as NC.
    assert (NA : NoDup (o ++ chosen o r)).
    { apply NoDup_app'; auto. intros s I1 I2. exact (D s I1 (chosen_sub _ _ _ I2)). }
    split; [exact NA|]. split; [apply NoDup_filter; exact N2|]. split.
    - intros s I J. apply filter_In in J. destruct J as [J1 J2]. apply in_app_iff in I. destruct I as [I|I].
      + exact (D s I J1).
      + apply mem_spec in I. rewrite I in J2. discriminate.
    - intros s. rewrite U, in_app_iff, filter_In. destruct (mem s (chosen o r)) eqn:E; cbn.
      + apply mem_spec in E. split; [tauto|]. intros [[I|I]|[I _]]; auto. right. apply (chosen_sub o r). exact I.
      + apply mem_false in E. tauto.
  Qed.

  Lemma order_loop_total f : forall active o r, order_inv active o r -> length r <= f ->
    exists order, order_loop f pick dependencies o r = Some order /\ NoDup order /\
      forall s, In s order <-> In s active.
  Proof.
    induction f as [|f IH]; intros active o r I L.
    - destruct r; [|cbn in L; lia]. exists o. destruct I as [N1 [_ [_ U]]].
      split; [reflexivity|]. split; [exact N1|]. intros s. rewrite U. cbn. tauto.
    - destruct r as [|a r'] eqn:Er.
      + exists o. destruct I as [N1 [_ [_ U]]].
        split; [reflexivity|]. split; [exact N1|]. intros s. rewrite U. cbn. tauto.
      + rewrite <- Er in *. assert (NE : r <> []) by congruence.
        rewrite order_loop_S by exact NE. apply IH; [apply order_inv_step; exact I|].
        destruct (chosen o r) as [|c cs] eqn:Ec; [destruct (chosen_nonempty o r NE Ec)|].
        assert (Hc : In c r) by (apply (chosen_sub o r); rewrite Ec; left; reflexivity).
        pose proof (filter_shorter (fun s => negb (mem s (c :: cs))) r c Hc) as S.
        assert (negb (mem c (c :: cs)) = false) by (cbn; rewrite String.eqb_refl; reflexivity).
        specialize (S H). lia.
  Qed.

  Lemma order_inv_init active : order_inv active [] (nodup string_dec active).
  Proof.
    split; [constructor|]. split; [apply NoDup_nodup|]. split; [intros s []|].
    intros s. rewrite nodup_In. cbn. tauto.
  Qed.
  Lemma nodup_length {A} (dec : forall x y : A, {x = y} + {x <> y}) l : length (nodup dec l) <= length l.
  Proof. induction l as [|a l IH]; cbn; [lia|]. destruct (in_dec dec a l); cbn; lia. Qed.

  Theorem order_total active : exists order,
    get_execution_order pick dependencies active = Some order /\ NoDup order /\
    forall s, In s order <-> In s active.
  Proof. apply order_loop_total; [apply order_inv_init|apply nodup_length]. Qed.

  (** acyclic case *)
  Lemma before_app_r l l' a b : before l a b -> before (l ++ l') a b.
  Proof.
    intros (l1 & l2 & l3 & E). exists l1, l2, (l3 ++ l'). subst.
    rewrite <- app_assoc. cbn. rewrite <- app_assoc. reflexivity.
  Qed.
  Lemma before_both l l' a b : In a l -> In b l' -> before (l ++ l') a b.
  Proof.
    intros Ia Ib. apply in_split in Ia. apply in_split in Ib. destruct Ia as (p & q & E). destruct Ib as (u & v & F).
    exists p, (q ++ u), v. subst. rewrite <- !app_assoc. cbn. reflexivity.
  Qed.
  Lemma chosen_ready active o r x : off_cycles (needs_in dependencies active) x -> order_inv active o r -> r <> [] ->
    In x (chosen o r) -> readyf o r x = true.
  Proof.
    intros A I NE H. unfold chosen in H. destruct (filter (readyf o r) (pick o r)) eqn:E.
    - exfalso. assert (Ix : In x r) by (apply (chosen_sub o); unfold chosen; rewrite E; exact H).
      apply (min_exists_from _ r x A Ix). intros s Is. clear H.
      assert (Ps : In s (pick o r)) by (apply (Permutation_in s (Permutation_sym (Hpick o r))); exact Is).
      assert (F : readyf o r s = false).
      { destruct (readyf o r s) eqn:F; [|reflexivity].
        assert (H0 : In s (filter (readyf o r) (pick o r))) by (apply filter_In; tauto). rewrite E in H0. destruct H0. }
      unfold readyf in F.
      assert (X : exists d, In d (deps_of dependencies s) /\ (mem d o || negb (mem d r)) = false).
      { clear - F. induction (deps_of dependencies s) as [|d l IH]; [discriminate|]. cbn in F.
        apply andb_false_iff in F. destruct F as [F|F]; [exists d; cbn; tauto|].
        destruct (IH F) as [d' [I' F']]. exists d'. cbn. tauto. }
      destruct X as [d [Id F2]]. apply orb_false_iff in F2. destruct F2 as [_ F2].
      apply negb_false_iff, mem_spec in F2. exists d. split; [exact F2|].
      destruct I as [_ [_ [_ U]]]. split; [apply U; tauto|]. split; [apply U; tauto|].
      apply needs_deps. exact Id.
    - rewrite <- E in H. apply filter_In in H. tauto.
  Qed.

  Lemma order_loop_acyclic f : forall active o r order,
    order_inv active o r -> (forall s d, In s o -> off_cycles (needs_in dependencies active) s ->
      needs_in dependencies active s d -> before o d s) ->
    order_loop f pick dependencies o r = Some order ->
    forall s d, off_cycles (needs_in dependencies active) s -> needs_in dependencies active s d -> before order d s.
  Proof.
    induction f as [|f IH]; intros active o r order I B E s d A ND.
    - destruct r; [|discriminate]. cbn in E. assert (o = order) by congruence. subst. apply B; [|exact A|exact ND].
      destruct I as [_ [_ [_ U]]]. destruct ND as [Hs _]. apply U in Hs. cbn in Hs. tauto.
    - destruct r as [|a r'] eqn:Er.
      + cbn in E. assert (o = order) by congruence. subst. apply B; [|exact A|exact ND].
        destruct I as [_ [_ [_ U]]]. destruct ND as [Hs _]. apply U in Hs. cbn in Hs. tauto.
      + rewrite <- Er in *. assert (NE : r <> []) by congruence.
        rewrite order_loop_S in E by exact NE.
        eapply IH; [apply order_inv_step; exact I| |exact E|exact A|exact ND].
        clear s d ND E A. intros s d Is A ND. apply in_app_iff in Is. destruct Is as [Is|Is].
        * apply before_app_r. apply B; assumption.
        * apply before_both; [|exact Is].
          pose proof (chosen_ready active o r s A I NE Is) as R. unfold readyf in R.
          rewrite forallb_forall in R. destruct ND as [_ [Hd Hn]]. apply needs_deps in Hn. specialize (R d Hn).
          destruct I as [_ [_ [_ U]]]. apply orb_true_iff in R. destruct R as [R|R]; [apply mem_spec; exact R|].
          apply negb_true_iff, mem_false in R. apply U in Hd. tauto.
  Qed.

  Theorem order_dependencies active order : 
    get_execution_order pick dependencies active = Some order ->
    forall s d, needs_in dependencies active s d -> off_cycles (needs_in dependencies active) s -> before order d s.
  Proof.
    intros E s d N A. eapply order_loop_acyclic; [apply order_inv_init| |exact E|exact A|exact N]. intros ? ? [].
  Qed.
  Theorem order_acyclic active order : acyclic (needs_in dependencies active) ->
    get_execution_order pick dependencies active = Some order ->
    forall s d, needs_in dependencies active s d -> before order d s.
  Proof. intros A E s d N. apply (order_dependencies active order E s d N). intros q _. apply A. Qed.
End Order.
