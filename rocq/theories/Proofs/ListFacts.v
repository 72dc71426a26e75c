(** General list lemmas. *)
From Coq Require Import List Arith Lia.
Import ListNotations.

Lemma nth_error_ext {A} (l1 l2 : list A) :
  (forall i, nth_error l1 i = nth_error l2 i) -> l1 = l2.
Proof.
  revert l2; induction l1 as [|a l1 IH]; intros [|b l2] H; auto.
  - specialize (H 0); discriminate.
  - specialize (H 0); discriminate.
  - f_equal. { specialize (H 0); simpl in H; congruence. }
    apply IH; intros i; exact (H (S i)).
Qed.

Lemma nth_error_lt {A} (l : list A) i : i < length l -> exists a, nth_error l i = Some a.
Proof.
  intros H. destruct (nth_error l i) eqn:E; eauto.
  apply nth_error_None in E; lia.
Qed.

Lemma nth_error_firstn {A} (l : list A) n i :
  i < n -> nth_error (firstn n l) i = nth_error l i.
Proof.
  revert n i; induction l as [|a l IH]; intros [|n] [|i] H; simpl; auto; try lia.
  apply IH; lia.
Qed.

Lemma nth_error_skipn {A} (l : list A) n i :
  nth_error (skipn n l) i = nth_error l (n + i).
Proof.
  revert n; induction l as [|a l IH]; intros [|n]; simpl; auto.
  destruct i; auto.
Qed.

Lemma nth_error_repeat' {A} (a : A) n i :
  nth_error (repeat a n) i = if i <? n then Some a else None.
Proof.
  revert i; induction n as [|n IH]; intros [|i]; simpl; auto. apply IH.
Qed.

Lemma firstn_snoc {A} (l : list A) n a :
  nth_error l n = Some a -> firstn (S n) l = firstn n l ++ [a].
Proof.
  revert n; induction l as [|b l IH]; intros [|n] H; simpl in *; try discriminate.
  - injection H as ->; reflexivity.
  - f_equal; apply IH; exact H.
Qed.

Lemma snoc_cases {A} (l : list A) : l = [] \/ exists l' a, l = l' ++ [a].
Proof.
  destruct l using rev_ind; [left; reflexivity | right; eauto].
Qed.
