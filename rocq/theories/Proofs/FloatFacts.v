From Coq Require Import Reals List Lra Bool.
From Verif Require Import Model.Float.
Import ListNotations.
Local Open Scope R_scope.

Lemma Req_b_spec a b : reflect (a = b) (Req_b a b).
Proof. unfold Req_b; destruct (Req_EM_T a b); constructor; auto. Qed.
Lemma Rlt_b_spec a b : reflect (a < b) (Rlt_b a b).
Proof. unfold Rlt_b; destruct (Rlt_dec a b); constructor; auto. Qed.
Lemma Rle_b_spec a b : reflect (a <= b) (Rle_b a b).
Proof. unfold Rle_b; destruct (Rle_dec a b); constructor; auto. Qed.

Lemma Req_b_refl a : Req_b a a = true.
Proof. destruct (Req_b_spec a a); congruence. Qed.
Lemma Req_b_neq a b : a <> b -> Req_b a b = false.
Proof. intros; destruct (Req_b_spec a b); congruence. Qed.
Lemma Rlt_b_true a b : a < b -> Rlt_b a b = true.
Proof. intros; destruct (Rlt_b_spec a b); congruence. Qed.
Lemma Rlt_b_false a b : ~ a < b -> Rlt_b a b = false.
Proof. intros; destruct (Rlt_b_spec a b); congruence. Qed.
Lemma Rle_b_true a b : a <= b -> Rle_b a b = true.
Proof. intros; destruct (Rle_b_spec a b); congruence. Qed.
Lemma Rle_b_false a b : ~ a <= b -> Rle_b a b = false.
Proof. intros; destruct (Rle_b_spec a b); congruence. Qed.

Lemma fdiv_Fin a b : b <> 0 -> fdiv (Fin a) (Fin b) = Fin (a / b).
Proof. intros; simpl; rewrite Req_b_neq; auto. Qed.

Lemma isnan_true x : isnan x = true <-> x = NaN.
Proof. destruct x; simpl; split; congruence. Qed.
Lemma isnan_false x : isnan x = false <-> x <> NaN.
Proof. destruct x; simpl; split; congruence. Qed.

Lemma fold_fadd_Fin l : forall a, fold_left fadd (map Fin l) (Fin a) = Fin (fold_left Rplus l a).
Proof. induction l as [|r l IH]; intros a; simpl; auto. Qed.

Lemma fold_Rplus l : forall a, fold_left Rplus l a = a + fold_right Rplus 0 l.
Proof. induction l as [|r l IH]; intros a; simpl; [lra|]. rewrite IH. lra. Qed.

Lemma fsum_Fin l : fsum (map Fin l) = Fin (fold_right Rplus 0 l).
Proof. unfold fsum. rewrite fold_fadd_Fin, fold_Rplus. f_equal; lra. Qed.

Lemma fsqrt_Fin r : 0 <= r -> fsqrt (Fin r) = Fin (sqrt r).
Proof. intros; simpl. rewrite Rlt_b_false by lra. auto. Qed.
