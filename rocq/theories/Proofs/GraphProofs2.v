(** The types of the modules of a computation graph. *)
From Coq Require Import String Ascii List Bool Arith Lia Permutation.
From Verif Require Import Model.FlaxOptim Model.Graph Spec.GraphSpec Proofs.GraphProofs.
From Verif Require Model.Debug.
Import ListNotations.
Local Open Scope list_scope.

Lemma prefix_iff p s : String.prefix p s = true <-> exists t, s = String.append p t.
Proof.
  revert s. induction p as [|c p IH]; intros s.
  - destruct s; (split; [intros _; eexists; reflexivity|reflexivity]).
  - destruct s as [|c' s]; cbn.
    + split; [discriminate|]. intros (t & E). discriminate E.
    + destruct (ascii_dec c c') as [->|N].
      * rewrite IH. split; intros (t & E); exists t; [rewrite E; reflexivity|injection E; auto].
      * split; [discriminate|]. intros (t & E). injection E as E _. congruence.
Qed.
Lemma contains_iff w s : Debug.contains w s = true <-> exists a b, s = String.append a (String.append w b).
Proof.
  unfold Debug.contains. induction s as [|c s IH].
  - cbn. destruct w as [|cw w]; (split; [|]).
    + intros _. exists ""%string, ""%string. reflexivity.
    + reflexivity.
    + discriminate.
    + intros (a & b & E). destruct a; discriminate E.
  - cbn [index]. destruct (String.prefix w (String c s)) eqn:P.
    + split; [|reflexivity]. intros _. apply prefix_iff in P. destruct P as (t & E). exists ""%string, t. exact E.
    + destruct (index 0 w s) as [n|] eqn:I.
      * split; [|reflexivity]. intros _. destruct (proj1 IH eq_refl) as (a & b & E). exists (String c a), b. cbn. congruence.
      * split; [discriminate|]. intros (a & b & E). exfalso. destruct a as [|c' a].
        -- assert (P' : String.prefix w (String c s) = true) by (apply prefix_iff; exists b; exact E). congruence.
        -- cbn in E. injection E as _ E. assert (X : None = Some 0 :> option nat -> False) by discriminate.
           assert (false = true) as Y; [|discriminate Y]. apply (proj2 IH). exists a, b. exact E.
Qed.

Lemma mentions_iff w p : mentions w p = true <-> some_key w p.
Proof.
  induction p as [|d IH] using param_ind'; cbn [mentions].
  - split; [discriminate|]. intros H. inversion H.
  - rewrite existsb_exists. split.
    + intros ([k v] & I & H). cbn [fst snd] in H. apply orb_true_iff in H. destruct H as [H|H].
      * apply contains_iff in H. exact (sk_here w d k v I H).
      * apply (IH k v I) in H. exact (sk_sub w d k v I H).
    + intros H. inversion H as [? k v I E|? k v I E]; subst; exists (k, v); (split; [exact I|]); cbn [fst snd]; apply orb_true_iff.
      * left. apply contains_iff. exact E.
      * right. apply (IH k v I). exact E.
Qed.

(** a rule as the code tests it *)
Definition rule_test (name : string) (d : list (string * param)) (r : rule) : bool :=
  existsb (fun w => Debug.contains w (Debug.lower name)) (r_words r) || existsb (fun k => mem_key k d) (r_keys r)
  || existsb (fun w => mentions w (PSub d)) (r_deep r).
Lemma rule_test_iff name d r : rule_test name d r = true <-> rule_applies (Debug.lower name) d r.
Proof.
  unfold rule_test, rule_applies. rewrite !orb_true_iff, !existsb_exists. split.
  - intros [[(w & I & H)|(k & I & H)]|(w & I & H)].
    + left. apply contains_iff in H. destruct H as (a & b & E). exists w, a, b. auto.
    + right. left. exists k. split; [exact I|]. apply mem_key_in. exact H.
    + right. right. exists w. split; [exact I|]. apply mentions_iff. exact H.
  - intros [(w & a & b & I & E)|[(k & I & H)|(w & I & H)]].
    + left. left. exists w. split; [exact I|]. apply contains_iff. exists a, b. exact E.
    + left. right. exists k. split; [exact I|]. apply mem_key_in. exact H.
    + right. exists w. split; [exact I|]. apply mentions_iff. exact H.
Qed.
Lemma infer_first name d :
  infer_module_type name d = match find (rule_test name d) type_table with Some r => r_type r | None => "Module"%string end.
Proof.
  unfold infer_module_type, type_table. cbv zeta. cbn [find]. unfold rule_test at 1. cbn [r_words r_keys r_deep existsb].
  rewrite !orb_false_r. rewrite orb_assoc. destruct (_ || _ || _); [reflexivity|].
  unfold rule_test at 1. cbn [r_words r_keys r_deep existsb]. rewrite !orb_false_r. destruct (_ || _); [reflexivity|].
  unfold rule_test at 1. cbn [r_words r_keys r_deep existsb]. rewrite !orb_false_r. destruct (_ || _); [reflexivity|].
  unfold rule_test at 1. cbn [r_words r_keys r_deep existsb]. rewrite !orb_false_r. destruct (_ || _); [reflexivity|].
  unfold rule_test at 1. cbn [r_words r_keys r_deep existsb]. rewrite !orb_false_r. destruct (_ || _); [reflexivity|].
  unfold rule_test at 1. cbn [r_words r_keys r_deep existsb]. rewrite !orb_false_r. cbn [orb]. destruct (_ || _); reflexivity.
Qed.
Lemma find_split {A} (f : A -> bool) l x : find f l = Some x ->
  exists l1 l2, l = l1 ++ x :: l2 /\ f x = true /\ forall y, In y l1 -> f y = false.
Proof.
  induction l as [|a l IH]; cbn; [discriminate|]. destruct (f a) eqn:F; intros E.
  - injection E as <-. exists [], l. split; [reflexivity|]. split; [exact F|]. intros y [].
  - destruct (IH E) as (l1 & l2 & -> & Fx & H). exists (a :: l1), l2. split; [reflexivity|]. split; [exact Fx|].
    intros y [<-|I]; auto.
Qed.
Lemma infer_type_spec name d :
  (exists before r after, type_table = before ++ r :: after /\ rule_applies (Debug.lower name) d r /\
     (forall r', In r' before -> ~ rule_applies (Debug.lower name) d r') /\ infer_module_type name d = r_type r) \/
  ((forall r, In r type_table -> ~ rule_applies (Debug.lower name) d r) /\ infer_module_type name d = "Module"%string).
Proof.
  rewrite infer_first. destruct (find (rule_test name d) type_table) as [r|] eqn:F.
  - left. destruct (find_split _ _ _ F) as (l1 & l2 & E & T & H). exists l1, r, l2. split; [exact E|]. split; [apply rule_test_iff; exact T|].
    split; [|reflexivity]. intros r' I A. apply rule_test_iff in A. rewrite (H r' I) in A. discriminate A.
  - right. split; [|reflexivity]. intros r I A. apply rule_test_iff in A. pose proof (find_none _ _ F r I) as N. congruence.
Qed.
