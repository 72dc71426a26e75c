From Coq Require Import String Ascii List Bool Arith Reals Lra Lia.
From Verif Require Import Model.Float Model.Testing Spec.TestingSpec Proofs.FloatFacts.
Import ListNotations.
Local Open Scope list_scope.

Lemma feq_same a b : feq a b = true <-> same_value a b.
Proof.
  unfold same_value. destruct a, b; cbn; split; intros H; try discriminate; try (split; [reflexivity|discriminate]);
    try (destruct H as [H H']; congruence).
  - unfold Req_b in H. destruct (Req_EM_T r r0); [subst; split; congruence|discriminate].
  - destruct H as [H _]. injection H as ->. unfold Req_b. destruct (Req_EM_T r0 r0); congruence.
Qed.

Lemma isclose_near a b : isclose a b = true <-> near a b.
Proof.
  unfold near, isclose. destruct a as [| | |x], b as [| | |y]; cbn [feq]; try (split; [discriminate|]; intros [(u & v & E1 & E2 & _)|[E [E'|E']]]; congruence).
  - split; auto.
  - split; auto.
  - unfold Rlt_b. destruct (Rlt_dec (1 / 10 ^ 8 + 1 / 10 ^ 5 * Rabs y) (Rabs (x - y))) as [L|L]; split; intros H; try discriminate; auto.
    + exfalso. destruct H as [(u & v & E1 & E2 & H)|[_ [H|H]]]; try discriminate. injection E1 as ->. injection E2 as ->. lra.
    + left. exists x, y. repeat split. lra.
Qed.

Lemma broadcast_refl s : broadcast_same s s = Some s.
Proof. induction s as [|a s IH]; [reflexivity|]. cbn. rewrite IH, Nat.eqb_refl. reflexivity. Qed.
Lemma pad_self s : pad (length s) s = s.
Proof. unfold pad. rewrite Nat.sub_diag. reflexivity. Qed.
Lemma concat_chunks {A} k n (l : list A) : length l = n * k -> concat (chunks k n l) = l.
Proof.
  revert l. induction n as [|n IH]; intros l H; cbn [chunks concat].
  - destruct l; [reflexivity|discriminate].
  - rewrite IH; [apply firstn_skipn|]. rewrite skipn_length. cbn in H. lia.
Qed.
Lemma chunks_len {A} k n (l : list A) : length l = n * k -> Forall (fun r => length r = k) (chunks k n l).
Proof.
  revert l. induction n as [|n IH]; intros l H; cbn [chunks]; constructor.
  - rewrite firstn_length. cbn in H. lia.
  - apply IH. rewrite skipn_length. cbn in H. lia.
Qed.
Lemma expand_self {A} s : forall l : list A, length l = size s -> expand s s l = l.
Proof.
  induction s as [|a s IH]; intros l H; [reflexivity|]. cbn [expand]. rewrite Nat.eqb_refl.
  change (size (a :: s)) with (a * size s) in H.
  rewrite <- (concat_chunks (size s) a l H) at 2. f_equal.
  pose proof (chunks_len (size s) a l H) as F. induction F as [|r rs Hr F IHF]; [reflexivity|]. cbn [map]. rewrite IHF, IH; auto.
Qed.

Lemma forallb_combine {A B} (p : A -> B -> bool) (P : A -> B -> Prop) : (forall a b, p a b = true <-> P a b) -> forall x y,
  length x = length y -> (forallb (fun ab => p (fst ab) (snd ab)) (combine x y) = true <-> Forall2 P x y).
Proof.
  intros H. induction x as [|a x IH]; intros [|b y] L; try discriminate.
  - split; constructor.
  - cbn [combine forallb fst snd]. rewrite andb_true_iff, H, IH by (cbn in L; lia). split.
    + intros []. constructor; auto.
    + inversion 1; subst. auto.
Qed.

Lemma all_pairs_same (p : fl -> fl -> bool) (P : fl -> fl -> Prop) s x y : (forall a b, p a b = true <-> P a b) ->
  length x = size s -> length y = size s -> (all_pairs p s x s y = true <-> Forall2 P x y).
Proof.
  intros H Hx Hy. unfold all_pairs, broadcast. rewrite Nat.max_id, pad_self, broadcast_refl, pad_self, !expand_self by assumption.
  apply forallb_combine; [exact H|congruence].
Qed.

Lemma exact_dtype_b d : (String.eqb d "int32" || String.eqb d "uint32") = true <-> exact_dtype d.
Proof. rewrite orb_true_iff, !String.eqb_eq. reflexivity. Qed.

Lemma leaf_close_agree a b : proper a -> proper b -> same_shape a b -> (leaf_close a b = true <-> agree a b).
Proof.
  destruct a as [ta x|ca da sa xa], b as [tb y|cb db sb xb]; cbn [proper same_shape leaf_close]; intros Ha Hb Hs.
  - rewrite andb_true_iff, String.eqb_eq, feq_same. split; [intros [-> H]; constructor; exact H|inversion 1; subst; auto].
  - split; [discriminate|inversion 1].
  - split; [discriminate|inversion 1].
  - subst sb. rewrite !andb_true_iff, !String.eqb_eq.
    destruct (String.eqb da "int32" || String.eqb da "uint32") eqn:E.
    + pose proof (proj1 (exact_dtype_b da) E) as He. rewrite (all_pairs_same feq same_value sa xa xb feq_same Ha Hb). split.
      * intros [[-> ->] H]. apply agree_exact; assumption.
      * inversion 1; subst; [auto|contradiction].
    + assert (He : ~ exact_dtype da) by (intros X; apply exact_dtype_b in X; congruence).
      rewrite (all_pairs_same isclose near sa xa xb isclose_near Ha Hb). split.
      * intros [[-> ->] H]. apply agree_near; assumption.
      * inversion 1; subst; [contradiction|auto].
Qed.

Lemma close_spec check s s' xs ys : Forall proper xs -> Forall proper ys ->
  (forall i a b, nth_error xs i = Some a -> nth_error ys i = Some b -> same_shape a b) ->
  (assert_tree_all_close check (s, xs) (s', ys) = true <->
   (check = true -> erase "wax." s = erase "wax." (erase "_test" s')) /\ Forall2 agree xs ys).
Proof.
  intros Hx Hy Hs. unfold assert_tree_all_close. cbn [fst snd]. rewrite !andb_true_iff, Nat.eqb_eq.
  assert (C : ((if check then String.eqb (erase "wax." s) (erase "wax." (erase "_test" s')) else true) = true <->
               (check = true -> erase "wax." s = erase "wax." (erase "_test" s')))).
  { destruct check; [rewrite String.eqb_eq; split; auto|split; [discriminate|reflexivity]]. }
  rewrite C.
  assert (D : length xs = length ys /\ forallb (fun ab => leaf_close (fst ab) (snd ab)) (combine xs ys) = true <-> Forall2 agree xs ys).
  { clear C. revert ys Hy Hs. induction Hx as [|a xs Ha Hx IH]; intros ys Hy Hs.
    - destruct ys; split.
      + intros _. constructor.
      + intros _. split; reflexivity.
      + intros [E _]; discriminate.
      + inversion 1.
    - destruct ys as [|b ys]; [split; [intros [E _]; discriminate|inversion 1]|].
      assert (Hb := Forall_inv Hy). assert (Hy' := Forall_inv_tail Hy).
      cbn [length combine forallb fst snd]. rewrite andb_true_iff, (leaf_close_agree a b Ha Hb (Hs 0 a b eq_refl eq_refl)).
      specialize (IH ys Hy' (fun i => Hs (S i))). split.
      + intros [E [H1 H2]]. constructor; [exact H1|]. apply IH. split; [congruence|exact H2].
      + inversion 1; subst. apply IH in H5 as [E H5]. auto. }
  rewrite <- D. tauto.
Qed.

Lemma near_refl a : near a a <-> a <> NaN.
Proof.
  split; [intros [(x & y & -> & _)|[_ [->| ->]]]; discriminate|]. intros H. unfold near. destruct a as [| | |x]; [congruence|auto|auto|].
  left. exists x, x. repeat split. rewrite Rminus_diag_eq, Rabs_R0 by reflexivity.
  assert (0 <= 1 / 10 ^ 5 * Rabs x)%R. { apply Rmult_le_pos; [|apply Rabs_pos]. lra. } lra.
Qed.
Lemma forall2_self {A} (P : A -> A -> Prop) l : Forall2 P l l <-> Forall (fun a => P a a) l.
Proof. induction l as [|a l IH]; split; intros H; try constructor; inversion H; subst; auto; apply IH; assumption. Qed.
Lemma forall_no (P : fl -> fl -> Prop) d : (forall a, P a a <-> a <> NaN) -> (Forall2 P d d <-> ~ In NaN d).
Proof.
  intros H. rewrite forall2_self, Forall_forall. split.
  - intros F I. apply F, H in I. congruence.
  - intros I a Ha. apply H. intros ->. contradiction.
Qed.
Lemma agree_self a : agree a a <-> no_nan a.
Proof.
  assert (Sv : forall v, same_value v v <-> v <> NaN) by (intros v; unfold same_value; tauto).
  destruct a as [t v|c d s x]; cbn [no_nan].
  - rewrite <- Sv. split; [inversion 1; auto|constructor; auto].
  - destruct (String.eqb d "int32" || String.eqb d "uint32") eqn:E.
    + pose proof (proj1 (exact_dtype_b d) E) as He. rewrite <- (forall_no same_value x Sv). split; [inversion 1; subst; [auto|contradiction]|apply agree_exact; auto].
    + assert (He : ~ exact_dtype d) by (intros X; apply exact_dtype_b in X; congruence).
      rewrite <- (forall_no near x near_refl). split; [inversion 1; subst; [contradiction|auto]|apply agree_near; auto].
Qed.

Lemma close_self s xs : Forall proper xs -> (assert_tree_all_close false (s, xs) (s, xs) = true <-> Forall no_nan xs).
Proof.
  intros H. rewrite close_spec by (auto; intros i a b E1 E2; rewrite E1 in E2; injection E2 as <-; destruct a; cbn; auto).
  rewrite forall2_self. split.
  - intros [_ F]. eapply Forall_impl; [|exact F]. intros a. apply agree_self.
  - intros F. split; [discriminate|]. eapply Forall_impl; [|exact F]. intros a. apply agree_self.
Qed.

Lemma close_broadcast class dtype n c : 
  assert_tree_all_close true ("*"%string, [TArr class dtype [n] (repeat (Fin c) n)]) ("*"%string, [TArr class dtype [1] [Fin c]]) = true.
Proof.
  unfold assert_tree_all_close. cbn [fst snd length combine forallb leaf_close]. rewrite !String.eqb_refl. cbn [andb Nat.eqb].
  rewrite andb_true_r.
  assert (G : forall p : fl -> fl -> bool, p (Fin c) (Fin c) = true -> all_pairs p [n] (repeat (Fin c) n) [1] [Fin c] = true).
  { intros p Hp. unfold all_pairs, broadcast. cbn [length Nat.max pad Nat.sub repeat app].
    assert (E : broadcast_same [n] [1] = Some [n]).
    { cbn. destruct (n =? 1) eqn:E1; [reflexivity|]. reflexivity. }
    rewrite E. cbn [length].
    assert (Ex : expand (pad 1 [n]) [n] (repeat (Fin c) n) = repeat (Fin c) n).
    { change (pad 1 [n]) with [n]. apply expand_self. rewrite repeat_length. cbn. lia. }
    assert (Ey : expand (pad 1 [1]) [n] [Fin c] = repeat (Fin c) n).
    { change (pad 1 [1]) with [1]. cbn [expand size fold_right chunks firstn skipn map concat app].
      destruct (1 =? n) eqn:E1; [apply Nat.eqb_eq in E1; subst n; reflexivity|].
      clear. induction n as [|n IH]; [reflexivity|]. cbn [repeat concat app]. rewrite IH. reflexivity. }
    rewrite Ex, Ey. clear -Hp. induction n as [|n IH]; [reflexivity|]. cbn [repeat combine forallb fst snd]. rewrite Hp, IH. reflexivity. }
  assert (Hc : isclose (Fin c) (Fin c) = true) by (apply isclose_near, near_refl; discriminate).
  assert (Hf : feq (Fin c) (Fin c) = true) by (apply feq_same; split; [reflexivity|discriminate]).
  change (1 =? 1) with true.
  destruct (String.eqb dtype "int32" || String.eqb dtype "uint32"); rewrite G by assumption; reflexivity.
Qed.

Lemma close_asymmetric : exists x y, 
  assert_tree_all_close true ("*"%string, [TArr "Array" "float32" [] [Fin x]]) ("*"%string, [TArr "Array" "float32" [] [Fin y]]) = true /\
  assert_tree_all_close true ("*"%string, [TArr "Array" "float32" [] [Fin y]]) ("*"%string, [TArr "Array" "float32" [] [Fin x]]) = false.
Proof.
  exists (1 - 1 / 10 ^ 5 - 1 / 10 ^ 8)%R, 1%R.
  split.
  - apply close_spec; try (repeat constructor; reflexivity).
    + intros [|[|i]] a b E1 E2; cbn in E1, E2; try discriminate. injection E1 as <-. injection E2 as <-. reflexivity.
    + split; [reflexivity|]. constructor; [|constructor]. apply agree_near; [intros [H|H]; discriminate|].
      constructor; [|constructor]. left. eexists _, _. split; [reflexivity|]. split; [reflexivity|].
      rewrite Rabs_left, Rabs_R1 by lra. lra.
  - apply not_true_is_false. intros H. apply close_spec in H; try (repeat constructor; reflexivity).
    + destruct H as [_ H]. inversion H as [|? ? ? ? Ha _]; subst. inversion Ha as [|? ? ? ? ? He|? ? ? ? ? _ Hn]; subst; [destruct He; discriminate|].
      inversion Hn as [|? ? ? ? Hx _]; subst. destruct Hx as [(u & v & E1 & E2 & L)|[_ [E|E]]]; try discriminate.
      injection E1 as <-. injection E2 as <-. rewrite Rabs_right in L by lra. rewrite Rabs_right in L by lra. lra.
    + intros [|[|i]] a b E1 E2; cbn in E1, E2; try discriminate. injection E1 as <-. injection E2 as <-. reflexivity.
Qed.

Lemma unique_dtype l t : get_unique_dtype l = Some t <-> l <> [] /\ forall d, In d l -> d = t.
Proof.
  unfold get_unique_dtype. pose proof (NoDup_nodup string_dec l) as N. pose proof (fun x => nodup_In string_dec l x) as I.
  destruct (nodup string_dec l) as [|a [|b r]] eqn:E; cbn in I.
  - split; [discriminate|]. intros [H _]. destruct l as [|a l]; [easy|]. exfalso. apply (I a). left; reflexivity.
  - split.
    + intros H. injection H as ->. split; [intros ->; discriminate|]. intros d Hd. apply I in Hd. destruct Hd as [Hd|[]]; auto.
    + intros [H1 H2]. f_equal. apply H2. apply I. left; reflexivity.
  - split; [discriminate|]. intros [_ H]. inversion N as [|? ? Hn _]; subst. exfalso. apply Hn. left.
    rewrite (H a), (H b); auto; apply I; cbn; auto.
Qed.

Lemma remove_prefix_some old : forall s r, remove_prefix old s = Some r -> s = (old ++ r)%string.
Proof.
  induction old as [|a o IH]; intros s r H; cbn in H; [injection H as ->; reflexivity|].
  destruct s as [|b s]; [discriminate|]. destruct (Ascii.eqb a b) eqn:E; [|discriminate].
  apply Ascii.eqb_eq in E as <-. cbn. f_equal. apply IH, H.
Qed.
Lemma erase_none old s : ~ occurs old s -> erase old s = s.
Proof.
  unfold erase. generalize (String.length s). intros n. revert s. induction n as [|n IH]; intros s H; [reflexivity|]. cbn.
  destruct (remove_prefix old s) eqn:E.
  - exfalso. apply H. exists ""%string, s0. exact (remove_prefix_some old s s0 E).
  - destruct s as [|c s]; [reflexivity|]. f_equal. apply IH. intros (a & b & ->). apply H. exists (String c a), b. reflexivity.
Qed.
Lemma length_append a b : String.length (a ++ b)%string = String.length a + String.length b.
Proof. induction a as [|c a IH]; cbn; [reflexivity|rewrite IH; reflexivity]. Qed.
Lemma remove_prefix_self old r : remove_prefix old (old ++ r)%string = Some r.
Proof. induction old as [|c o IH]; cbn; [reflexivity|]. rewrite Ascii.eqb_refl. exact IH. Qed.
Lemma erase_fuel_erased old : old <> EmptyString -> forall n s, String.length s <= n -> erased old s (erase_fuel n old s).
Proof.
  intros Ho. induction n as [|n IH]; intros s Hs.
  - destruct s; cbn in Hs; [constructor|lia].
  - cbn [erase_fuel]. destruct (remove_prefix old s) as [r|] eqn:E.
    + apply remove_prefix_some in E as ->. apply erased_skip; [exact Ho|]. apply IH. rewrite length_append in Hs.
      destruct old; [congruence|cbn in Hs; lia].
    + destruct s as [|c r]; [constructor|]. apply erased_keep.
      * intros b X. rewrite X, remove_prefix_self in E. discriminate.
      * apply IH. cbn in Hs. lia.
Qed.
Lemma erase_erased old s : old <> EmptyString -> erased old s (erase old s).
Proof. intros Ho. apply erase_fuel_erased; [exact Ho|apply le_n]. Qed.
Lemma append_cancel a b c : (a ++ b)%string = (a ++ c)%string -> b = c.
Proof. induction a as [|x a IH]; cbn; [auto|]. intros H. injection H. exact IH. Qed.
Lemma erased_unique old s : forall t t', erased old s t -> erased old s t' -> t = t'.
Proof.
  intros t t' H. revert t'. induction H as [|r t Ho H IH|c r t Hn H IH]; intros t' H'.
  - inversion H' as [|r t'' Ho' H'' E|]; [reflexivity|]. destruct old; [congruence|discriminate].
  - remember (old ++ r)%string as z eqn:Ez. destruct H' as [|r' t' Ho' H'|c r' t' Hn' H'].
    + destruct old; [congruence|discriminate].
    + apply append_cancel in Ez as ->. apply IH, H'.
    + exfalso. exact (Hn' r Ez).
  - remember (String c r) as z eqn:Ez. destruct H' as [|r' t' Ho' H'|c' r' t' Hn' H'].
    + discriminate.
    + exfalso. exact (Hn r' eq_refl).
    + injection Ez as -> ->. f_equal. apply IH, H'.
Qed.
Lemma close_text check s s' xs ys : Forall proper xs -> Forall proper ys ->
  (forall i a b, nth_error xs i = Some a -> nth_error ys i = Some b -> same_shape a b) ->
  (assert_tree_all_close check (s, xs) (s', ys) = true <-> (check = true -> same_text s s') /\ Forall2 agree xs ys).
Proof.
  intros H1 H2 H3. rewrite close_spec by assumption.
  assert (E : erase "wax." s = erase "wax." (erase "_test" s') <-> same_text s s'); [|tauto].
  split.
  - intros E. exists (erase "wax." s), (erase "_test" s'). split; [apply erase_erased; discriminate|].
    split; [apply erase_erased; discriminate|]. rewrite E. apply erase_erased. discriminate.
  - intros (t & u & A & B & C).
    rewrite (erased_unique _ _ _ _ (erase_erased "wax." s ltac:(discriminate)) A).
    rewrite (erased_unique _ _ _ _ (erase_erased "_test" s' ltac:(discriminate)) B).
    rewrite (erased_unique _ _ _ _ (erase_erased "wax." u ltac:(discriminate)) C). reflexivity.
Qed.
Lemma close_same_structure s xs ys : Forall proper xs -> Forall proper ys -> 
  (forall i a b, nth_error xs i = Some a -> nth_error ys i = Some b -> same_shape a b) -> ~ occurs "_test" s ->
  (assert_tree_all_close true (s, xs) (s, ys) = true <-> Forall2 agree xs ys).
Proof.
  intros H1 H2 H3 H4. rewrite close_spec by assumption. rewrite (erase_none "_test" s H4). tauto.
Qed.
Lemma close_self_test xs : assert_tree_all_close true ("{'x_test': *}"%string, xs) ("{'x_test': *}"%string, xs) = false.
Proof. reflexivity. Qed.
Lemma dict_map_get {A B} (f : A -> B) col k : 
  find (fun kv => String.eqb k (fst kv)) (dict_map f col) = option_map (fun kv => (fst kv, f (snd kv))) (find (fun kv => String.eqb k (fst kv)) col).
Proof. induction col as [|[k' v] col IH]; [reflexivity|]. cbn. destruct (String.eqb k k'); [reflexivity|exact IH]. Qed.
