From Coq Require Import List Arith Lia.
From Verif Require Import Model.Unroll Model.Modules Proofs.ListFacts Proofs.RunFacts.
Import ListNotations.

Section B.
  Context {A : Type}.
  Implicit Types (l : list A).

  (** content of a window of length m over the inputs [pre], padded with [f]: entry j from the end
      is the j-th most recent input *)
  Definition is_window (m : nat) (f : A) (pre b : list A) : Prop :=
    length b = m /\
    forall j, j < m -> nth_error b (m - 1 - j) =
      if j <? length pre then nth_error pre (length pre - 1 - j) else Some f.

  Lemma push_eq l x : l <> [] -> set_last (roll1 l) x = tl l ++ [x].
  Proof.
    destruct l as [|a l]; [congruence|]. intros _. simpl.
    unfold set_last. destruct (l ++ [a]) eqn:E; [destruct l; discriminate|].
    rewrite <- E, removelast_last. reflexivity.
  Qed.

  Lemma push_window m f pre b x :
    0 < m -> is_window m f pre b -> is_window m f (pre ++ [x]) (set_last (roll1 b) x).
  Proof.
    intros Hm [Hl Hw]. destruct b as [|a b]; [simpl in Hl; lia|].
    rewrite push_eq by congruence. cbn [tl]. cbn in Hl.
    split. { rewrite app_length; cbn; lia. }
    intros j Hj. rewrite app_length; cbn [length].
    destruct j as [|j].
    - destruct (Nat.ltb_spec 0 (length pre + 1)); [|lia].
      rewrite nth_error_app2 by lia. replace (m - 1 - 0 - length b) with 0 by lia.
      rewrite nth_error_app2 by lia. replace (length pre + 1 - 1 - 0 - length pre) with 0 by lia.
      reflexivity.
    - rewrite nth_error_app1 by lia.
      specialize (Hw j ltac:(lia)).
      replace (m - 1 - j) with (S (m - 1 - S j)) in Hw by lia. cbn [nth_error] in Hw. rewrite Hw.
      destruct (Nat.ltb_spec j (length pre)); destruct (Nat.ltb_spec (S j) (length pre + 1)); try lia; auto.
      rewrite nth_error_app1 by lia. f_equal; lia.
  Qed.

  Lemma init_window m f : is_window m f [] (repeat f m).
  Proof.
    split; [apply repeat_length|]. intros j Hj. cbn [length Nat.ltb Nat.leb].
    rewrite nth_error_repeat'. destruct (Nat.ltb_spec (m - 1 - j) m); auto; lia.
  Qed.

  Definition buf_inv m f pre (st : buffer_state A) : Prop :=
    is_window m f pre (buffer st) /\
    len_buffer st = Nat.min (length pre) m /\ i_start st = m - Nat.min (length pre) m.

  Lemma buf_inv_init m f : buf_inv m f [] (buffer_init m f).
  Proof. split; [apply init_window|]. cbn. split; lia. Qed.

  Lemma buf_inv_step m f pre st x : 0 < m -> buf_inv m f pre st ->
    buf_inv m f (pre ++ [x]) (snd (buffer_apply m st x)).
  Proof.
    intros Hm (Hw & Hl & Hi). split; [|split]; cbn.
    - apply push_window; auto.
    - rewrite app_length; cbn. lia.
    - rewrite app_length; cbn. lia.
  Qed.

  Lemma window_hd m f pre b :
    0 < m -> is_window m f pre b ->
    hd_error b = if m - 1 <? length pre then nth_error pre (length pre - m) else Some f.
  Proof.
    intros Hm [Hl Hw]. specialize (Hw (m - 1) ltac:(lia)).
    replace (m - 1 - (m - 1)) with 0 in Hw by lia.
    replace (hd_error b) with (nth_error b 0) by (destruct b; reflexivity).
    rewrite Hw. destruct (Nat.ltb_spec (m - 1) (length pre)); auto. f_equal; lia.
  Qed.

  Lemma window_last m f pre b d : 0 < m -> is_window m f pre b -> pre <> [] -> last b d = last pre d.
  Proof.
    intros Hm [Hl Hw] Hp. specialize (Hw 0 ltac:(lia)).
    destruct (Nat.ltb_spec 0 (length pre)); [|destruct pre; simpl in *; congruence || lia].
    rewrite !Nat.sub_0_r in Hw.
    assert (G : forall (l : list A), l <> [] -> nth_error l (length l - 1) = Some (last l d)).
    { induction l as [|a l IH]; [congruence|]. intros _. destruct l as [|a' l]; [reflexivity|].
      specialize (IH ltac:(congruence)). cbn [length] in *.
      replace (S (S (length l)) - 1) with (S (S (length l) - 1)) by lia. exact IH. }
    rewrite <- Hl in Hw. rewrite !G in Hw; auto; [congruence|]. destruct b; cbn in *; congruence || lia.
  Qed.

  (** window as a list equation *)
  Lemma window_list m f pre b :
    is_window m f pre b -> b = repeat f (m - length pre) ++ skipn (length pre - m) pre.
  Proof.
    intros [Hl Hw]. apply nth_error_ext; intros i.
    destruct (Nat.lt_ge_cases i m) as [Hi|Hi].
    - specialize (Hw (m - 1 - i) ltac:(lia)).
      replace (m - 1 - (m - 1 - i)) with i in Hw by lia. rewrite Hw.
      destruct (Nat.ltb_spec (m - 1 - i) (length pre)).
      + rewrite nth_error_app2 by (rewrite repeat_length; lia). rewrite repeat_length, nth_error_skipn.
        f_equal; lia.
      + rewrite nth_error_app1 by (rewrite repeat_length; lia). rewrite nth_error_repeat'.
        destruct (Nat.ltb_spec i (m - length pre)); auto; lia.
    - replace (nth_error b i) with (@None A) by (symmetry; apply nth_error_None; lia).
      symmetry; apply nth_error_None. rewrite app_length, repeat_length, skipn_length. lia.
  Qed.

  Theorem buffer_run m (full_like : A -> A) x0 xs ys sF :
    0 < m ->
    run (Buffer_return_state m full_like) (x0 :: xs) = Some (ys, sF) ->
    length ys = length (x0 :: xs) /\
    forall t, t < length (x0 :: xs) -> exists b st,
      nth_error ys t = Some (b, st) /\ buffer st = b /\
      len_buffer st = Nat.min (t + 1) m /\ i_start st = m - Nat.min (t + 1) m /\
      length b = m /\
      forall j, j < m -> nth_error b (m - 1 - j) =
        if j <=? t then nth_error (x0 :: xs) (t - j) else Some (full_like x0).
  Proof.
    intros Hm Hr. unfold Buffer_return_state in Hr.
    eapply (run_inv _ _ (fun pre st => buf_inv m (full_like x0) pre st)) in Hr.
    - destruct Hr as (Hl & _ & Hn). split; auto. intros t Ht.
      destruct (nth_error_lt (x0 :: xs) t Ht) as [x Hx].
      destruct (Hn t x Hx) as (s & _ & Hi & Hy).
      cbn [buffer_apply snd fst] in *.
      destruct Hi as ((Hbl & Hw) & Hlen & His). cbn [buffer len_buffer i_start] in *.
      rewrite firstn_length_le in * by lia.
      do 2 eexists. split; [exact Hy|]. cbn [buffer len_buffer i_start]. repeat split; auto.
      intros j Hj. rewrite (Hw j Hj).
      destruct (Nat.ltb_spec j (t + 1)); destruct (Nat.leb_spec j t); try lia; auto.
      rewrite nth_error_firstn by lia. f_equal; lia.
    - apply buf_inv_init.
    - intros pre s x H. pose proof (buf_inv_step m _ pre s x Hm H) as G.
      destruct (buffer_apply m s x); exact G.
  Qed.

  Theorem buffer_run_plain m (full_like : A -> A) x0 xs ys sF :
    0 < m ->
    run (Buffer m full_like) (x0 :: xs) = Some (ys, sF) ->
    length ys = length (x0 :: xs) /\
    forall t, t < length (x0 :: xs) -> exists b,
      nth_error ys t = Some b /\ length b = m /\
      forall j, j < m -> nth_error b (m - 1 - j) =
        if j <=? t then nth_error (x0 :: xs) (t - j) else Some (full_like x0).
  Proof.
    intros Hm Hr. unfold Buffer in Hr.
    eapply (run_inv _ _ (fun pre st => buf_inv m (full_like x0) pre st)) in Hr.
    - destruct Hr as (Hl & _ & Hn). split; auto. intros t Ht.
      destruct (nth_error_lt (x0 :: xs) t Ht) as [x Hx].
      destruct (Hn t x Hx) as (s & _ & Hi & Hy).
      destruct Hi as ((Hbl & Hw) & Hlen & His). cbn [buffer_apply snd fst buffer] in *.
      rewrite firstn_length_le in * by lia.
      eexists. split; [exact Hy|]. split; auto.
      intros j Hj. rewrite (Hw j Hj).
      destruct (Nat.ltb_spec j (t + 1)); destruct (Nat.leb_spec j t); try lia; auto.
      rewrite nth_error_firstn by lia. f_equal; lia.
    - apply buf_inv_init.
    - intros pre s x H. apply buf_inv_step; auto.
  Qed.

  Theorem lag_run k (full_like : A -> A) x0 xs ys sF :
    run (Lag k full_like) (x0 :: xs) = Some (ys, sF) ->
    length ys = length (x0 :: xs) /\
    forall t, t < length (x0 :: xs) ->
      nth_error ys t = Some (if t <? k then Some (full_like x0) else nth_error (x0 :: xs) (t - k)).
  Proof.
    intros Hr. unfold Lag in Hr.
    eapply (run_inv _ _ (fun pre st => buf_inv (k + 1) (full_like x0) pre st)) in Hr.
    - destruct Hr as (Hl & _ & Hn). split; auto. intros t Ht.
      destruct (nth_error_lt (x0 :: xs) t Ht) as [x Hx].
      destruct (Hn t x Hx) as (s & _ & Hi & Hy). rewrite Hy. f_equal.
      destruct Hi as (Hw & _). cbn [lag_step buffer_apply snd fst buffer] in *.
      rewrite (window_hd (k + 1) _ _ _ ltac:(lia) Hw), firstn_length_le by lia.
      destruct (Nat.ltb_spec (k + 1 - 1) (t + 1)); destruct (Nat.ltb_spec t k); try lia; auto.
      rewrite nth_error_firstn by lia. f_equal; lia.
    - apply buf_inv_init.
    - intros pre s x H. pose proof (buf_inv_step (k + 1) _ pre s x ltac:(lia) H) as G.
      unfold lag_step. destruct (buffer_apply (k + 1) s x); exact G.
  Qed.
End B.
