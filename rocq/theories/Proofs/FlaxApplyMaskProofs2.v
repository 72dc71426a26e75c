(** The flax ApplyMask, the masks of the flax statistics and the haiku ApplyMask. *)
From Coq Require Import List Bool Arith ZArith Lia.
From Verif Require Import Model.Tree Model.Float Model.Ewm Model.Masks Model.FlaxMore Model.FlaxApplyMask Spec.MaskSpec Spec.FlaxApplyMaskSpec.
From Verif Require Import Proofs.MaskProofs Proofs.FlaxApplyMaskProofs.
Import ListNotations.

Lemma ravel_unravel s : forall k, k < size s -> inside s (unravel s k) /\ ravel s (unravel s k) = k.
Proof.
  induction s as [|d s IH]; intros k H; cbn [size fold_right unravel ravel] in *; [split; [constructor|lia]|]. fold (size s) in *.
  assert (Z : size s <> 0) by nia. destruct (IH (k mod size s) ltac:(apply Nat.mod_upper_bound; exact Z)) as [A B]. split.
  - constructor; [|exact A]. apply Nat.div_lt_upper_bound; [exact Z|]. lia.
  - rewrite B. pose proof (Nat.div_mod k (size s) Z). lia.
Qed.
Lemma arr_ext {A} (a b : arr A) : well_shaped a -> well_shaped b -> shape a = shape b ->
  (forall idx, inside (shape a) idx -> entry a idx = entry b idx) -> a = b.
Proof.
  destruct a as [s la], b as [s' lb]. unfold well_shaped, entry. cbn [shape data]. intros Wa Wb <- H. f_equal.
  assert (N : forall k, nth_error la k = nth_error lb k).
  { intros k. destruct (Nat.lt_ge_cases k (size s)) as [L|L].
    - destruct (ravel_unravel s k L) as [I R]. specialize (H _ I). rewrite !block_ravel in H by exact I. rewrite R in H. exact H.
    - rewrite (proj2 (nth_error_None la k)) by lia. rewrite (proj2 (nth_error_None lb k)) by lia. reflexivity. }
  clear -N. revert lb N. induction la as [|x la IH]; intros [|y lb] N; [reflexivity|specialize (N 0); discriminate|specialize (N 0); discriminate|].
  f_equal; [specialize (N 0); cbn in N; congruence|]. apply IH. intros k. apply (N (S k)).
Qed.
Lemma map2_seq {A} (v : A) : forall (m : list bool) (x : list A), length m = length x ->
  map (fun k => if nth k m false then nth k x v else v) (seq 0 (length x)) = map2 (fun (b : bool) w => if b then w else v) m x.
Proof.
  induction m as [|b m IH]; intros [|w x] H; try discriminate; [reflexivity|]. cbn [length seq map map2 nth]. f_equal.
  rewrite <- seq_shift, map_map. apply IH. cbn in H. lia.
Qed.
Lemma mask_shape_same axis s : mask_shape axis s s = s.
Proof.
  assert (P : pad (length s) s = s) by (unfold pad; rewrite Nat.sub_diag; apply app_nil_r).
  unfold mask_shape. destruct axis as [[|[p|p|]|p]|]; try reflexivity; try exact P.
  destruct (Nat.eqb_spec (length s) 1) as [E|]; cbn [andb]; [rewrite E; cbn [Nat.ltb Nat.leb]; rewrite E in P; exact P|exact P].
Qed.
Section L.
  Context {A : Type} (v : A).
  Lemma leaf_same axis (m : arr bool) (x : arr A) : well_shaped m -> well_shaped x -> shape m = shape x ->
    mask_leaf axis v m x = Some (Arr (shape x) (map2 (fun (b : bool) w => if b then w else v) (data m) (data x))).
  Proof.
    intros Wm Wx E. unfold mask_leaf. rewrite E, mask_shape_same. unfold where_. cbn [shape data].
    pose proof (bshape_fits _ [] (shape x) (fits_refl _)) as B. cbn [app] in B. rewrite B. do 2 f_equal.
    assert (Lm : length (data m) = length (data x)) by (unfold well_shaped in *; congruence).
    rewrite <- (map2_seq v) by exact Lm. rewrite <- Wx. apply map_ext_in. intros k I. apply in_seq in I.
    destruct (ravel_unravel (shape x) k) as [J R]; [rewrite <- Wx; lia|]. cbv zeta. rewrite source_all by (apply inside_length; exact J).
    rewrite squeeze_id by exact J. rewrite R. reflexivity.
  Qed.
  Lemma nth_flat_repeat c : forall (m : list bool) i j, j < c -> nth_error (flat_map (fun b => repeat b c) m) (i * c + j) = nth_error m i.
  Proof.
    induction m as [|b m IH]; intros [|i] j H; cbn [flat_map]; [destruct (0 * c + j); reflexivity|destruct (S i * c + j); reflexivity| |].
    - rewrite nth_error_app1 by (rewrite repeat_length; lia). cbn [nth_error Nat.mul Nat.add]. clear -H. revert j H. induction c as [|c IH]; intros [|j] H; try lia; cbn [repeat nth_error]; [reflexivity|apply IH; lia].
    - rewrite nth_error_app2 by (rewrite repeat_length; lia). rewrite repeat_length. replace (S i * c + j - c) with (i * c + j) by lia. apply IH. exact H.
  Qed.
  Lemma nth_concat_repeat (m : list bool) : forall r i j, i < r -> j < length m -> nth_error (concat (repeat m r)) (i * length m + j) = nth_error m j.
  Proof.
    induction r as [|r IH]; intros [|i] j H L; try lia; cbn [repeat concat].
    - rewrite nth_error_app1 by lia. reflexivity.
    - rewrite nth_error_app2 by lia. replace (S i * length m + j - length m) with (i * length m + j) by lia. apply IH; lia.
  Qed.
  Lemma length_flat_repeat c (m : list bool) : length (flat_map (fun b => repeat b c) m) = length m * c.
  Proof. induction m as [|b m IH]; [reflexivity|]. cbn [flat_map length]. rewrite app_length, repeat_length, IH. lia. Qed.
  Lemma length_concat_repeat (m : list bool) r : length (concat (repeat m r)) = r * length m.
  Proof. induction r as [|r IH]; [reflexivity|]. cbn [repeat concat]. rewrite app_length, IH. lia. Qed.
  Lemma leaf_rows (l : list bool) (x : arr A) c : well_shaped x -> shape x = [length l; c] ->
    mask_leaf (Some 0%Z) v (Arr [length l] l) x =
    mask_leaf None v (Arr [length l; c] (flat_map (fun b => repeat b c) l)) x.
  Proof.
    intros Wx Hs. assert (W1 : well_shaped (Arr [length l] l)) by (unfold well_shaped; cbn [data shape size fold_right]; lia).
    assert (W2 : well_shaped (Arr [length l; c] (flat_map (fun b => repeat b c) l))) by (unfold well_shaped; cbn [data shape size fold_right]; rewrite length_flat_repeat; lia).
    destruct (leaf_axis0 v _ x [c] W1 Wx Hs) as (y & E & Sy & Wy & H).
    destruct (leaf_no_axis v None _ x [] ltac:(discriminate) ltac:(discriminate) W2 Wx Hs) as (y' & E' & Sy' & Wy' & H').
    rewrite E, E'. f_equal. apply arr_ext; [exact Wy|exact Wy'|congruence|]. intros idx I. rewrite Sy, Hs in I.
    inversion I as [|i d r s' Hi F E1 E2]; subst. inversion F as [|j d r' s'' Hj F' E3 E4]; subst. inversion F'; subst.
    assert (A1 : inside [length l] [i]) by (constructor; [assumption|constructor]). assert (A2 : inside [c] [j]) by (constructor; [assumption|constructor]).
    assert (A3 : inside [length l; c] [i; j]) by (constructor; [assumption|exact A2]).
    pose proof (H [i] [j] A1 A2) as G1. pose proof (H' [] [i; j] ltac:(constructor) A3) as G2. cbn [app] in G1, G2. rewrite G1, G2. f_equal.
    unfold entry. cbn [shape data]. rewrite !block_ravel by (repeat (constructor; try assumption)). cbn [ravel size fold_right].
    replace (i * 1 + 0) with i by lia. replace (i * (c * 1) + (j * 1 + 0)) with (i * c + j) by lia. symmetry. apply nth_flat_repeat. exact Hj.
  Qed.
  Lemma leaf_columns (l : list bool) (x : arr A) r : well_shaped x -> shape x = [r; length l] ->
    mask_leaf (Some 1%Z) v (Arr [length l] l) x =
    mask_leaf None v (Arr [r; length l] (concat (repeat l r))) x.
  Proof.
    intros Wx Hs.
    assert (W2 : well_shaped (Arr [r; length l] (concat (repeat l r)))) by (unfold well_shaped; cbn [data shape size fold_right]; rewrite length_concat_repeat; lia).
    destruct (leaf_axis1 v l x r [] Wx Hs) as (y & E & Sy & Wy & H).
    destruct (leaf_no_axis v None _ x [] ltac:(discriminate) ltac:(discriminate) W2 Wx Hs) as (y' & E' & Sy' & Wy' & H').
    rewrite E, E'. f_equal. apply arr_ext; [exact Wy|exact Wy'|congruence|]. intros idx I. rewrite Sy, Hs in I. pose proof I as I0.
    inversion I as [|i d rr s' Hi F E1 E2]; subst. inversion F as [|j d r' s'' Hj F' E3 E4]; subst. inversion F'; subst.
    rewrite (H i j []) by (rewrite Hs; exact I0).
    pose proof (H' [] [i; j] ltac:(constructor) I0) as G2. cbn [app] in G2. rewrite G2. f_equal.
    unfold entry. cbn [shape data]. rewrite !block_ravel by (repeat (constructor; try assumption)). cbn [ravel size fold_right].
    replace (i * (length l * 1) + (j * 1 + 0)) with (i * length l + j) by lia. symmetry. apply nth_concat_repeat; assumption.
  Qed.
End L.
Lemma leaf_data {A} (v : A) (b : list bool) (x : arr A) : length b = size (shape x) -> well_shaped x ->
  mask_leaf None v (Arr (shape x) b) x = Some (Arr (shape x) (map2 (fun (b : bool) w => if b then w else v) b (data x))).
Proof. intros L W. apply (leaf_same v None (Arr (shape x) b) x); [exact L|exact W|reflexivity]. Qed.
Lemma statistics_mask axis (v : fl) (m : arr bool) (x y : arr fl) : well_shaped m -> well_shaped x ->
  fapply_mask axis v m x = Some y -> mask_leaf (option_map Z.of_nat axis) v m x = Some y.
Proof.
  intros Wm Wx E. unfold fapply_mask in E. destruct (fbroadcast_mask axis m (shape x)) as [b|] eqn:Eb; [|discriminate]. injection E as <-.
  unfold fbroadcast_mask in Eb.
  assert (Same : shape m = shape x -> Some (data m) = Some b -> mask_leaf (option_map Z.of_nat axis) v m x = Some (Arr (shape x) (map2 (fun (b : bool) v0 => if b then v0 else v) b (data x)))).
  { intros Es [= <-]. apply leaf_same; assumption. }
  destruct axis as [[|[|a]]|]; [| |discriminate|].
  - destruct (list_eq_dec Nat.eq_dec (shape m) (shape x)) as [Es|_]; [apply Same; assumption|]. clear Same.
    destruct m as [sm l]. cbn [shape data] in *. destruct sm as [|n [|? ?]]; try discriminate. destruct (shape x) as [|r [|c [|? ?]]] eqn:Hs; try discriminate.
    destruct (Nat.eqb_spec n r) as [->|]; [|discriminate]. injection Eb as <-. assert (L : r = length l) by (unfold well_shaped in Wm; cbn [data shape size fold_right] in Wm; lia). subst r.
    cbn [option_map Z.of_nat]. rewrite (leaf_rows v l x c Wx Hs). rewrite <- Hs. apply leaf_data; [|exact Wx]. rewrite Hs. rewrite length_flat_repeat. cbn [size fold_right]. lia.
  - destruct (list_eq_dec Nat.eq_dec (shape m) (shape x)) as [Es|_]; [apply Same; assumption|]. clear Same.
    destruct m as [sm l]. cbn [shape data] in *. destruct sm as [|n [|? ?]]; try discriminate. destruct (shape x) as [|r [|c [|? ?]]] eqn:Hs; try discriminate.
    destruct (Nat.eqb_spec n c) as [->|]; [|discriminate]. injection Eb as <-. assert (L : c = length l) by (unfold well_shaped in Wm; cbn [data shape size fold_right] in Wm; lia). subst c.
    cbn [option_map Z.of_nat Pos.of_succ_nat]. rewrite (leaf_columns v l x r Wx Hs). rewrite <- Hs. apply leaf_data; [|exact Wx]. rewrite Hs. rewrite length_concat_repeat. cbn [size fold_right]. lia.
  - destruct (list_eq_dec Nat.eq_dec (shape m) (shape x)) as [Es|_]; [apply Same; assumption|]. discriminate.
Qed.

Lemma haiku_mask axis (v : fl) (m : arr bool) (x y : arr fl) : well_shaped m -> well_shaped x ->
  (axis = None \/ exists n, shape m = [n]) -> apply_mask axis v m x = Some y -> mask_leaf (option_map Z.of_nat axis) v m x = Some y.
Proof.
  intros Wm Wx Hm E. unfold apply_mask in E. destruct (broadcast_mask axis m (shape x)) as [b|] eqn:Eb; [|discriminate].
  destruct (list_eq_dec Nat.eq_dec (shape x) (shape b)) as [Es|]; [|discriminate]. injection E as <-.
  destruct Hm as [->|[n Hn]].
  { cbn [broadcast_mask] in Eb. injection Eb as <-. apply leaf_same; [exact Wm|exact Wx|congruence]. }
  destruct m as [sm l]. cbn [shape data] in *. subst sm.
  assert (L : n = length l) by (unfold well_shaped in Wm; cbn [data shape size fold_right] in Wm; lia). subst n.
  destruct axis as [[|[|a]]|]; cbn [broadcast_mask data] in Eb; [| |discriminate|].
  - destruct (shape x) as [|r [|c t]] eqn:Hs; try discriminate. injection Eb as <-. cbn [shape data] in *. injection Es as -> ->.
    cbn [option_map Z.of_nat]. rewrite (leaf_rows v l x c Wx Hs). rewrite <- Hs. apply leaf_data; [|exact Wx]. rewrite Hs, length_flat_repeat. cbn [size fold_right]. lia.
  - destruct (shape x) as [|r t] eqn:Hs; try discriminate. injection Eb as <-. cbn [shape data] in *. injection Es as ->.
    cbn [option_map Z.of_nat Pos.of_succ_nat]. rewrite (leaf_columns v l x r Wx Hs). rewrite <- Hs. apply leaf_data; [|exact Wx]. rewrite Hs, length_concat_repeat. cbn [size fold_right]. lia.
  - injection Eb as <-. cbn [shape] in Es. rewrite <- leaf_same with (axis := None) (m := Arr [length l] l); [reflexivity|exact Wm|exact Wx|symmetry; exact Es].
Qed.
(** Shapes that differ: the haiku module raises, the flax one gives an array of another shape. *)
Lemma scalar_mask axis (v w : fl) (l : list bool) : axis = None \/ axis = Some 0 \/ axis = Some 1 ->
  apply_mask axis v (Arr [length l] l) (Arr [] [w]) = None /\ exists y, mask_leaf (option_map Z.of_nat axis) v (Arr [length l] l) (Arr [] [w]) = Some y /\ shape y = [length l].
Proof.
  intros H. split; [destruct H as [->|[->| ->]]; reflexivity|].
  apply leaf_shape. apply bshape_spec. destruct H as [->|[->| ->]]; reflexivity.
Qed.
Lemma flax_tree {A} axis (v : A) m t t' : flax_apply_mask axis v m t = Some t' <->
  (forall z, axis = Some z -> (z <= 1)%Z) /\ tree_def t' = tree_def t /\ Forall2 (fun a b => mask_leaf axis v m a = Some b) (tree_leaves t) (tree_leaves t').
Proof.
  unfold flax_apply_mask. destruct axis as [z|].
  - destruct (Z.ltb_spec 1 z) as [L|L].
    + split; [discriminate|]. intros (H & _). specialize (H z eq_refl). lia.
    + rewrite tree_mapM_spec. split; [intros H; split; [intros z' [= <-]; exact L|exact H]|intros [_ H]; exact H].
  - rewrite tree_mapM_spec. split; [intros H; split; [discriminate|exact H]|intros [_ H]; exact H].
Qed.
Lemma leaf_same_entries {A} (v : A) axis (m : arr bool) (x : arr A) : well_shaped m -> well_shaped x -> shape m = shape x ->
  exists y, mask_leaf axis v m x = Some y /\ shape y = shape x /\ forall i, inside (shape x) i -> entry y i = kept (entry m i) (entry x i) v.
Proof.
  intros Wm Wx E. destruct (leaf_no_axis v None m x [] ltac:(discriminate) ltac:(discriminate) Wm Wx ltac:(rewrite E; reflexivity)) as (y & Ey & Sy & _ & H).
  exists y. split; [rewrite (leaf_same v axis m x Wm Wx E); rewrite <- (leaf_same v None m x Wm Wx E); exact Ey|]. split; [exact Sy|].
  intros i I. apply (H [] i); [constructor|rewrite E; exact I].
Qed.
