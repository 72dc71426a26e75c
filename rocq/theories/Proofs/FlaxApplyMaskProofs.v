(** Proofs about the flax ApplyMask on arrays of any rank. *)
From Coq Require Import List Bool Arith ZArith Lia.
From Verif Require Import Model.Tree Model.Float Model.Ewm Model.Masks Model.FlaxApplyMask Spec.MaskSpec Spec.FlaxApplyMaskSpec.
Import ListNotations.

(** ** positions *)
Lemma ravel_lt s : forall idx, inside s idx -> ravel s idx < size s.
Proof.
  unfold inside. induction s as [|d s IH]; intros idx H; inversion H; subst; cbn [ravel size fold_right]; [lia|].
  specialize (IH _ H4). fold (size s). nia.
Qed.
Lemma unravel_ravel s : forall idx, inside s idx -> unravel s (ravel s idx) = idx.
Proof.
  unfold inside. induction s as [|d s IH]; intros idx H; inversion H; subst; cbn [ravel unravel]; [reflexivity|].
  pose proof (ravel_lt _ _ H4) as R. rewrite Nat.div_add_l by lia. rewrite Nat.div_small by exact R.
  replace ((x * size s + ravel s l) mod size s) with (ravel s l).
  2:{ rewrite Nat.add_comm, Nat.mod_add by lia. rewrite Nat.mod_small by exact R. reflexivity. }
  rewrite IH by exact H4. f_equal. lia.
Qed.
Lemma nth_error_firstn_lt {A} (l : list A) : forall n k, k < n -> nth_error (firstn n l) k = nth_error l k.
Proof. induction l as [|x l IH]; intros [|n] [|k] H; cbn; try reflexivity; try lia. apply IH. lia. Qed.
Lemma nth_error_skipn_plus {A} (l : list A) : forall n k, nth_error (skipn n l) k = nth_error l (n + k).
Proof. induction l as [|x l IH]; intros [|n] k; cbn; try reflexivity; [destruct k; reflexivity|apply IH]. Qed.
Lemma block_ravel {A} s : forall (l : list A) idx, inside s idx -> block s l idx = nth_error l (ravel s idx).
Proof.
  unfold inside. induction s as [|d s IH]; intros l idx H; inversion H; subst; cbn [block ravel]; [reflexivity|].
  rewrite (proj2 (Nat.ltb_lt x d) H3). rewrite IH by exact H4. rewrite nth_error_firstn_lt by (apply ravel_lt; exact H4).
  apply nth_error_skipn_plus.
Qed.
Lemma entry_nth {A} (a : arr A) idx v : well_shaped a -> inside (shape a) idx -> entry a idx = Some (nth (ravel (shape a) idx) (data a) v).
Proof.
  intros W I. unfold entry. rewrite block_ravel by exact I. apply nth_error_nth'. rewrite W. apply ravel_lt. exact I.
Qed.
Lemma block_inside {A} s : forall (l : list A) idx x, block s l idx = Some x -> inside s idx.
Proof.
  unfold inside. induction s as [|d s IH]; intros l [|i idx] x H; cbn [block] in H; try discriminate; [constructor|].
  destruct (Nat.ltb_spec i d) as [L|]; [|discriminate]. constructor; [exact L|]. eapply IH. exact H.
Qed.
Lemma inside_length s idx : inside s idx -> length idx = length s.
Proof. induction 1; cbn; auto. Qed.
Lemma inside_app s t i j : inside s i -> inside t j -> inside (s ++ t) (i ++ j).
Proof. unfold inside. intros A B. apply Forall2_app; assumption. Qed.
Lemma inside_app_inv s t idx : inside (s ++ t) idx -> exists i j, idx = i ++ j /\ inside s i /\ inside t j.
Proof. intros H. unfold inside in *. apply Forall2_app_inv_r in H. destruct H as (i & j & A & B & ->). eauto. Qed.
Lemma size_app s t : size (s ++ t) = size s * size t.
Proof. induction s as [|d s IH]; cbn [app size fold_right]; [fold (size t); lia|]. fold (size (s ++ t)) (size s). rewrite IH. lia. Qed.
Lemma ravel_app s : forall t i j, length i = length s -> ravel (s ++ t) (i ++ j) = ravel s i * size t + ravel t j.
Proof.
  induction s as [|d s IH]; intros t [|a i] j H; try discriminate; cbn [app ravel]; [lia|]. rewrite IH by (cbn in H; lia).
  rewrite size_app. nia.
Qed.
Lemma ravel_zeros n : ravel (repeat 1 n) (repeat 0 n) = 0.
Proof. induction n; cbn [repeat ravel]; [reflexivity|]. rewrite IHn. lia. Qed.
Lemma size_ones n : size (repeat 1 n) = 1.
Proof. induction n; cbn [repeat size fold_right]; [reflexivity|]. fold (size (repeat 1 n)). lia. Qed.

(** ** where an entry is read *)
Definition squeeze (s idx : list nat) : list nat := map2 (fun d i => if d =? 1 then 0 else i) s idx.
Lemma squeeze_app s : forall t i j, length i = length s -> squeeze (s ++ t) (i ++ j) = squeeze s i ++ squeeze t j.
Proof. unfold squeeze. induction s as [|d s IH]; intros t [|a i] j H; try discriminate; cbn [app map2]; [reflexivity|]. rewrite IH by (cbn in H; lia). reflexivity. Qed.
Lemma squeeze_id s i : inside s i -> squeeze s i = i.
Proof.
  unfold squeeze, inside. induction 1 as [|i d idx s H F IH]; cbn [map2]; [reflexivity|]. rewrite IH. f_equal. destruct (Nat.eqb_spec d 1); lia.
Qed.
Lemma squeeze_ones j : squeeze (repeat 1 (length j)) j = repeat 0 (length j).
Proof. unfold squeeze. induction j as [|x j IH]; cbn [length repeat map2]; [reflexivity|]. rewrite IH. reflexivity. Qed.
Lemma source_all s i : length i = length s -> source s i = squeeze s i.
Proof. intros H. unfold source. rewrite H, Nat.sub_diag. reflexivity. Qed.
Lemma source_tail s i j : length i = length s -> source s (j ++ i) = squeeze s i.
Proof.
  intros H. unfold source. rewrite app_length, H. replace (length j + length s - length s) with (length j) by lia.
  rewrite skipn_app, skipn_all, Nat.sub_diag. reflexivity.
Qed.

(** ** shapes *)
Definition fits (x y : nat) : Prop := x = y \/ x = 1.
Lemma bdim_fits x y : fits x y -> bdim x y = Some y.
Proof. unfold bdim. intros [-> | ->]; [rewrite Nat.eqb_refl; reflexivity|]. destruct (Nat.eqb_spec 1 y) as [<-|]; reflexivity. Qed.
Lemma brev_fits a b c : Forall2 fits a b -> brev a (b ++ c) = Some (b ++ c).
Proof. induction 1 as [|x y a b H F IH]; cbn [app brev]; [destruct c; reflexivity|]. rewrite bdim_fits, IH by exact H. reflexivity. Qed.
Lemma Forall2_rev' {A B} (P : A -> B -> Prop) l m : Forall2 P l m -> Forall2 P (rev l) (rev m).
Proof. induction 1; cbn [rev]; [constructor|]. apply Forall2_app; [assumption|constructor; [assumption|constructor]]. Qed.
Lemma bshape_fits a t b : Forall2 fits a b -> bshape a (t ++ b) = Some (t ++ b).
Proof.
  intros F. unfold bshape. rewrite rev_app_distr. rewrite (brev_fits _ _ (rev t) (Forall2_rev' _ _ _ F)). cbn [option_map].
  rewrite rev_app_distr, !rev_involutive. reflexivity.
Qed.
Lemma fits_refl s : Forall2 fits s s.
Proof. induction s; constructor; [left; reflexivity|assumption]. Qed.
Lemma fits_ones t : Forall2 fits (repeat 1 (length t)) t.
Proof. induction t; constructor; [right; reflexivity|assumption]. Qed.

(** ** together *)
Definition dimz (a b o : nat) : Prop := (a = b /\ o = a) \/ (a = 1 /\ o = b) \/ (b = 1 /\ o = a).
Lemma bdim_spec a b o : bdim a b = Some o <-> dimz a b o.
Proof.
  unfold bdim, dimz. destruct (Nat.eqb_spec a b) as [E|N]; [split; [intros [= <-]; auto|intros [[_ ->]|[[-> ->]|[-> ->]]]; subst; reflexivity]|].
  destruct (Nat.eqb_spec a 1) as [E|N1]; [split; [intros [= <-]; auto|intros [[H _]|[[_ ->]|[-> _]]]; [contradiction|reflexivity|congruence]]|].
  destruct (Nat.eqb_spec b 1) as [E|N2]; [split; [intros [= <-]; auto|intros [[H _]|[[H _]|[_ ->]]]; [contradiction|contradiction|reflexivity]]|].
  split; [discriminate|]. intros [[H _]|[[H _]|[H _]]]; contradiction.
Qed.
Lemma dimz_left b : dimz 1 b b. Proof. right. left. auto. Qed.
Lemma dimz_right a : dimz a 1 a. Proof. right. right. auto. Qed.
Lemma dimz_left_eq b o : dimz 1 b o -> o = b. Proof. unfold dimz. lia. Qed.
Lemma dimz_right_eq a o : dimz a 1 o -> o = a. Proof. unfold dimz. lia. Qed.
Lemma brev_spec a : forall b o, brev a b = Some o <->
  length o = Nat.max (length a) (length b) /\ forall k, k < length o -> dimz (nth k a 1) (nth k b 1) (nth k o 1).
Proof.
  induction a as [|x a IH]; intros b o; cbn [brev].
  - cbn [length Nat.max]. split.
    + intros [= <-]. split; [destruct b; reflexivity|]. intros k H. replace (nth k [] 1) with 1 by (destruct k; reflexivity). apply dimz_left.
    + intros [L H]. f_equal. apply (nth_ext _ _ 1 1); [lia|]. intros k Hk. symmetry. apply dimz_left_eq.
      replace 1 with (nth k (@nil nat) 1) by (destruct k; reflexivity). replace (nth k b (nth k [] 1)) with (nth k b 1) by (destruct k; reflexivity).
      replace (nth k o (nth k [] 1)) with (nth k o 1) by (destruct k; reflexivity). apply H. lia.
  - destruct b as [|y b].
    + split.
      * intros [= <-]. split; [cbn [length]; lia|]. intros k H. replace (nth k [] 1) with 1 by (destruct k; reflexivity). apply dimz_right.
      * intros [L H]. f_equal. apply (nth_ext _ _ 1 1); [cbn [length] in *; lia|]. intros k Hk. symmetry. apply dimz_right_eq.
        specialize (H k ltac:(cbn [length] in *; lia)). replace (nth k [] 1) with 1 in H by (destruct k; reflexivity). exact H.
    + split.
      * destruct (bdim x y) as [d|] eqn:E; [|discriminate]. destruct (brev a b) as [r|] eqn:Er; [|discriminate]. intros [= <-].
        apply IH in Er. destruct Er as [L H]. split; [cbn [length]; lia|]. intros [|k] Hk; cbn [nth]; [apply bdim_spec; exact E|apply H; cbn [length] in Hk; lia].
      * intros [L H]. destruct o as [|z o]; [cbn [length] in L; lia|]. pose proof (H 0 ltac:(cbn [length]; lia)) as H0. cbn [nth] in H0. apply bdim_spec in H0. rewrite H0.
        replace (brev a b) with (Some o); [reflexivity|]. symmetry. apply IH. split; [cbn [length] in L; lia|]. intros k Hk. apply (H (S k)). cbn [length]. lia.
Qed.
Lemma bshape_spec a b o : bshape a b = Some o <-> together a b o.
Proof.
  unfold bshape, together, dim_from_end. split.
  - destruct (brev (rev a) (rev b)) as [r|] eqn:E; [|discriminate]. cbn [option_map]. intros [= <-]. apply brev_spec in E. rewrite !rev_length in *. destruct E as [L H].
    split; [exact L|]. intros k Hk. cbv zeta. rewrite rev_involutive. apply H. exact Hk.
  - intros [L H]. assert (E : brev (rev a) (rev b) = Some (rev o)) by (apply brev_spec; rewrite !rev_length; split; [exact L|]; intros k Hk; apply H; exact Hk).
    rewrite E. cbn [option_map]. rewrite rev_involutive. reflexivity.
Qed.

(** ** jnp.where *)
Section W.
  Context {A : Type}.
  Lemma where_shape mask (x : arr A) v o : bshape (shape mask) (shape x) = Some o ->
    exists y, where_ mask x v = Some y /\ shape y = o /\ well_shaped y.
  Proof.
    intros E. unfold where_. rewrite E. eexists. split; [reflexivity|]. split; [reflexivity|]. unfold well_shaped. cbn [data shape]. rewrite map_length, seq_length. reflexivity.
  Qed.
  Lemma where_entry mask (x : arr A) v y idx : where_ mask x v = Some y -> inside (shape y) idx ->
    entry y idx = Some (if nth (ravel (shape mask) (source (shape mask) idx)) (data mask) false
                        then nth (ravel (shape x) (source (shape x) idx)) (data x) v else v).
  Proof.
    unfold where_. destruct (bshape _ _) as [o|]; [|discriminate]. intros [= <-] I. cbn [shape] in I. unfold entry. cbn [shape data].
    rewrite block_ravel by exact I. rewrite nth_error_map. pose proof (ravel_lt _ _ I) as L.
    assert (N : nth_error (seq 0 (size o)) (ravel o idx) = Some (ravel o idx)).
    { rewrite (nth_error_nth' _ 0) by (rewrite seq_length; exact L). rewrite seq_nth by exact L. reflexivity. }
    rewrite N. cbn [option_map]. cbv zeta. rewrite unravel_ravel by exact I. reflexivity.
  Qed.
  Lemma entry_self (x : arr A) v idx : well_shaped x -> inside (shape x) idx ->
    entry x idx = Some (nth (ravel (shape x) (source (shape x) idx)) (data x) v).
  Proof.
    intros W I. rewrite source_all by (apply inside_length; exact I). rewrite squeeze_id by exact I. apply entry_nth; assumption.
  Qed.
End W.

Lemma repeat_sub s t : pad (length (s ++ t)) s = s ++ repeat 1 (length t).
Proof. unfold pad. rewrite app_length. f_equal. f_equal. lia. Qed.

Section Leaf.
  Context {A : Type} (v : A).
  (** axis 0: the mask is on the first dimensions *)
  Lemma leaf_axis0 (m : arr bool) (x : arr A) t : well_shaped m -> well_shaped x -> shape x = shape m ++ t ->
    exists y, mask_leaf (Some 0%Z) v m x = Some y /\ shape y = shape x /\ well_shaped y /\
      forall i j, inside (shape m) i -> inside t j -> entry y (i ++ j) = kept (entry m i) (entry x (i ++ j)) v.
  Proof.
    intros Wm Wx Hs. unfold mask_leaf. cbn [mask_shape]. rewrite Hs, repeat_sub.
    set (m2 := Arr (shape m ++ repeat 1 (length t)) (data m)).
    assert (B : bshape (shape m2) (shape x) = Some (shape x)).
    { cbn [m2 shape]. rewrite Hs. apply (bshape_fits _ [] (shape m ++ t)). apply Forall2_app; [apply fits_refl|apply fits_ones]. }
    destruct (where_shape m2 x v _ B) as (y & E & Sy & Wy). exists y. split; [exact E|]. split; [rewrite Sy; exact Hs|]. split; [exact Wy|].
    intros i j Hi Hj. assert (I : inside (shape x) (i ++ j)) by (rewrite Hs; apply inside_app; assumption).
    rewrite (where_entry m2 x v y) by (rewrite ?Sy; assumption). rewrite (entry_nth m i false) by assumption. rewrite (entry_self x v) by assumption. unfold m2. cbn [shape data].
    pose proof (inside_length _ _ Hi) as Li. pose proof (inside_length _ _ Hj) as Lj.
    rewrite (source_all (shape m ++ _)) by (rewrite !app_length, repeat_length; lia). rewrite squeeze_app by exact Li.
    rewrite <- Lj at 2. rewrite <- Lj. rewrite squeeze_ones, squeeze_id by exact Hi. rewrite ravel_app by exact Li. rewrite size_ones, ravel_zeros.
    replace (ravel (shape m) i * 1 + 0) with (ravel (shape m) i) by lia. destruct (nth _ (data m) false); reflexivity.
  Qed.
  (** axis 1: the mask is on the second dimension *)
  Lemma leaf_axis1 (l : list bool) (x : arr A) r t : well_shaped x -> shape x = r :: length l :: t ->
    exists y, mask_leaf (Some 1%Z) v (Arr [length l] l) x = Some y /\ shape y = shape x /\ well_shaped y /\
      forall i j k, inside (shape x) (i :: j :: k) -> entry y (i :: j :: k) = kept (nth_error l j) (entry x (i :: j :: k)) v.
  Proof.
    intros Wx Hs. unfold mask_leaf. cbn [mask_shape shape length Nat.eqb data]. 
    set (m2 := Arr _ l). assert (S2 : shape m2 = 1 :: length l :: repeat 1 (length t)).
    { unfold m2. cbn [shape]. rewrite Hs. cbn [length]. cbn [Nat.ltb Nat.leb andb]. unfold pad. cbn [length Nat.sub app]. rewrite Nat.sub_0_r. reflexivity. }
    assert (B : bshape (shape m2) (shape x) = Some (shape x)).
    { rewrite S2, Hs. apply (bshape_fits _ [] (r :: length l :: t)). constructor; [right; reflexivity|]. constructor; [left; reflexivity|]. apply fits_ones. }
    destruct (where_shape m2 x v _ B) as (y & E & Sy & Wy). exists y. split; [exact E|]. split; [exact Sy|]. split; [exact Wy|].
    intros i j k I. rewrite (where_entry m2 x v y) by (rewrite ?Sy; assumption). rewrite (entry_self x v) by assumption. rewrite S2.
    pose proof I as I2. rewrite Hs in I2. inversion I2; subst. inversion H4; subst. pose proof (inside_length _ _ H6) as Lk.
    rewrite (nth_error_nth' l false) by exact H3. rewrite (source_all (1 :: _)) by (cbn [length]; rewrite repeat_length; lia).
    rewrite <- Lk. unfold squeeze. cbn [map2 Nat.eqb]. fold (squeeze (repeat 1 (length k)) k). rewrite squeeze_ones. cbn [ravel]. rewrite ravel_zeros, size_ones.
    replace (0 * size (length l :: repeat 1 (length k)) + ((if length l =? 1 then 0 else j) * 1 + 0)) with j by (destruct (Nat.eqb_spec (length l) 1); lia).
    change (data m2) with l. destruct (nth j l false); reflexivity.
  Qed.
  (** no axis, or a negative one: the mask is on the last dimensions *)
  Lemma leaf_no_axis axis (m : arr bool) (x : arr A) t : axis <> Some 0%Z -> axis <> Some 1%Z -> well_shaped m -> well_shaped x -> shape x = t ++ shape m ->
    exists y, mask_leaf axis v m x = Some y /\ shape y = shape x /\ well_shaped y /\
      forall j i, inside t j -> inside (shape m) i -> entry y (j ++ i) = kept (entry m i) (entry x (j ++ i)) v.
  Proof.
    intros N0 N1 Wm Wx Hs. unfold mask_leaf. replace (mask_shape axis (shape m) (shape x)) with (shape m).
    2:{ unfold mask_shape. destruct axis as [[|[p|p|]|p]|]; try reflexivity; [exfalso; apply N0; reflexivity|exfalso; apply N1; reflexivity]. }
    set (m2 := Arr _ _).
    assert (B : bshape (shape m2) (shape x) = Some (shape x)) by (cbn [m2 shape]; rewrite Hs; apply bshape_fits; apply fits_refl).
    destruct (where_shape m2 x v _ B) as (y & E & Sy & Wy). exists y. split; [exact E|]. split; [exact Sy|]. split; [exact Wy|].
    intros j i Hj Hi. assert (I : inside (shape x) (j ++ i)) by (rewrite Hs; apply inside_app; assumption).
    rewrite (where_entry m2 x v y) by (rewrite ?Sy; assumption). rewrite (entry_nth m i false) by assumption. rewrite (entry_self x v) by assumption. unfold m2. cbn [shape data].
    rewrite source_tail by (apply inside_length; exact Hi). rewrite squeeze_id by exact Hi. destruct (nth _ (data m) false); reflexivity.
  Qed.
  (** shapes that do not go together raise, the others give their common shape *)
  Lemma leaf_shape axis (m : arr bool) (x : arr A) o :
    (exists y, mask_leaf axis v m x = Some y /\ shape y = o) <-> together (mask_shape axis (shape m) (shape x)) (shape x) o.
  Proof.
    rewrite <- bshape_spec. unfold mask_leaf, where_. cbn [shape]. destruct (bshape _ _) as [o'|]; split.
    - intros (y & [= <-] & <-). reflexivity.
    - intros [= ->]. eexists. split; reflexivity.
    - intros (y & E & _). discriminate.
    - discriminate.
  Qed.
End Leaf.
