(** The codes of texts and the words of dates. *)
From Coq Require Import String Ascii ZArith List Bool Arith Lia Permutation.
From Verif Require Import Model.Encode Model.Unroll Model.Accessors Model.Schema Proofs.EncodeProofs Proofs.AccessorProofs Proofs.AccessorProofs4
  Spec.AccessorSpec Spec.SchemaSpec.
Import ListNotations.
Local Open Scope list_scope.

Lemma ascii_compare_lt_trans a b c : Ascii.compare a b = Lt -> Ascii.compare b c = Lt -> Ascii.compare a c = Lt.
Proof. unfold Ascii.compare. rewrite !N.compare_lt_iff. lia. Qed.
Lemma ascii_compare_refl a : Ascii.compare a a = Eq.
Proof. unfold Ascii.compare. apply N.compare_refl. Qed.

Lemma compare_lt_trans : forall a b c, String.compare a b = Lt -> String.compare b c = Lt -> String.compare a c = Lt.
Proof.
  induction a as [|x a IH]; intros [|y b] [|z c]; cbn; try discriminate; auto.
  intros H1 H2.
  destruct (Ascii.compare x y) eqn:E1; [|clear H1|discriminate].
  - apply Ascii.compare_eq_iff in E1. subst y. destruct (Ascii.compare x z) eqn:E2; [eauto|reflexivity|discriminate].
  - destruct (Ascii.compare y z) eqn:E2; [|clear H2|discriminate].
    + apply Ascii.compare_eq_iff in E2. subst z. rewrite E1. reflexivity.
    + rewrite (ascii_compare_lt_trans _ _ _ E1 E2). reflexivity.
Qed.
Lemma compare_refl a : String.compare a a = Eq.
Proof. induction a as [|x a IH]; cbn; [reflexivity|]. rewrite ascii_compare_refl. exact IH. Qed.

Lemma ltb_compare a b : String.ltb a b = true <-> String.compare a b = Lt.
Proof. unfold String.ltb. destruct (String.compare a b); split; congruence. Qed.
Lemma leb_compare a b : String.leb a b = true <-> a = b \/ String.compare a b = Lt.
Proof.
  unfold String.leb. destruct (String.compare a b) eqn:E.
  - apply String.compare_eq_iff in E. tauto.
  - tauto.
  - split; [discriminate|]. intros [->|H]; [rewrite compare_refl in E|]; congruence.
Qed.
Lemma leb_trans a b c : String.leb a b = true -> String.leb b c = true -> String.leb a c = true.
Proof.
  rewrite !leb_compare. intros [->|H1] [->|H2]; auto. right. eapply compare_lt_trans; eauto.
Qed.
Lemma lt_ltb a b : lt String.leb a b <-> String.ltb a b = true.
Proof.
  unfold lt. rewrite leb_compare, ltb_compare. split.
  - intros [[->|H] Hn]; [congruence|auto].
  - intros H. split; [auto|]. intros ->. rewrite compare_refl in H. discriminate.
Qed.

Definition cls (l : list string) : list string := classes String.leb String.eqb l.

Lemma cls_spec l : increasing String.leb (cls l) /\ forall b, In b (cls l) <-> In b l.
Proof. apply classes_spec; [apply String.eqb_eq|apply leb_trans|apply String.leb_antisym|apply String.leb_total]. Qed.

Lemma increasing_nodup l : increasing String.leb l -> NoDup l.
Proof.
  induction 1 as [|c cs Hc Hi IH]; constructor; auto. intros Hin. destruct (Hc _ Hin) as [_ H]. congruence.
Qed.

Lemma nodup_firstn {A} (l : list A) k : NoDup l -> NoDup (firstn k l).
Proof.
  intros H. rewrite <- (firstn_skipn k l) in H. revert H. generalize (firstn k l), (skipn k l). clear.
  induction l as [|a l IH]; intros r H; [constructor|]. cbn in H. inversion H as [|? ? Hn Hd]; subst.
  constructor; [|eauto]. intros Hi. apply Hn, in_app_iff. auto.
Qed.
Lemma in_firstn_nth {A} (l : list A) k a : In a (firstn k l) <-> exists i, i < k /\ nth_error l i = Some a.
Proof.
  revert k. induction l as [|b l IH]; intros [|k]; cbn; split; try tauto.
  - intros (i & Hi & _). lia.
  - intros (i & _ & Hn). destruct i; discriminate.
  - intros (i & Hi & _). lia.
  - intros [->|H]; [exists 0; split; [lia|reflexivity]|]. apply IH in H as (i & Hi & Hn). exists (S i). split; [lia|auto].
  - intros ([|i] & Hi & Hn); [left; cbn in Hn; congruence|right]. apply IH. exists i. split; [lia|auto].
Qed.

(** the code of a text is the number of the distinct texts before it *)
Lemma index_text_code l s k : index_of String.eqb s (cls l) 0 = Some k -> Z.of_nat k = text_code l s.
Proof.
  intros H. apply (index_of_nth String.eqb String.eqb_eq) in H. unfold text_code. f_equal.
  destruct (cls_spec l) as [Hinc Hin].
  assert (Hk : k < List.length (cls l)) by (apply nth_error_Some; congruence).
  rewrite <- (firstn_length_le (cls l) (Nat.lt_le_incl _ _ Hk)).
  apply Permutation_length, NoDup_Permutation.
  - apply nodup_firstn, increasing_nodup, Hinc.
  - apply NoDup_nodup.
  - intros y. rewrite nodup_In, filter_In, in_firstn_nth, <- lt_ltb. split.
    + intros (i & Hi & Hy). split; [apply Hin; eapply nth_error_In; eauto|].
      eapply increasing_nth; [apply String.leb_antisym|exact Hinc|exact Hy|exact H|exact Hi].
    + intros [Hy Hlt]. apply Hin in Hy. apply In_nth_error in Hy as [i Hi]. exists i. split; [|auto].
      eapply increasing_nth; [apply String.leb_antisym|exact Hinc|exact Hi|exact H|exact Hlt].
Qed.

Lemma text_codes shape l : shape <> [] ->
  exists codes, enc (string_encoder String.leb String.eqb (LArr string shape l)) (LArr string shape l)
    = Some (LArr nat [List.length l] codes) /\ map Z.of_nat codes = map (text_code l) l.
Proof.
  intros Hs. unfold string_encoder, enc. cbn [lshape lentries].
  assert (E : (0 <? List.length shape) && ((1 <? List.length shape) || (List.length shape =? 1)) = true).
  { destruct shape as [|a [|b s]]; [tauto|reflexivity|reflexivity]. }
  rewrite E.
  destruct (proj1 (transform_spec String.leb String.eqb String.eqb_eq leb_trans String.leb_antisym String.leb_total l l))
    as (codes & Hc & _); [apply Forall_forall; auto|].
  rewrite Hc. cbn [option_map]. exists codes. split; [reflexivity|].
  unfold transform in Hc. apply mapM_Forall2 in Hc.
  assert (G : forall l0 codes, Forall2 (fun a b => index_of String.eqb a (cls l) 0 = Some b) l0 codes ->
              map Z.of_nat codes = map (text_code l) l0).
  { clear. induction 1 as [|a b l0 codes H _ IH]; cbn; [reflexivity|]. rewrite IH. f_equal. apply index_text_code, H. }
  apply G. exact Hc.
Qed.

(** codes compare as the texts *)
Lemma text_code_lt l a b : In a l -> In b l -> ((text_code l a < text_code l b)%Z <-> String.ltb a b = true).
Proof.
  intros Ha Hb. destruct (cls_spec l) as [Hinc Hin]. apply Hin in Ha, Hb.
  apply (index_of_total String.eqb String.eqb_eq) in Ha as [i Hi], Hb as [j Hj].
  rewrite <- (index_text_code l a i Hi), <- (index_text_code l b j Hj), <- lt_ltb.
  pose proof (label_codes String.leb String.eqb String.eqb_eq leb_trans String.leb_antisym String.leb_total l a b i j Hi Hj) as G.
  unfold lt. rewrite <- G. lia.
Qed.
Lemma text_code_inj l a b : In a l -> In b l -> text_code l a = text_code l b -> a = b.
Proof.
  intros Ha Hb E. destruct (String.compare a b) eqn:C.
  - apply String.compare_eq_iff; auto.
  - apply ltb_compare, (text_code_lt l a b Ha Hb) in C. lia.
  - assert (C' : String.compare b a = Lt).
    { rewrite String.compare_antisym, C. reflexivity. }
    apply ltb_compare, (text_code_lt l b a Hb Ha) in C'. lia.
Qed.
Lemma text_code_range l a : In a l -> (0 <= text_code l a < Z.of_nat (List.length (nodup string_dec l)))%Z.
Proof.
  intros Ha. unfold text_code. split; [lia|]. apply inj_lt.
  assert (H : NoDup (a :: nodup string_dec (filter (fun y => String.ltb y a) l))).
  { constructor; [|apply NoDup_nodup]. rewrite nodup_In, filter_In, ltb_compare, compare_refl. intros [_ H]. discriminate. }
  apply (NoDup_incl_length H). intros y [->|Hy]; apply nodup_In; [auto|].
  apply nodup_In, filter_In in Hy. tauto.
Qed.

(** the words of the dates *)
Lemma date_codes l : l <> [] -> Forall (fun ns => - 2 ^ 63 <= ns < 2 ^ 63)%Z l ->
  exists ws, enc datetime64_encoder l = Some ws /\ map (fun w => [Word (fst w); Word (snd w)]) ws = map date_words l.
Proof.
  intros Hne HF. cbn. unfold Encode.stacked. destruct l as [|a0 l0]; [tauto|]. clear Hne. revert HF. generalize (a0 :: l0). clear. intros l.
  induction l as [|a l IH]; intros HF; [exists []; auto|].
  destruct (IH (Forall_inv_tail HF)) as (ws & E & Hw). cbn [Model.Encode.mapM]. unfold encode_datetime64 at 1.
  rewrite (encode_int64_eq a (Forall_inv HF)), E. eexists. split; [reflexivity|]. cbn [map fst snd]. rewrite Hw. f_equal.
  unfold date_words. pose proof (words_unsigned a) as W. f_equal. f_equal. rewrite <- W.
  rewrite Z.div_add_l by lia. rewrite (Z.div_small (a mod 2 ^ 32)) by (apply Z.mod_pos_bound; lia). lia.
Qed.
Lemma date_words_inj a b : (- 2 ^ 63 <= a < 2 ^ 63)%Z -> (- 2 ^ 63 <= b < 2 ^ 63)%Z -> date_words a = date_words b -> a = b.
Proof.
  unfold date_words. intros Ha Hb E.
  assert (E1 := f_equal (fun l => match l with Word x :: _ => x | _ => 0%Z end) E). cbn beta iota in E1.
  assert (E2 := f_equal (fun l => match l with [_; Word x] => x | _ => 0%Z end) E). cbn beta iota in E2. clear E.
  assert (E3 : (a mod 2 ^ 64 = b mod 2 ^ 64)%Z).
  { rewrite (Z.div_mod (a mod 2 ^ 64) (2 ^ 32)), (Z.div_mod (b mod 2 ^ 64) (2 ^ 32)) by lia. rewrite E1. f_equal.
    assert (G : forall x, ((x mod 2 ^ 64) mod 2 ^ 32 = x mod 2 ^ 32)%Z).
    { intros x. rewrite <- (words_unsigned x), Z.add_comm, Z.mod_add by lia. apply Z.mod_mod. lia. }
    rewrite !G. exact E2. }
  pose proof (wrap64_id a Ha) as Wa. pose proof (wrap64_id b Hb) as Wb. unfold wrap64 in Wa, Wb.
  rewrite <- (Z.add_mod_idemp_l a), E3, Z.add_mod_idemp_l in Wa by lia. lia.
Qed.
