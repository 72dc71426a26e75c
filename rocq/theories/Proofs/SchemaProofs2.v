(** The schema of a dataset and what modules read of texts and dates. *)
From Coq Require Import String ZArith List Bool Arith Lia.
From Verif Require Import Model.Float Model.Encode Model.Unroll Model.Stream Model.Format Model.Accessors Model.Schema
  Proofs.EncodeProofs Proofs.ListFacts Proofs.AccessorProofs Proofs.AccessorProofs4 Proofs.AccessorProofs5 Proofs.AccessorProofs7 Proofs.SchemaProofs
  Spec.StreamSpec Spec.AccessorSpec Spec.SchemaSpec.
Import ListNotations.
Local Open Scope list_scope.

Definition schema_entry (check : bool) (v : npvar) : option (list (string * var_encoder)) :=
  match make_encoder v with
  | None => None
  | Some None => Some []
  | Some (Some e) => if implb check (check_encoder e v) then Some [(np_name v, e)] else None
  end.
Lemma schema_eq check vars coords :
  get_dataset_schema check vars coords = option_map (@List.concat _) (Unroll.mapM (schema_entry check) (vars ++ coords)).
Proof. reflexivity. Qed.

Lemma fmapM_none {X Y} (f : X -> option Y) l : Unroll.mapM f l = None <-> exists x, In x l /\ f x = None.
Proof.
  induction l as [|a l IH]; cbn; [split; [discriminate|]; intros (x & [] & _)|].
  destruct (f a) eqn:E.
  - destruct (Unroll.mapM f l) eqn:E2.
    + split; [discriminate|]. intros (x & [->|Hx] & Hf); [congruence|].
      assert (Some l0 = None) by (apply IH; eauto). discriminate.
    + split; [|auto]. intros _. destruct (proj1 IH eq_refl) as (x & Hx & Hf). eauto.
  - split; [|auto]. intros _. eauto.
Qed.

Definition scalar_text (v : npvar) : Prop := is_text v /\ np_shape v = [].
Lemma make_encoder_none v : make_encoder v = None <-> scalar_text v.
Proof.
  unfold make_encoder, scalar_text, is_text. destruct (np_values v) as [l|l|l|].
  - split; [discriminate|]. intros [[l' H] _]. discriminate.
  - destruct (np_shape v) as [|n s]; cbn; split; try discriminate; eauto. intros [_ H]. discriminate.
  - split; [discriminate|]. intros [[l' H] _]. discriminate.
  - split; [discriminate|]. intros [[l' H] _]. discriminate.
Qed.
Lemma schema_none vars coords :
  get_dataset_schema false vars coords = None <-> exists v, In v (vars ++ coords) /\ is_text v /\ np_shape v = [].
Proof.
  rewrite schema_eq. destruct (Unroll.mapM (schema_entry false) (vars ++ coords)) eqn:E; cbn.
  - split; [discriminate|]. intros (v & Hv & H). apply make_encoder_none in H.
    assert (N : Unroll.mapM (schema_entry false) (vars ++ coords) = None); [|congruence].
    apply fmapM_none. exists v. split; [auto|]. unfold schema_entry. rewrite H. reflexivity.
  - split; [|auto]. intros _. apply fmapM_none in E as (v & Hv & Hf). exists v. split; [auto|]. apply make_encoder_none.
    unfold schema_entry in Hf. destruct (make_encoder v) as [[e|]|]; [discriminate|discriminate|reflexivity].
Qed.
Lemma schema_names check vars coords encs :
  get_dataset_schema check vars coords = Some encs -> map fst encs = map np_name (filter encodable (vars ++ coords)).
Proof.
  rewrite schema_eq. generalize (vars ++ coords). intros l.
  destruct (Unroll.mapM (schema_entry check) l) as [r|] eqn:E; [|discriminate]. cbn.
  intros H. assert (Hr : encs = List.concat r) by congruence. subst encs. clear H. revert r E.
  induction l as [|v l IH]; intros r E; cbn in E; [assert (r = []) by congruence; subst; reflexivity|].
  destruct (schema_entry check v) as [x|] eqn:Ex; [|discriminate].
  destruct (Unroll.mapM (schema_entry check) l) as [r'|] eqn:Er; [|discriminate].
  assert (r = x :: r') by congruence. subst r. cbn [List.concat filter]. rewrite map_app, (IH r' eq_refl).
  unfold schema_entry in Ex. unfold encodable. destruct (make_encoder v) as [o|] eqn:Em; [|discriminate].
  unfold make_encoder in Em.
  assert (G : forall e, o = Some e -> map fst x = [np_name v]).
  { intros e ->. destruct (implb check (check_encoder e v)); [|discriminate]. assert (Hx : x = [(np_name v, e)]) by congruence.
    rewrite Hx. reflexivity. }
  destruct (np_values v) as [k|k|k|].
  - assert (Ho : o = None) by congruence. subst o. assert (Hx : x = []) by congruence. rewrite Hx. reflexivity.
  - destruct (_ =? 0); [discriminate|]. erewrite G by (symmetry; apply (f_equal (fun o => match o with Some x => x | None => None end) Em)). reflexivity.
  - erewrite G by (symmetry; apply (f_equal (fun o => match o with Some x => x | None => None end) Em)). reflexivity.
  - assert (Ho : o = None) by congruence. subst o. assert (Hx : x = []) by congruence. rewrite Hx. reflexivity.
Qed.

Lemma lookup_app_l {B} (k : string) (a b : list (string * B)) : ~ In k (map fst b) ->
  lookup k (a ++ b) = lookup k a.
Proof.
  intros H. induction a as [|[k' x] a IH]; cbn; [apply lookup_none; auto|]. destruct (String.eqb k k'); auto.
Qed.
Lemma lookup_app_r {B} (k : string) (a b : list (string * B)) : ~ In k (map fst a) ->
  lookup k (a ++ b) = lookup k b.
Proof.
  intros H. induction a as [|[k' x] a IH]; cbn; [auto|]. destruct (String.eqb_spec k k') as [->|]; [cbn in H; tauto|].
  apply IH. cbn in H. tauto.
Qed.

Lemma schema_entry_names check v x : schema_entry check v = Some x -> forall k, In k (map fst x) -> k = np_name v.
Proof.
  unfold schema_entry. destruct (make_encoder v) as [[e|]|]; [|intros H k Hk|discriminate].
  - destruct (implb _ _); [|discriminate]. intros H k Hk. assert (Hx : x = [(np_name v, e)]) by congruence. rewrite Hx in Hk.
    cbn in Hk. destruct Hk as [<-|[]]. reflexivity.
  - assert (Hx : x = []) by congruence. rewrite Hx in Hk. destruct Hk.
Qed.
(** the encoder found for an array is its own *)
Lemma schema_lookup check vars coords encs v o :
  NoDup (map np_name (vars ++ coords)) -> get_dataset_schema check vars coords = Some encs -> In v (vars ++ coords) ->
  make_encoder v = Some o -> Model.Accessors.lookup (np_name v) encs = o.
Proof.
  rewrite schema_eq. generalize (vars ++ coords). intros l.
  destruct (Unroll.mapM (schema_entry check) l) as [r|] eqn:E; [|discriminate]. cbn.
  intros Hnd H Hin Hm. assert (Hr : encs = List.concat r) by congruence. subst encs. clear H. revert r E Hnd Hin.
  induction l as [|a l IH]; intros r E Hnd Hin; [destruct Hin|]. cbn in E.
  destruct (schema_entry check a) as [x|] eqn:Ex; [|discriminate].
  destruct (Unroll.mapM (schema_entry check) l) as [r'|] eqn:Er; [|discriminate].
  assert (r = x :: r') by congruence. subst r. cbn [List.concat]. cbn in Hnd. inversion Hnd as [|? ? Hn Hd]; subst.
  assert (Hnames : forall k, In k (map fst (List.concat r')) -> In k (map np_name l)).
  { clear -Er. revert r' Er. induction l as [|b l IH]; intros r' Er; cbn in Er.
    - assert (r' = []) by congruence. subst. cbn. tauto.
    - destruct (schema_entry check b) as [y|] eqn:Ey; [|discriminate].
      destruct (Unroll.mapM (schema_entry check) l) as [r2|]; [|discriminate].
      assert (r' = y :: r2) by congruence. subst. cbn [List.concat]. intros k. rewrite map_app, in_app_iff. intros [Hk|Hk].
      + left. symmetry. eapply schema_entry_names; eauto.
      + right. eapply IH; eauto. }
  destruct Hin as [->|Hin].
  - rewrite lookup_app_l by (intros Hk; apply Hn, Hnames, Hk). unfold schema_entry in Ex. rewrite Hm in Ex.
    destruct o as [e|].
    + destruct (implb _ _); [|discriminate]. assert (Hx : x = [(np_name v, e)]) by congruence. rewrite Hx. cbn.
      rewrite String.eqb_refl. reflexivity.
    + assert (Hx : x = []) by congruence. rewrite Hx. reflexivity.
  - rewrite lookup_app_r; [apply IH; auto|]. intros Hk. apply (schema_entry_names _ _ _ Ex) in Hk. apply Hn. rewrite <- Hk.
    apply in_map. exact Hin.
Qed.

(** *** check=True *)
Lemma combine_self_forallb {A} (p : A * A -> bool) (l : list A) : forallb p (combine l l) = forallb (fun a => p (a, a)) l.
Proof. induction l as [|a l IH]; cbn; [reflexivity|]. rewrite IH. reflexivity. Qed.

Lemma schema_entry_check v : well_formed v ->
  ((exists x, schema_entry true v = Some x) <->
   (is_text v -> np_shape v <> []) /\
   (forall l, np_values v = Dates l -> List.length (np_shape v) = 1 /\ l <> [] /\ ~ In nat_value l)).
Proof.
  intros [Hwf _]. unfold schema_entry, make_encoder, is_text. destruct (np_values v) as [l|l|l|] eqn:Ev.
  - split; [|eauto]. intros _. split; [intros [l' H]; discriminate|intros l' H; discriminate].
  - destruct (np_shape v) as [|n s] eqn:Es; cbn [List.length Nat.eqb].
    + split; [intros [x H]; discriminate|]. intros [H _]. exfalso. apply H; eauto.
    + split; [intros _; split; [discriminate|intros l' H; discriminate]|]. intros _.
      unfold check_encoder. rewrite Ev, Es.
      destruct (string_encoder_roundtrip String.leb String.eqb String.eqb_eq leb_trans String.leb_antisym String.leb_total
        (LArr string (n :: s) l) (LArr string (n :: s) l)) as (c & Hc & Hd).
      * apply Forall_forall. auto.
      * exact Hwf.
      * left. reflexivity.
      * cbn. lia.
      * rewrite Hc, Hd. cbn [lentries]. rewrite combine_self_forallb. cbn [fst snd].
        assert (E : forallb (fun a => String.eqb a a) l = true) by (apply forallb_forall; intros a _; apply String.eqb_refl).
        rewrite E. cbn [implb]. eauto.
  - destruct Hwf as [Hlen Hr]. split.
    + intros [x H]. split; [intros [l' H']; discriminate|]. intros l' Hl'. assert (l' = l) by congruence. subst l'. clear Hl'.
      unfold check_encoder in H. rewrite Ev in H. unfold encode_dates in H.
      destruct (np_shape v) as [|n [|m s]]; cbn [implb] in H; try discriminate. split; [reflexivity|].
      destruct l as [|a l]; [cbn in H; discriminate|]. split; [discriminate|].
      destruct (datetime64_encoder_roundtrip (a :: l)) as (codes & Hc & _ & Hd); [discriminate|exact Hr|].
      rewrite Hc, Hd, combine_self_forallb in H. cbn [fst snd] in H.
      destruct (forallb _ (a :: l)) eqn:E; [|discriminate]. rewrite forallb_forall in E. intros Hin. apply E in Hin.
      rewrite Z.eqb_refl in Hin. discriminate.
    + intros [_ H]. destruct (H l eq_refl) as (Hs & Hne & Hnat). unfold check_encoder. rewrite Ev. unfold encode_dates.
      destruct (np_shape v) as [|n [|m s]]; cbn in Hs; try lia.
      destruct (datetime64_encoder_roundtrip l Hne Hr) as (codes & Hc & _ & Hd). rewrite Hc, Hd, combine_self_forallb. cbn [fst snd].
      assert (E : forallb (fun a => (a =? a)%Z && negb (a =? nat_value)%Z) l = true).
      { apply forallb_forall. intros a Ha. rewrite Z.eqb_refl. cbn. apply negb_true_iff, Z.eqb_neq. intros ->. auto. }
      rewrite E. cbn [implb]. eauto.
  - split; [|eauto]. intros _. split; [intros [l' H]; discriminate|intros l' H; discriminate].
Qed.
Lemma schema_check vars coords : Forall well_formed (vars ++ coords) ->
  ((exists encs, get_dataset_schema true vars coords = Some encs) <->
   forall v, In v (vars ++ coords) ->
     (is_text v -> np_shape v <> []) /\
     (forall l, np_values v = Dates l -> List.length (np_shape v) = 1 /\ l <> [] /\ ~ In nat_value l)).
Proof.
  intros HF. rewrite Forall_forall in HF. rewrite schema_eq. split.
  - intros [encs H] v Hv. apply schema_entry_check; [auto|].
    destruct (schema_entry true v) eqn:E; [eauto|]. exfalso.
    assert (N : Unroll.mapM (schema_entry true) (vars ++ coords) = None) by (apply fmapM_none; eauto).
    rewrite N in H. discriminate.
  - intros H. destruct (Unroll.mapM (schema_entry true) (vars ++ coords)) eqn:E; [cbn; eauto|]. exfalso.
    apply fmapM_none in E as (v & Hv & Hf). destruct (proj2 (schema_entry_check v (HF v Hv)) (H v Hv)) as [x Hx]. congruence.
Qed.
