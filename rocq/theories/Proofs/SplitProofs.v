From Coq Require Import String ZArith List Bool Arith Lia.
From Verif Require Import Model.Encode Model.Stream Model.Split Spec.StreamSpec Spec.SplitSpec Proofs.StreamProofs Proofs.EncodeProofs.
Import ListNotations.
Local Open Scope list_scope.

Section P.
  Context {V : Type}.
  Implicit Types (d : @sdata V) (v : @svar V).

  Definition taxes d : list (string * list Z) :=
    flat_map (fun c => match snd c with Some ts => [(fst c, ts)] | None => [] end) (sd_coords d).
  Lemma taxes_axis d k ts : In (k, ts) (taxes d) <-> axis d k ts.
  Proof.
    unfold taxes, axis. rewrite in_flat_map. split.
    - intros [[k' o] [Hi H]]. cbn in H. destruct o as [ts'|]; [|easy]. destruct H as [H|[]]. injection H as -> ->. exact Hi.
    - intros H. exists (k, Some ts). split; [exact H|]. left. reflexivity.
  Qed.
  Lemma taxes_nodup d : NoDup (map fst (sd_coords d)) -> NoDup (map fst (taxes d)).
  Proof.
    unfold taxes. induction (sd_coords d) as [|[k o] r IH]; cbn; [constructor|]. intros H. inversion H as [|? ? Hk Hr]; subst.
    destruct o as [ts|]; cbn; [|apply IH; exact Hr]. constructor; [|apply IH; exact Hr].
    intros Hi. apply Hk. apply in_map_iff in Hi as [[k' ts'] [E Hi]]. cbn in E. subst k'.
    apply in_flat_map in Hi as [[k' o'] [Hi H']]. cbn in H'. destruct o'; [|easy]. destruct H' as [H'|[]]. injection H' as -> ->.
    apply in_map_iff. exists (k, Some ts'). auto.
  Qed.

  Lemma existsb_dims k v : existsb (String.eqb k) (sv_dims v) = true <-> In k (sv_dims v).
  Proof.
    rewrite existsb_exists. split; [intros [x [Hx E]]; apply String.eqb_eq in E; subst; exact Hx|].
    intros H. exists k. split; [exact H|apply String.eqb_refl].
  Qed.

  Lemma filter_nodup_cases {A} (p : A -> bool) l : NoDup l ->
    (filter p l = [] /\ forall x, In x l -> p x = false) \/
    (exists x, filter p l = [x] /\ In x l /\ p x = true /\ forall y, In y l -> p y = true -> y = x) \/
    (exists x y r, filter p l = x :: y :: r /\ x <> y /\ In x l /\ In y l /\ p x = true /\ p y = true).
  Proof.
    intros H. assert (Hf := NoDup_filter p H). destruct (filter p l) as [|x [|y r]] eqn:E.
    - left. split; auto. intros x Hx. destruct (p x) eqn:Ep; auto. assert (In x []) by (rewrite <- E; apply filter_In; auto). easy.
    - right; left. exists x. assert (Hx : In x (filter p l)) by (rewrite E; now left). apply filter_In in Hx as [Hx1 Hx2].
      repeat split; auto. intros y Hy Ey. assert (In y [x]) by (rewrite <- E; apply filter_In; auto). destruct H0; [auto|easy].
    - right; right. exists x, y, r. assert (Hx : In x (filter p l)) by (rewrite E; now left).
      assert (Hy : In y (filter p l)) by (rewrite E; right; now left). apply filter_In in Hx as [? ?], Hy as [? ?].
      repeat split; auto. inversion Hf as [|? ? Hn _]; subst. intros ->. apply Hn. now left.
  Qed.

  Definition with_vars (tc : list (string * list Z)) (f : string -> list (@svar V)) : list (string * @part V) :=
    map (fun c => (fst c, (snd c, f (fst c)))) tc.

  Lemma add_var_with tc f t v : add_var t v (with_vars tc f) =
    with_vars tc (fun k => f k ++ (if String.eqb k t then [v] else [])).
  Proof.
    unfold add_var, with_vars. rewrite map_map. apply map_ext. intros [k ts]. cbn.
    destruct (String.eqb k t); [reflexivity|]. rewrite app_nil_r. reflexivity.
  Qed.

  Lemma with_vars_ext tc f g : (forall k, In k (map fst tc) -> f k = g k) -> with_vars tc f = with_vars tc g.
  Proof.
    intros H. unfold with_vars. apply map_ext_in. intros [k ts] Hi. cbn. rewrite H; [reflexivity|].
    apply in_map_iff. exists (k, ts). auto.
  Qed.

  Lemma fill_parts_ok tc vs : NoDup (map fst tc) -> forall f,
    (forall v k k', In v vs -> In k (map fst tc) -> In k' (map fst tc) -> In k (sv_dims v) -> In k' (sv_dims v) -> k = k') ->
    fill_parts (map fst tc) vs (with_vars tc f) =
    Some (with_vars tc (fun k => f k ++ filter (fun v => existsb (String.eqb k) (sv_dims v)) vs)).
  Proof.
    intros Hn. induction vs as [|v r IH]; intros f H; cbn [fill_parts filter].
    - f_equal. apply with_vars_ext. intros. rewrite app_nil_r. reflexivity.
    - unfold var_time_dims. destruct (filter_nodup_cases (fun t => existsb (String.eqb t) (sv_dims v)) (map fst tc) Hn)
        as [[-> Hz]|[[x [-> [Hx [Px Hu]]]]|[x [y [q [-> [Hxy [Hx [Hy [Px Py]]]]]]]]]].
      + rewrite IH. 2:{ intros; eapply H; eauto. right; auto. }
        f_equal. apply with_vars_ext. intros k Hk. rewrite (Hz k Hk). reflexivity.
      + rewrite add_var_with, IH. 2:{ intros; eapply H; eauto. right; auto. }
        f_equal. apply with_vars_ext. intros k Hk. rewrite <- app_assoc. f_equal.
        destruct (String.eqb k x) eqn:E.
        * apply String.eqb_eq in E. subst k. rewrite Px. reflexivity.
        * destruct (existsb (String.eqb k) (sv_dims v)) eqn:E'; [|reflexivity].
          rewrite (Hu k Hk E'), String.eqb_refl in E. discriminate.
      + exfalso. apply Hxy. apply (H v); auto; try (left; reflexivity); apply existsb_dims; auto.
  Qed.

  Lemma fill_parts_bad tc vs v k k' : NoDup tc -> In v vs -> In k tc -> In k' tc -> In k (sv_dims v) -> In k' (sv_dims v) -> k <> k' ->
    forall ps, fill_parts tc vs ps = None.
  Proof.
    intros Hn Hv Hk Hk' Hd Hd' Hne. induction vs as [|w r IH]; [easy|]. intros ps. cbn [fill_parts].
    unfold var_time_dims. destruct (filter_nodup_cases (fun t => existsb (String.eqb t) (sv_dims w)) tc Hn)
        as [[-> Hz]|[[x [-> [Hx [Px Hu]]]]|[x [y [q [-> _]]]]]]; [| |reflexivity].
    - destruct Hv as [->|Hv]; [|apply IH; exact Hv]. exfalso.
      rewrite (proj2 (existsb_dims k v) Hd) in Hz || pose proof (Hz k Hk) as E; rewrite (proj2 (existsb_dims k v) Hd) in E; discriminate.
    - destruct Hv as [->|Hv]; [|apply IH; exact Hv]. exfalso. apply Hne.
      rewrite (Hu k Hk), (Hu k' Hk'); auto; apply existsb_dims; auto.
  Qed.

  Lemma split_eq d : split_dataset_from_time_dims d =
    match taxes d with [] => None | _ => fill_parts (map fst (taxes d)) (sd_vars d) (with_vars (taxes d) (fun _ => [])) end.
  Proof.
    unfold split_dataset_from_time_dims, get_dataset_time_coords. fold (taxes d). destruct (taxes d); reflexivity.
  Qed.

  Lemma one_axis_keys d : one_axis_each d -> forall v k k', In v (sd_vars d) -> In k (map fst (taxes d)) -> In k' (map fst (taxes d)) ->
    In k (sv_dims v) -> In k' (sv_dims v) -> k = k'.
  Proof.
    intros H v k k' Hv Hk Hk' Hd Hd'. apply in_map_iff in Hk as [[a ts] [E Hk]], Hk' as [[a' ts'] [E' Hk']]. cbn in E, E'. subst.
    apply taxes_axis in Hk, Hk'. exact (H v k k' ts ts' Hv Hk Hk' Hd Hd').
  Qed.

  Lemma split_some d : NoDup (map fst (sd_coords d)) -> one_axis_each d -> taxes d <> [] ->
    split_dataset_from_time_dims d = Some (with_vars (taxes d) (vars_along d)).
  Proof.
    intros Hn H Ht. rewrite split_eq. destruct (taxes d) as [|c r] eqn:E; [easy|]. rewrite <- E in *.
    rewrite fill_parts_ok; [reflexivity|apply taxes_nodup; exact Hn|apply one_axis_keys; exact H].
  Qed.

  Lemma split_ok d ps : NoDup (map fst (sd_coords d)) -> split_dataset_from_time_dims d = Some ps ->
    (exists k ts, axis d k ts) /\ one_axis_each d /\ ps = with_vars (taxes d) (vars_along d).
  Proof.
    intros Hn H. assert (Ht : taxes d <> []). { rewrite split_eq in H. destruct (taxes d); easy. }
    assert (Ho : one_axis_each d).
    { intros v k k' ts ts' Hv A A' Hd Hd'. destruct (string_dec k k') as [E|E]; [exact E|]. exfalso.
      rewrite split_eq in H. destruct (taxes d) eqn:Et; [easy|]. rewrite <- Et in *.
      rewrite (fill_parts_bad (map fst (taxes d)) (sd_vars d) v k k') in H; try discriminate; auto.
      - apply taxes_nodup; exact Hn.
      - apply in_map_iff. exists (k, ts). split; auto. apply taxes_axis. exact A.
      - apply in_map_iff. exists (k', ts'). split; auto. apply taxes_axis. exact A'. }
    rewrite (split_some d Hn Ho Ht) in H. injection H as <-. repeat split; auto.
    destruct (taxes d) as [|[k ts] r] eqn:E; [easy|]. exists k, ts. apply taxes_axis. rewrite E. left. reflexivity.
  Qed.

  Lemma split_spec d k p ps : NoDup (map fst (sd_coords d)) -> split_dataset_from_time_dims d = Some ps ->
    (In (k, p) ps <-> axis d k (fst p) /\ snd p = vars_along d k).
  Proof.
    intros Hn H. destruct (split_ok d ps Hn H) as [_ [_ ->]]. unfold with_vars. rewrite in_map_iff. split.
    - intros [[a ts] [E Hi]]. cbn in E. injection E as -> <-. cbn. split; auto. apply taxes_axis; exact Hi.
    - destruct p as [ts vs]. cbn. intros [A ->]. exists (k, ts). split; auto. apply taxes_axis; exact A.
  Qed.

  Lemma split_keys d ps : NoDup (map fst (sd_coords d)) -> split_dataset_from_time_dims d = Some ps -> NoDup (map fst ps).
  Proof.
    intros Hn H. destruct (split_ok d ps Hn H) as [_ [_ ->]]. unfold with_vars. rewrite map_map. cbn. apply taxes_nodup. exact Hn.
  Qed.

  Lemma split_defined d : NoDup (map fst (sd_coords d)) ->
    ((exists ps, split_dataset_from_time_dims d = Some ps) <-> (exists k ts, axis d k ts) /\ one_axis_each d).
  Proof.
    intros Hn. split.
    - intros [ps H]. destruct (split_ok d ps Hn H) as [A [B _]]. auto.
    - intros [[k [ts A]] B]. exists (with_vars (taxes d) (vars_along d)). apply split_some; auto.
      apply taxes_axis in A. intros E. rewrite E in A. easy.
  Qed.

  (** *** Streams *)
  Lemma combine_seq_nth {A} (l : list A) i s : nth_error (combine (seq s (List.length l)) l) i = option_map (pair (s + i)) (nth_error l i).
  Proof.
    revert i s. induction l as [|a l IH]; intros [|i] s; cbn; try reflexivity.
    - rewrite Nat.add_0_r. reflexivity.
    - rewrite IH. rewrite Nat.add_succ_r. reflexivity.
  Qed.

  Lemma F2_impl {A B} (P Q : A -> B -> Prop) l l' : (forall a b, P a b -> Q a b) -> Forall2 P l l' -> Forall2 Q l l'.
  Proof. intros H F. induction F; constructor; auto. Qed.

  Lemma select_entries (vs : list (@svar V)) i o : np_select_item vs i false = Some o <-> entries_at vs i o.
  Proof.
    unfold np_select_item, entries_at. rewrite mapM_Forall2. split; intros H; refine (F2_impl _ _ _ _ _ H); cbn.
    - intros v e E. destruct (nth_error (sv_slices v) i) as [x|]; [|discriminate]. injection E as <-. eauto.
    - intros v e [x [-> ->]]. reflexivity.
  Qed.

  Lemma part_stream_inv (p : @part V) g : start_part_stream false p = Some g ->
    exists t0 ts o r, fst p = t0 :: ts /\ g = o :: o :: r /\ List.length (o :: r) = List.length (fst p) /\
      forall i x, nth_error (o :: r) i = Some x -> nth_error (fst p) i = Some (fst x) /\ entries_at (snd p) i (snd x).
  Proof.
    unfold start_part_stream. destruct p as [tms vs]. cbn [fst snd]. destruct tms as [|t0 ts]; [discriminate|]. intros H.
    apply mapM_Forall2 in H. inversion H as [|? o ? g' E1 Hr]; subst. cbn [seq combine] in Hr.
    inversion Hr as [|? o' ? r E2 Hr']; subst. cbn [seq combine fst snd] in *.
    rewrite E1 in E2. injection E2 as <-.
    exists t0, ts, o, r. split; auto. split; auto. assert (HL := F2_len _ _ _ Hr).
    assert (EL : List.length (combine (seq 0 (List.length (t0 :: ts))) (t0 :: ts)) = List.length (t0 :: ts))
      by (rewrite combine_length, seq_length; lia).
    cbn [seq List.length combine] in EL. split; [cbn [List.length] in *; lia|].
    intros i x Hx. pose proof (combine_seq_nth (t0 :: ts) i 0) as Hc. cbn [seq List.length combine] in Hc.
    destruct (nth_error (t0 :: ts) i) as [ti|] eqn:Et; cbn [option_map] in Hc.
    - destruct (F2_nth _ _ _ Hr i _ Hc) as [y [Hy Ey]]. cbn [fst snd] in Ey. rewrite Nat.add_0_l in Ey.
      rewrite Hx in Hy. injection Hy as <-.
      destruct (np_select_item vs i false) as [e|] eqn:Ee; cbn in Ey; [|discriminate]. injection Ey as <-. cbn.
      split; auto. apply select_entries. exact Ee.
    - exfalso. apply nth_error_None in Et. assert (i < List.length (o :: r)) by (apply nth_error_Some; congruence). cbn [List.length] in *. lia.
  Qed.

  Lemma part_stream_total (ts : list Z) vs : ts <> [] -> (forall v, In v vs -> List.length (sv_slices v) = List.length ts) ->
    exists g, start_part_stream false (ts, vs) = Some g.
  Proof.
    intros Hne Hl. unfold start_part_stream. cbn [fst snd]. destruct ts as [|t0 ts]; [easy|].
    apply mapM_total. intros [i t] Hi.
    assert (Hlt : i < List.length (t0 :: ts)).
    { destruct Hi as [E|Hi]; [injection E as <- _; cbn; lia|]. apply in_combine_l, in_seq in Hi. lia. }
    cbn [fst snd]. destruct (mapM_total (fun v => option_map (fun x => (sv_name v, Slice x)) (nth_error (sv_slices v) i)) vs) as [e He].
    { intros v Hv. specialize (Hl v Hv). destruct (nth_error (sv_slices v) i) eqn:E; [eexists; reflexivity|].
      apply nth_error_None in E. lia. }
    unfold np_select_item. rewrite He. eexists; reflexivity.
  Qed.

  Lemma part_stream_trace (p : @part V) t0 ts : fst p = t0 :: ts ->
    start_part_stream true p = Some ((t0, map (fun v => (sv_name v, Pos 0)) (snd p)) ::
      map (fun it => (snd it, map (fun v => (sv_name v, Pos (fst it))) (snd p))) (combine (seq 0 (List.length (fst p))) (fst p))).
  Proof.
    intros E. unfold start_part_stream. rewrite E.
    assert (G : forall l : list (nat * Z), mapM (fun it => option_map (pair (snd it)) (np_select_item (snd p) (fst it) true)) l =
      Some (map (fun it => (snd it, map (fun v => (sv_name v, Pos (fst it))) (snd p))) l)).
    { induction l as [|a l IH]; [reflexivity|]. cbn [mapM map]. unfold np_select_item at 1. cbn [option_map]. rewrite IH. reflexivity. }
    rewrite G. reflexivity.
  Qed.
End P.
