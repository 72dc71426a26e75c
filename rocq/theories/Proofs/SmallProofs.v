From Coq Require Import List Arith ZArith Lia Reals Lra Bool.
From Verif Require Import Model.Tree Model.Unroll Model.Float Model.Modules Spec.SeriesSpec
  Proofs.ListFacts Proofs.FloatFacts Proofs.TreeProofs Proofs.RunFacts Proofs.BufferProofs.
Import ListNotations.

(** ** Ffill *)
Lemma last_valid_snoc_nan pre v : last_valid_is pre v -> last_valid_is (pre ++ [NaN]) v.
Proof.
  intros [[-> H]|[Hv (a & b & -> & H)]].
  - left; split; auto. apply Forall_app; auto.
  - right; split; auto. exists a, (b ++ [NaN]). rewrite <- app_assoc. split; auto.
    apply Forall_app; auto.
Qed.

Lemma last_valid_snoc pre x : x <> NaN -> last_valid_is (pre ++ [x]) x.
Proof. intros H; right; split; auto. exists pre, []; auto. Qed.

Lemma ffill_inv_step pre s x :
  last_valid_is pre s -> last_valid_is (pre ++ [x]) (snd (ffill_step s x)).
Proof.
  intros H. unfold ffill_step; cbn. destruct (isnan x) eqn:E.
  - apply isnan_true in E; subst; apply last_valid_snoc_nan; auto.
  - apply last_valid_snoc, isnan_false, E.
Qed.

Lemma last_valid_nil : last_valid_is [] NaN.
Proof. left; auto. Qed.

Lemma ffill_run x0 xs ys sF :
  run Ffill (x0 :: xs) = Some (ys, sF) ->
  length ys = length (x0 :: xs) /\
  forall t y, nth_error ys t = Some y -> last_valid_is (firstn (t + 1) (x0 :: xs)) y.
Proof.
  intros Hr. eapply (run_inv _ _ last_valid_is) in Hr.
  - destruct Hr as (Hl & _ & Hn). split; auto. intros t y Hy.
    assert (t < length (x0 :: xs)) by (rewrite <- Hl; apply nth_error_Some; congruence).
    destruct (nth_error_lt _ _ H) as [x Hx]. destruct (Hn t x Hx) as (s & _ & Hi & Hy').
    rewrite Hy in Hy'; injection Hy' as ->. exact Hi.
  - apply last_valid_nil.
  - apply ffill_inv_step.
Qed.

Lemma ffill_id x0 xs ys sF :
  Forall (fun x => x <> NaN) (x0 :: xs) -> run Ffill (x0 :: xs) = Some (ys, sF) -> ys = x0 :: xs.
Proof.
  intros Hf Hr. apply run_nth in Hr. destruct Hr as (Hl & _ & Hn).
  apply nth_error_ext. intros t. destruct (nth_error (x0 :: xs) t) as [x|] eqn:Hx.
  - rewrite (Hn _ _ Hx). cbn. rewrite Forall_forall in Hf.
    assert (isnan x = false) as ->; auto.
    apply isnan_false, Hf. eapply nth_error_In; eauto.
  - apply nth_error_None in Hx. apply nth_error_None. lia.
Qed.

Lemma lv_unique_aux l1 : forall r1 l2 r2 (v1 v2 : fl), l1 ++ v1 :: r1 = l2 ++ v2 :: r2 ->
  v1 <> NaN -> v2 <> NaN -> Forall (fun x => x = NaN) r1 -> Forall (fun x => x = NaN) r2 -> v1 = v2.
Proof.
  induction l1 as [|a l1 IH]; intros r1 [|b l2] r2 v1 v2 E H1 H2 F1 F2; simpl in E; injection E as E1 E2.
  - auto.
  - subst. apply Forall_app in F1. destruct F1 as [_ F1]. inversion F1; subst; congruence.
  - subst. apply Forall_app in F2. destruct F2 as [_ F2]. inversion F2; subst; congruence.
  - eapply IH; eauto.
Qed.

Lemma last_valid_unique pre v w : last_valid_is pre v -> last_valid_is pre w -> v = w.
Proof.
  intros [[-> H]|[Hv (a & b & E1 & H)]] [[-> H']|[Hw (a' & b' & E2 & H')]]; auto.
  - exfalso. subst pre. apply Forall_app in H. destruct H as [_ H]; inversion H; congruence.
  - exfalso. subst pre. apply Forall_app in H'. destruct H' as [_ H']; inversion H'; congruence.
  - subst pre. eapply lv_unique_aux; eauto.
Qed.

Fixpoint ff (s : fl) (l : list fl) : list fl :=
  match l with
  | [] => []
  | x :: r => let v := if isnan x then s else x in v :: ff v r
  end.

Lemma ff_eq l : forall s, snd (lax_scan (stepf ffill_step) s l) = ff s l.
Proof.
  induction l as [|x l IH]; intros s; [reflexivity|]. cbn [lax_scan ff].
  unfold stepf at 1; cbn [ffill_step fst snd]. rewrite <- IH.
  destruct (lax_scan _ _ l); reflexivity.
Qed.

Lemma ff_idem l : forall s s', s' = s \/ s' = NaN -> ff s' (ff s l) = ff s l.
Proof.
  induction l as [|x l IH]; intros s s' H; [reflexivity|]. cbn [ff].
  set (v := if isnan x then s else x).
  assert (E : (if isnan v then s' else v) = v).
  { destruct (isnan v) eqn:Ev; auto. apply isnan_true in Ev. unfold v in *.
    destruct (isnan x) eqn:Ex; [|apply isnan_false in Ex; congruence]. destruct H; congruence. }
  rewrite E. f_equal. apply IH; auto.
Qed.

Lemma ffill_idempotent x0 xs ys sF zs sG :
  run Ffill (x0 :: xs) = Some (ys, sF) -> run Ffill ys = Some (zs, sG) -> zs = ys.
Proof.
  intros H1 H2. pose proof (proj1 (ffill_run _ _ _ _ H1)) as Hl.
  destruct ys as [|y0 r]; [discriminate|]. clear Hl.
  unfold Ffill in H1, H2. rewrite run_eq in H1, H2.
  apply some_pair_inj in H1, H2. destruct H1 as [H1 _], H2 as [H2 _].
  rewrite <- H2. clear H2. rewrite <- H1. clear H1 y0 r zs sF sG.
  rewrite !ff_eq. apply ff_idem; auto.
Qed.

(** ** Diff *)
Lemma diff_run m x0 xs ys sF :
  Diff 1 = Some m ->
  run m (x0 :: xs) = Some (ys, sF) ->
  length ys = length (x0 :: xs) /\ nth_error ys 0 = Some NaN /\
  forall t a b, nth_error (x0 :: xs) t = Some a -> nth_error (x0 :: xs) (t + 1) = Some b ->
    nth_error ys (t + 1) = Some (fsub b a).
Proof.
  intros [= <-] Hr.
  eapply (run_inv _ _ (fun pre st => buf_inv 2 NaN pre st)) in Hr.
  - destruct Hr as (Hl & _ & Hn). split; auto.
    assert (G : forall t x, nth_error (x0 :: xs) t = Some x -> exists b,
       is_window 2 NaN (firstn (t + 1) (x0 :: xs)) b /\
       nth_error ys t = Some (fsub (last b NaN) (hd NaN b))).
    { intros t x Hx. destruct (Hn t x Hx) as (s & _ & (Hw & _) & Hy).
      cbn in Hw, Hy. eexists; split; [exact Hw|exact Hy]. }
    split.
    + destruct (G 0 x0 eq_refl) as (b & Hw & Hy). rewrite Hy. f_equal.
      pose proof (window_hd 2 _ _ _ ltac:(lia) Hw) as Hh. cbn in Hh.
      destruct b; [discriminate|]. injection Hh as ->. cbn [hd]. destruct (last _ _); reflexivity.
    + intros t a b Ha Hb. destruct (G _ _ Hb) as (w & Hw & Hy). rewrite Hy. do 2 f_equal.
      * rewrite (window_last 2 _ _ _ NaN ltac:(lia) Hw).
        -- replace (t + 1 + 1) with (S (t + 1)) by lia. rewrite (firstn_snoc _ _ _ Hb), last_last. auto.
        -- rewrite Nat.add_1_r. cbn; congruence.
      * pose proof (window_hd 2 _ _ _ ltac:(lia) Hw) as Hh.
        assert (t + 1 < length (x0 :: xs)) by (apply nth_error_Some; congruence).
        rewrite firstn_length_le in Hh by lia.
        destruct (Nat.ltb_spec (2 - 1) (t + 1 + 1)); [|lia].
        rewrite nth_error_firstn in Hh by lia. replace (t + 1 + 1 - 2) with t in Hh by lia.
        rewrite Ha in Hh. destruct w; [discriminate|]. injection Hh as ->. reflexivity.
  - apply buf_inv_init.
  - intros pre s x H. apply (buf_inv_step 2 _ pre s x ltac:(lia) H).
Qed.

(** ** PctChange *)
Definition pct_inv (pre : list fl) (st : pct_state) : Prop :=
  last_valid_is pre (pct_ffill st) /\
  exists vals, length vals = length pre /\
    (forall t v, nth_error vals t = Some v -> last_valid_is (firstn (t + 1) pre) v) /\
    buf_inv 2 NaN vals (pct_lag st).

Lemma pct_inv_step fz pre st x : pct_inv pre st -> pct_inv (pre ++ [x]) (snd (pct_change_step fz st x)).
Proof.
  intros (Hf & vals & Hl & Hv & Hb). unfold pct_change_step.
  pose proof (ffill_inv_step _ _ x Hf) as Hf'.
  unfold ffill_step in *. cbn [snd fst] in *. set (v := if isnan x then pct_ffill st else x) in *.
  pose proof (buf_inv_step 2 _ _ _ v ltac:(lia) Hb) as Hb'.
  destruct (buffer_apply 2 (pct_lag st) v) as [b lg]. cbn [snd] in *.
  split; [exact Hf'|]. exists (vals ++ [v]). split.
  { rewrite !app_length; cbn; lia. } split; auto.
  intros t w Hw. destruct (Nat.lt_ge_cases t (length vals)) as [Ht|Ht].
  - rewrite nth_error_app1 in Hw by lia. rewrite firstn_app.
    replace (t + 1 - length pre) with 0 by lia. cbn [firstn]. rewrite app_nil_r. auto.
  - assert (t = length vals).
    { assert (t < length (vals ++ [v])) by (apply nth_error_Some; congruence).
      rewrite app_length in *; cbn in *; lia. }
    subst t. rewrite nth_error_app2, Nat.sub_diag in Hw by lia. injection Hw as <-.
    rewrite firstn_all2 by (rewrite app_length; cbn; lia). exact Hf'.
Qed.

Lemma pct_change_run m fm fz x0 xs ys sF :
  PctChange 1 fm fz = Some m ->
  run m (x0 :: xs) = Some (ys, sF) ->
  length ys = length (x0 :: xs) /\
  forall t x p, nth_error (x0 :: xs) t = Some x -> last_valid_is (firstn t (x0 :: xs)) p ->
    nth_error ys t = Some (
      if isnan x then (if fz then (if isnan p then NaN else Fin 0) else NaN)
      else if isnan p then NaN else fsub (fdiv x p) (Fin 1)).
Proof.
  intros Hm Hr.
  assert (m = hk_module (fun _ => PctState NaN (buffer_init 2 NaN)) (pct_change_step fz)) as ->.
  { destruct fm; cbn in Hm; congruence. }
  eapply (run_inv _ _ pct_inv) in Hr.
  - destruct Hr as (Hl & _ & Hn). split; auto. intros t x p Hx Hp.
    destruct (Hn t x Hx) as (s & Hi & _ & Hy). rewrite Hy. f_equal.
    destruct Hi as (Hf & vals & Hvl & Hvals & Hb).
    assert (t < length (x0 :: xs)) by (apply nth_error_Some; congruence).
    rewrite firstn_length_le in Hvl by lia.
    unfold pct_change_step, ffill_step. set (v := if isnan x then pct_ffill s else x).
    pose proof (buf_inv_step 2 _ _ _ v ltac:(lia) Hb) as Hb'.
    destruct (buffer_apply 2 (pct_lag s) v) as [b lg] eqn:Eb. cbn [snd fst] in *.
    assert (Hbb : b = buffer lg) by (cbn in Eb; injection Eb as <- <-; reflexivity).
    destruct Hb' as (Hw & _). rewrite <- Hbb in Hw.
    pose proof (window_hd 2 _ _ _ ltac:(lia) Hw) as Hh. rewrite app_length in Hh. cbn [length] in Hh.
    assert (Hprev : hd NaN b = p).
    { destruct t as [|t].
      - assert (vals = []) by (destruct vals; cbn in *; congruence). subst vals. cbn in Hh.
        destruct b; [discriminate|]. injection Hh as ->. cbn.
        eapply last_valid_unique; [apply last_valid_nil|exact Hp].
      - destruct (Nat.ltb_spec (2 - 1) (length vals + 1)); [|lia].
        rewrite nth_error_app1 in Hh by lia.
        destruct (nth_error_lt vals (length vals + 1 - 2)) as [w Hwv]; [lia|].
        rewrite Hwv in Hh. destruct b; [discriminate|]. injection Hh as ->. cbn.
        apply Hvals in Hwv. replace (length vals + 1 - 2 + 1) with (S t) in Hwv by lia.
        rewrite firstn_firstn, Nat.min_id in Hwv. eapply last_valid_unique; eauto. }
    rewrite Hprev. clear - p.
    destruct (isnan x) eqn:Ex.
    + apply isnan_true in Ex; subst x. destruct fz; destruct (isnan p) eqn:Ep; cbn; auto.
    + destruct (isnan p) eqn:Ep; [apply isnan_true in Ep; subst p; destruct fz; destruct x; reflexivity|].
      cbn. destruct fz; reflexivity.
  - split; [apply last_valid_nil|]. exists []. split; auto. split; [|apply buf_inv_init].
    intros [|t] v H; discriminate.
  - apply pct_inv_step.
Qed.

(** ** RollingMean *)
Lemma fadd_0_r x : fadd x (Fin 0) = x.
Proof. destruct x; cbn; auto. f_equal; lra. Qed.

Lemma fold_where l : forall a,
  fold_left fadd (map (fun v => if negb (isnan v) then v else Fin 0) l) a =
  fold_left fadd (filter (fun v => negb (isnan v)) l) a.
Proof.
  induction l as [|x l IH]; intros a; cbn [map filter fold_left]; auto.
  destruct (negb (isnan x)); cbn [fold_left]; auto. rewrite fadd_0_r. apply IH.
Qed.

Lemma fsum_where l :
  fsum (map (fun v => if negb (isnan v) then v else Fin 0) l) = fsum (valid_values l).
Proof. unfold fsum, valid_values. apply fold_where. Qed.

Lemma filter_repeat_nan n : filter (fun v => negb (isnan v)) (repeat NaN n) = [].
Proof. induction n; cbn; auto. Qed.

Lemma rolling_mean_run h mp x0 xs ys sF :
  0 < h ->
  run (RollingMean h mp) (x0 :: xs) = Some (ys, sF) ->
  length ys = length (x0 :: xs) /\
  forall t, t < length (x0 :: xs) ->
    let vs := valid_values (window h t (x0 :: xs)) in
    nth_error ys t = Some (
      if ((1 <=? Z.of_nat (length vs)) && (mp <=? Z.of_nat (length vs)))%Z
      then fdiv (fsum vs) (Fin (INR (length vs))) else NaN).
Proof.
  intros Hh Hr.
  eapply (run_inv _ _ (fun pre st => buf_inv h NaN pre st)) in Hr.
  - destruct Hr as (Hl & _ & Hn). split; auto. intros t Ht vs.
    destruct (nth_error_lt (x0 :: xs) t Ht) as [x Hx].
    destruct (Hn t x Hx) as (s & _ & (Hw & _) & Hy). cbn in Hw. rewrite Hy. f_equal.
    cbn [rolling_mean_step fst buffer_apply].
    apply window_list in Hw. rewrite firstn_length_le in Hw by lia.
    unfold rolling_mean_of. rewrite fsum_where. rewrite Hw.
    assert (E : valid_values (repeat NaN (h - (t + 1)) ++ skipn (t + 1 - h) (firstn (t + 1) (x0 :: xs))) = vs).
    { unfold valid_values. rewrite filter_app, filter_repeat_nan. reflexivity. }
    fold (valid_values (repeat NaN (h - (t + 1)) ++ skipn (t + 1 - h) (firstn (t + 1) (x0 :: xs)))).
    rewrite E.
    rewrite Z.geb_leb. destruct (Z.leb_spec 1 (Z.of_nat (length vs))); cbn [andb]; auto.
    assert (vs = []) as -> by (destruct vs; cbn in *; auto; lia).
    cbn [length INR]. unfold fsum; cbn [fold_left]. destruct (mp <=? Z.of_nat 0)%Z; auto.
    cbn. rewrite Req_b_refl. unfold signed_inf. rewrite Req_b_refl. reflexivity.
  - apply buf_inv_init.
  - intros pre s x H. apply (buf_inv_step h _ pre s x Hh H).
Qed.

(** ** HasChanged *)
Lemma any_neq_spec {A} (neq : A -> A -> bool) a b :
  any_neq neq a b = true <->
  exists i x y, nth_error a i = Some x /\ nth_error b i = Some y /\ neq x y = true.
Proof.
  unfold any_neq. rewrite existsb_exists. split.
  - intros ((x & y) & Hin & H). apply In_nth_error in Hin. destruct Hin as [i Hi].
    exists i, x, y. split; [|split; auto].
    + revert b i Hi; induction a as [|u a IH]; intros [|v b] [|i] Hi; cbn in *; try discriminate;
      [congruence|eauto].
    + revert b i Hi; induction a as [|u a IH]; intros [|v b] [|i] Hi; cbn in *; try discriminate;
      [congruence|eauto].
  - intros (i & x & y & H1 & H2 & H). exists (x, y). split; auto. apply nth_error_In with i.
    revert b i H1 H2; induction a as [|u a IH]; intros [|v b] [|i] H1 H2; cbn in *; try discriminate;
    [congruence|eauto].
Qed.

Lemma has_changed_run {A} (neq : A -> A -> bool) (d : A) x0 xs ys sF :
  run (HasChanged neq d) (x0 :: xs) = Some (ys, sF) ->
  length ys = length (x0 :: xs) /\
  (forall t cur prev, nth_error (x0 :: xs) (t + 1) = Some cur -> nth_error (x0 :: xs) t = Some prev ->
    exists b, nth_error ys (t + 1) = Some b /\
     (b = true <-> exists i x y, nth_error cur i = Some x /\ nth_error prev i = Some y /\ neq x y = true)) /\
  exists b, nth_error ys 0 = Some b /\
    (b = true <-> exists i x, nth_error x0 i = Some x /\ neq x d = true).
Proof.
  intros Hr. apply run_nth in Hr. destruct Hr as (Hl & _ & Hn). split; auto. split.
  - intros t cur prev Hc Hp. rewrite (Hn _ _ Hc).
    assert (E : steps (has_changed_step neq) (map (fun _ => d) x0) (firstn (t + 1) (x0 :: xs)) = prev).
    { rewrite Nat.add_1_r, (firstn_snoc _ _ _ Hp), steps_app. reflexivity. }
    rewrite E. eexists; split; [reflexivity|]. apply any_neq_spec.
  - rewrite (Hn 0 x0 eq_refl). cbn [firstn steps has_changed_step fst]. eexists; split; [reflexivity|].
    rewrite any_neq_spec. split.
    + intros (i & x & y & H1 & H2 & H3). rewrite nth_error_map, H1 in H2. injection H2 as <-. eauto.
    + intros (i & x & H1 & H2). exists i, x, d. rewrite nth_error_map, H1. auto.
Qed.

Lemma fne_spec a b : fne a b = true <-> (a = NaN \/ b = NaN \/ a <> b).
Proof.
  unfold fne. rewrite negb_true_iff. destruct a, b; cbn; split; intros H; auto; try congruence;
    try (destruct H as [H|[H|H]]; congruence); try (right; right; congruence).
  - destruct (Req_b_spec r r0); [congruence|]. right; right; congruence.
  - destruct H as [H|[H|H]]; try congruence. apply Req_b_neq. congruence.
Qed.

(** ** FillNanInf *)
Lemma nan_to_num_cases v x :
  nan_to_num v v v x = if isfinite x then x else v.
Proof. destruct x; reflexivity. Qed.

Lemma fill_nan_inf_leaves v t :
  tree_leaves (fill_nan_inf v t) =
  map (map (fun x => if isfinite x then x else v)) (tree_leaves t) /\
  tree_def (fill_nan_inf v t) = tree_def t.
Proof.
  unfold fill_nan_inf. rewrite tree_leaves_map, tree_def_map. split; auto.
  apply map_ext; intros l; apply map_ext; intros x; apply nan_to_num_cases.
Qed.

Lemma fill_nan_inf_finite v t l x :
  isfinite v = true -> In l (tree_leaves (fill_nan_inf v t)) -> In x l -> isfinite x = true.
Proof.
  intros Hv. rewrite (proj1 (fill_nan_inf_leaves v t)). intros Hin Hx.
  apply in_map_iff in Hin. destruct Hin as (l0 & <- & _). apply in_map_iff in Hx.
  destruct Hx as (y & <- & _). destruct (isfinite y) eqn:E; auto.
Qed.

Lemma fill_nan_inf_idem v t : fill_nan_inf v (fill_nan_inf v t) = fill_nan_inf v t.
Proof.
  apply tree_ext.
  - destruct (fill_nan_inf_leaves v (fill_nan_inf v t)) as [_ ->]. reflexivity.
  - rewrite (proj1 (fill_nan_inf_leaves v (fill_nan_inf v t))), (proj1 (fill_nan_inf_leaves v t)).
    rewrite map_map. apply map_ext; intros l. rewrite map_map. apply map_ext; intros x.
    destruct x; destruct v; reflexivity.
Qed.

(** ** Counter *)
Lemma counter_run n ys sF :
  run Counter (repeat tt (S n)) = Some (ys, sF) ->
  length ys = S n /\
  forall t, t < S n -> nth_error ys t = Some (Z.of_nat (t + 1) mod 2 ^ 32)%Z.
Proof.
  intros Hr. change (repeat tt (S n)) with (tt :: repeat tt n) in Hr.
  eapply (run_inv _ _ (fun pre c => c = (Z.of_nat (length pre) mod 2 ^ 32)%Z)) in Hr.
  - destruct Hr as (Hl & _ & Hn). cbn [length] in Hl. rewrite repeat_length in Hl. split; auto.
    intros t Ht.
    destruct (nth_error_lt (tt :: repeat tt n) t) as [x Hx].
    { cbn. rewrite repeat_length. lia. }
    destruct (Hn t x Hx) as (s & Hi & Hi' & Hy). rewrite Hy. f_equal. cbn [counter_step snd fst] in *.
    rewrite Hi', firstn_length_le; auto. cbn; rewrite repeat_length; lia.
  - reflexivity.
  - intros pre s x ->. cbn [counter_step snd]. rewrite app_length. cbn [length].
    rewrite Zplus_mod_idemp_l. f_equal. lia.
Qed.
