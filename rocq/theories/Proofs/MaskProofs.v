From Coq Require Import List Arith Lia Reals Lra Bool.
From Verif Require Import Model.Tree Model.Float Model.Ewm Model.Masks Spec.MaskSpec Spec.CovSpec
  Proofs.FloatFacts Proofs.ListFacts Proofs.TreeProofs Proofs.EwmcovProofs Proofs.EwmExamples.
Import ListNotations.
Local Open Scope R_scope.

(** *** ApplyMask *)
Definition wh (v : fl) (b : bool) (a : fl) : fl := if b then a else v.

Lemma apply_mask_none v mask x :
  well_shaped mask -> well_shaped x -> shape mask = shape x ->
  exists y, apply_mask None v mask x = Some y /\ shape y = shape x /\ well_shaped y /\
    forall k b a, nth_error (data mask) k = Some b -> nth_error (data x) k = Some a ->
      nth_error (data y) k = Some (if b then a else v).
Proof.
  intros Hm Hx Hs. unfold apply_mask, broadcast_mask.
  destruct (list_eq_dec _ _ _) as [_|E]; [|congruence].
  eexists. split; [reflexivity|]. split; [reflexivity|]. split.
  - unfold well_shaped in *. cbn [shape data]. rewrite length_map2. rewrite Hm, Hx, Hs. lia.
  - intros k b a Hb Ha. cbn [data]. rewrite nth_error_map2, Hb, Ha. reflexivity.
Qed.

Lemma map2_app {A B C} (f : A -> B -> C) x1 : forall y1 x2 y2, length x1 = length y1 ->
  map2 f (x1 ++ x2) (y1 ++ y2) = map2 f x1 y1 ++ map2 f x2 y2.
Proof.
  induction x1 as [|a x1 IH]; intros [|b y1] x2 y2 H; try discriminate; auto.
  simpl. f_equal. apply IH. simpl in H; lia.
Qed.

Lemma axis0_data (v : fl) c m : forall rows, rectangular c rows -> length m = length rows ->
  map2 (wh v) (flat_map (fun b : bool => repeat b c) m) (concat rows) =
  concat (map2 (fun b row => map (wh v b) row) m rows).
Proof.
  induction m as [|b m IH]; intros [|row rows] Hr Hl; try discriminate; auto.
  inversion Hr; subst. cbn [flat_map concat map2].
  rewrite map2_app by (rewrite repeat_length; auto). f_equal.
  - clear. induction row as [|a row IH]; simpl; auto. f_equal; auto.
  - apply IH; auto.
Qed.

Lemma axis1_data (v : fl) m : forall rows, rectangular (length m) rows ->
  map2 (wh v) (concat (repeat m (length rows))) (concat rows) = concat (map (map2 (wh v) m) rows).
Proof.
  induction rows as [|row rows IH]; intros Hr; auto.
  inversion Hr; subst. cbn [length repeat concat map]. rewrite map2_app by auto. f_equal. auto.
Qed.

Lemma apply_mask_axis0 v c m rows :
  rectangular c rows -> length m = length rows ->
  exists rows', apply_mask (Some 0%nat) v (Arr [length m] m) (matrix c rows) = Some (matrix c rows') /\
    length rows' = length rows /\ rectangular c rows' /\
    forall i j b a, nth_error m i = Some b -> nth2 rows i j = Some a ->
      nth2 rows' i j = Some (if b then a else v).
Proof.
  intros Hr Hl. exists (map2 (fun b row => map (wh v b) row) m rows).
  assert (L : length (map2 (fun b row => map (wh v b) row) m rows) = length rows)
    by (rewrite length_map2; lia).
  split; [|split; [exact L|split]].
  - unfold apply_mask, broadcast_mask, matrix. cbn [shape data]. rewrite L, Hl.
    destruct (list_eq_dec _ _ _) as [_|E]; [|congruence].
    change (fun (b : bool) v0 => if b then v0 else v) with (wh v). rewrite axis0_data; auto.
  - unfold rectangular. apply Forall_forall. intros r Hin. apply In_nth_error in Hin.
    destruct Hin as [i Hi]. rewrite nth_error_map2 in Hi.
    destruct (nth_error m i), (nth_error rows i) eqn:E; try discriminate. injection Hi as <-.
    rewrite map_length. apply nth_error_In in E. eapply (proj1 (Forall_forall _ _) Hr); eauto.
  - intros i j b a Hb Ha. unfold nth2 in *. rewrite nth_error_map2, Hb.
    destruct (nth_error rows i) as [row|]; [|discriminate]. rewrite nth_error_map, Ha. reflexivity.
Qed.

Lemma apply_mask_axis1 v m rows :
  rectangular (length m) rows ->
  exists rows', apply_mask (Some 1%nat) v (Arr [length m] m) (matrix (length m) rows) =
      Some (matrix (length m) rows') /\
    length rows' = length rows /\ rectangular (length m) rows' /\
    forall i j b a, nth_error m j = Some b -> nth2 rows i j = Some a ->
      nth2 rows' i j = Some (if b then a else v).
Proof.
  intros Hr. exists (map (map2 (wh v) m) rows).
  split; [|split; [apply map_length|split]].
  - unfold apply_mask, broadcast_mask, matrix. cbn [shape data]. rewrite map_length.
    destruct (list_eq_dec _ _ _) as [_|E]; [|congruence].
    change (fun (b : bool) v0 => if b then v0 else v) with (wh v). rewrite axis1_data; auto.
  - unfold rectangular. apply Forall_map. eapply Forall_impl; [|exact Hr].
    intros r H. cbv beta in *. rewrite length_map2. lia.
  - intros i j b a Hb Ha. unfold nth2 in *. rewrite nth_error_map.
    destruct (nth_error rows i) as [row|]; [|discriminate]. cbn [option_map].
    rewrite nth_error_map2, Hb, Ha. reflexivity.
Qed.

Lemma apply_mask_raises axis v mask x :
  apply_mask axis v mask x = None <->
  match axis with
  | None => shape x <> shape mask
  | Some 0%nat => ~ exists c, shape x = [length (data mask); c]
  | Some 1%nat => ~ exists r, shape x = [r; length (data mask)]
  | Some _ => True
  end.
Proof.
  unfold apply_mask, broadcast_mask.
  destruct axis as [[|[|a]]|].
  - destruct (shape x) as [|r [|c s]].
    + split; auto. intros _ [? ?]; discriminate.
    + split; auto. intros _ [? ?]; discriminate.
    + cbn [shape]. destruct (list_eq_dec _ _ _) as [E|E].
      * split; [discriminate|]. intros H; exfalso; apply H. exists c. exact E.
      * split; auto. intros _ [c' E']. apply E. congruence.
  - destruct (shape x) as [|r s].
    + split; auto. intros _ [? ?]; discriminate.
    + cbn [shape]. destruct (list_eq_dec _ _ _) as [E|E].
      * split; [discriminate|]. intros H; exfalso; apply H. exists r. exact E.
      * split; auto. intros _ [c' E']. apply E. congruence.
  - tauto.
  - destruct (list_eq_dec _ _ _) as [E|E]; split; try discriminate; auto; congruence.
Qed.

Lemma F2_length {A B} (P : A -> B -> Prop) l1 l2 : Forall2 P l1 l2 -> length l1 = length l2.
Proof. induction 1; simpl; auto. Qed.

Lemma tree_mapM_spec {L M} (f : L -> option M) t : forall t',
  tree_mapM f t = Some t' <->
  tree_def t' = tree_def t /\ Forall2 (fun a b => f a = Some b) (tree_leaves t) (tree_leaves t').
Proof.
  induction t as [l|cs IH] using tree_ind'; intros t'.
  - cbn [tree_mapM]. destruct (f l) as [m|] eqn:E; cbn [option_map]; split.
    + intros H. injection H as <-. split; auto. constructor; auto.
    + intros [Hd Hf]. destruct t' as [m'|]; [|discriminate]. cbn in Hf. inversion Hf; subst. congruence.
    + discriminate.
    + intros [Hd Hf]. destruct t' as [m'|]; [|discriminate]. cbn in Hf. inversion Hf; subst. congruence.
  - cbn [tree_mapM].
    set (go := fix go cs0 := match cs0 with [] => Some [] | c0 :: cs' => _ end).
    assert (G : forall ts, go cs = Some ts <->
       map tree_def ts = map tree_def cs /\
       Forall2 (fun a b => f a = Some b) (flat_map tree_leaves cs) (flat_map tree_leaves ts)).
    { induction IH as [|c cs Hc _ IH]; intros ts.
      - cbn. split.
        + intros H. injection H as <-. split; [reflexivity|constructor].
        + intros [H _]. destruct ts; [reflexivity|discriminate].
      - change (go (c :: cs)) with (match tree_mapM f c, go cs with Some a, Some b => Some (a :: b) | _, _ => None end).
        split.
        + destruct (tree_mapM f c) as [a|] eqn:E1; [|discriminate].
          destruct (go cs) as [b|] eqn:E2; [|discriminate]. intros H; injection H as <-.
          destruct (proj1 (Hc a) eq_refl) as [D1 F1]. destruct (proj1 (IH b) eq_refl) as [D2 F2].
          cbn [map flat_map]. split; [congruence|]. apply Forall2_app; auto.
        + intros [D F]. destruct ts as [|t ts]; [discriminate|]. cbn [map] in D. injection D as D1 D2.
          cbn [flat_map] in F.
          apply Forall2_app_inv_l in F. destruct F as (l1 & l2 & F1 & F2 & E).
          assert (l1 = tree_leaves t /\ l2 = flat_map tree_leaves ts) as [-> ->].
          { assert (LL : length l1 = length (tree_leaves t)).
            { rewrite <- (F2_length _ _ _ F1). rewrite <- (tree_leaves_def_length c), <- (tree_leaves_def_length t), D1. auto. }
            symmetry in E. split.
            - apply (f_equal (firstn (length l1))) in E. rewrite LL in E at 2.
              rewrite !firstn_app, !firstn_all, !Nat.sub_diag in E. simpl in E. rewrite !app_nil_r in E. auto.
            - apply (f_equal (skipn (length l1))) in E. rewrite LL in E at 2.
              rewrite !skipn_app, !skipn_all, !Nat.sub_diag in E. simpl in E. auto. }
          rewrite (proj2 (Hc t)) by auto. rewrite (proj2 (IH ts)) by auto. reflexivity. }
    split.
    + destruct (go cs) as [ts|] eqn:E; [|discriminate]. intros H; injection H as <-.
      destruct (proj1 (G ts) eq_refl) as [D F]. split; [|exact F]. unfold tree_def in *. cbn [tree_map].
      f_equal. exact D.
    + intros [D F]. destruct t' as [|ts]; [discriminate|]. unfold tree_def in D. cbn [tree_map] in D.
      injection D as D. rewrite (proj2 (G ts)); auto.
Qed.

(** *** Reductions *)
Section Cells.
  Variables (fm : R) (mask : list bool) (x : list fl) (n : nat).
  Hypotheses (Hm : length mask = n) (Hx : length x = n).
  Definition mk k := nth k mask false.
  Definition cv k := contribution fm (nth k x NaN).
  Definition filled : list fl :=
    map (nan_to_num (Fin 0) (Fin fm) (Fin (- fm))) (map2 (wh (Fin 0)) mask x).

  Lemma n2n v : nan_to_num (Fin 0) (Fin fm) (Fin (- fm)) v = Fin (contribution fm v).
  Proof. destruct v; reflexivity. Qed.

  Lemma filled_nth k : (k < n)%nat -> nth_error filled k = Some (Fin (if mk k then cv k else 0)).
  Proof.
    intros H. unfold filled. rewrite nth_error_map, nth_error_map2.
    rewrite (nth_error_nth_lt mask k false), (nth_error_nth_lt x k NaN) by lia.
    cbn [option_map]. f_equal. unfold wh, mk, cv. destruct (nth k mask false); [apply n2n|reflexivity].
  Qed.
  Lemma filled_length : length filled = n.
  Proof. unfold filled. rewrite map_length, length_map2. lia. Qed.

  Lemma total_filter (g : nat -> R) cell :
    total (map (fun k => if mk k then g k else 0) cell) = total (map g (filter mk cell)).
  Proof.
    induction cell as [|k cell IH]; simpl; auto. destruct (mk k); simpl; rewrite IH; lra.
  Qed.

  Lemma fsum_total cell (E : list fl) (g : nat -> R) d :
    (forall k, In k cell -> nth_error E k = Some (Fin (g k))) ->
    fsum (map (fun k => nth k E d) cell) = Fin (total (map g cell)).
  Proof.
    intros H. rewrite <- fsum_Fin. f_equal. rewrite map_map. apply map_ext_in. intros k Hk.
    apply nth_error_nth. auto.
  Qed.

  Definition in_range (cell : list nat) := forall k, In k cell -> (k < n)%nat.

  Lemma sum_cell cell : in_range cell ->
    fsum (map (fun k => nth k filled (Fin 0)) cell) = Fin (total (map cv (filter mk cell))).
  Proof.
    intros H. rewrite <- total_filter. apply fsum_total. intros k Hk. apply filled_nth. auto.
  Qed.

  Lemma mean_cell cell :
    fdiv (Fin (total (map cv (filter mk cell)))) (Fin (INR (length (filter mk cell)))) =
    mean_or_nan (map cv (filter mk cell)).
  Proof.
    clear Hm Hx. destruct (filter mk cell) as [|k r].
    - simpl. rewrite Req_b_refl. unfold signed_inf. rewrite Req_b_refl. auto.
    - rewrite fdiv_Fin.
      + unfold mean_or_nan, mean_of. rewrite map_length. reflexivity.
      + apply not_0_INR. simpl. lia.
  Qed.

  (** squares: [E] holds, on the selected cells, Fin (h k) *)
  Definition squares (E : list fl) : list fl :=
    map (fun v => fmul v v) (map2 (wh (Fin 0)) mask E).
  Lemma squares_cell (E : list fl) (h : nat -> R) cell : length E = n ->
    in_range cell -> (forall k, In k cell -> mk k = true -> nth_error E k = Some (Fin (h k))) ->
    fsum (map (fun k => nth k (squares E) (Fin 0)) cell) =
    Fin (total (map (fun k => h k ^ 2) (filter mk cell))).
  Proof.
    intros HE H HH. rewrite <- total_filter. apply fsum_total. intros k Hk.
    unfold squares. rewrite nth_error_map, nth_error_map2.
    rewrite (nth_error_nth_lt mask k false) by (rewrite Hm; auto).
    specialize (HH k Hk). unfold mk in *.
    destruct (nth k mask false).
    - rewrite HH by auto. cbn. f_equal. f_equal. ring.
    - rewrite (nth_error_nth_lt E k NaN) by (rewrite HE; auto). cbn. do 2 f_equal. ring.
  Qed.

  Lemma std_cell eps (q : nat -> R) cell :
    0 <= eps ->
    (fun v => if flt (Fin 0) v then fsqrt (fadd (Fin eps) v) else Fin 0)
     (fdiv (Fin (total (map q (filter mk cell)))) (Fin (INR (length (filter mk cell))))) =
    std_of eps (mean_of (map q (filter mk cell))) (map cv (filter mk cell)).
  Proof.
    clear Hm Hx. intros He. cbv beta. destruct (filter mk cell) as [|k r] eqn:E.
    - simpl. rewrite Req_b_refl. unfold signed_inf. rewrite Req_b_refl. reflexivity.
    - rewrite fdiv_Fin by (apply not_0_INR; simpl; lia).
      replace (total (map q (k :: r)) / INR (length (k :: r))) with (mean_of (map q (k :: r)))
        by (unfold mean_of; rewrite map_length; auto).
      set (v := mean_of _). change (std_of eps v (map cv (k :: r))) with (if Rlt_b 0 v then Fin (sqrt (eps + v)) else Fin 0).
      change (flt (Fin 0) (Fin v)) with (Rlt_b 0 v).
      destruct (Rlt_b_spec 0 v); auto. apply fsqrt_Fin. lra.
  Qed.
End Cells.

Lemma selected_cell {A} (mask : list bool) (x : list A) d cell :
  selected (map (fun k => nth k mask false) cell) (map (fun k => nth k x d) cell) =
  map (fun k => nth k x d) (filter (mk mask) cell).
Proof.
  induction cell as [|k cell IH]; simpl; auto. unfold mk at 1. destruct (nth k mask false); simpl; f_equal; auto.
Qed.

Lemma cv_selected fm mask x cell :
  map (cv fm x) (filter (mk mask) cell) =
  map (contribution fm) (selected (map (fun k => nth k mask false) cell) (map (fun k => nth k x NaN) cell)).
Proof. rewrite selected_cell, map_map. reflexivity. Qed.

Lemma map_nth_seq {A} (l : list A) d : map (fun k => nth k l d) (seq 0 (length l)) = l.
Proof.
  apply nth_error_ext. intros i. rewrite nth_error_map.
  destruct (Nat.lt_ge_cases i (length l)) as [H|H].
  - rewrite (nth_error_nth_lt (seq 0 (length l)) i 0%nat) by (rewrite seq_length; auto).
    rewrite seq_nth by auto. cbn. symmetry. apply nth_error_nth_lt. auto.
  - rewrite (proj2 (nth_error_None _ i)) by (rewrite seq_length; auto).
    symmetry. apply nth_error_None. auto.
Qed.

Lemma nth_concat {A} c (rows : list (list A)) i j d : rectangular c rows -> (j < c)%nat ->
  nth (i * c + j) (concat rows) d = nth j (nth i rows []) d.
Proof.
  intros Hr Hj. revert i. induction Hr as [|r rows H Hr IH]; intros i.
  - simpl. destruct (i * c + j)%nat, i, j; auto.
  - simpl concat. destruct i as [|i].
    + simpl. apply app_nth1. lia.
    + replace (S i * c + j)%nat with (length r + (i * c + j))%nat by (rewrite H; lia).
      rewrite app_nth2_plus. apply IH.
Qed.

Lemma col_cell {A} (d : A) c rows j : rectangular c rows -> (j < c)%nat ->
  map (fun k => nth k (concat rows) d) (map (fun i => i * c + j)%nat (seq 0 (length rows))) = col d j rows.
Proof.
  intros Hr Hj. rewrite map_map. unfold col.
  rewrite <- (map_nth_seq rows []) at 2. rewrite map_map. apply map_ext. intros i. apply nth_concat; auto.
Qed.

Lemma row_cell {A} (d : A) c rows i : rectangular c rows -> (i < length rows)%nat ->
  map (fun k => nth k (concat rows) d) (map (fun j => i * c + j)%nat (seq 0 c)) = nth i rows [].
Proof.
  intros Hr Hi. rewrite map_map.
  assert (L : length (nth i rows []) = c).
  { apply (proj1 (Forall_forall _ _) Hr). apply nth_In; auto. }
  rewrite <- (map_nth_seq (nth i rows []) d) at 1. rewrite L. apply map_ext_in. intros j Hj.
  apply in_seq in Hj. apply nth_concat; auto. lia.
Qed.

Lemma length_concat {A} c (rows : list (list A)) : rectangular c rows ->
  length (concat rows) = (length rows * c)%nat.
Proof. induction 1 as [|r rows H _ IH]; simpl; auto. rewrite app_length, IH. lia. Qed.

(** General form of the two statistics over the cells of an axis. *)
Lemma map2_map {A B C D E} (f : D -> E -> C) (g : A -> D) (h : B -> E) x : forall y,
  map2 f (map g x) (map h y) = map2 (fun a b => f (g a) (h b)) x y.
Proof. induction x as [|a x IH]; intros [|b y]; simpl; auto. f_equal; auto. Qed.
Lemma map2_diag {A C} (f : A -> A -> C) x : map2 f x x = map (fun a => f a a) x.
Proof. induction x as [|a x IH]; simpl; auto. f_equal; auto. Qed.
Lemma map2_self {A B C D} (f : B -> C -> D) (g : A -> B) (h : A -> C) x :
  map2 f (map g x) (map h x) = map (fun a => f (g a) (h a)) x.
Proof. rewrite map2_map, map2_diag. auto. Qed.

Definition all_in_range n (cells : list (list nat)) := Forall (in_range n) cells.

Lemma mask_mean_cells fm axis mask x sh cells :
  well_shaped mask -> well_shaped x -> shape mask = shape x ->
  axis_cells axis (shape x) = Some (sh, cells) -> all_in_range (size (shape x)) cells ->
  mask_mean fm axis mask x =
  Some (Arr sh (map (fun cell => mean_or_nan (map (cv fm (data x)) (filter (mk (data mask)) cell))) cells)).
Proof.
  intros Hm Hx Hs Hc Hr. unfold mask_mean, apply_mask, broadcast_mask.
  destruct (list_eq_dec _ _ _) as [_|E]; [|congruence]. cbn [bind].
  unfold count_axis, sum_axis, fill_nans, arr_map. cbn [shape data]. rewrite Hs, Hc. cbn [bind data shape].
  rewrite map2_self. do 2 f_equal. apply map_ext_in. intros cell Hin.
  pose proof (proj1 (Forall_forall _ _) Hr _ Hin) as Hcell.
  change (fun (b : bool) (v : fl) => if b then v else Fin 0) with (wh (Fin 0)).
  change (map _ (map2 (wh (Fin 0)) (data mask) (data x))) with (filled fm (data mask) (data x)).
  rewrite (sum_cell fm (data mask) (data x) (size (shape x))); auto.
  - apply mean_cell.
  - rewrite <- Hs. exact Hm.
Qed.

Lemma none_cells s : all_in_range (size s) [seq 0 (size s)].
Proof. constructor; [|constructor]. intros k Hk. apply in_seq in Hk. lia. Qed.

Lemma axis0_cells r c : all_in_range (size [r; c]) (map (fun j => map (fun i => i * c + j)%nat (seq 0 r)) (seq 0 c)).
Proof.
  apply Forall_map, Forall_forall. intros j Hj. apply in_seq in Hj. intros k Hk.
  apply in_map_iff in Hk. destruct Hk as (i & <- & Hi). apply in_seq in Hi. cbn. nia.
Qed.
Lemma axis1_cells r c : all_in_range (size [r; c]) (map (fun i => map (fun j => i * c + j)%nat (seq 0 c)) (seq 0 r)).
Proof.
  apply Forall_map, Forall_forall. intros j Hj. apply in_seq in Hj. intros k Hk.
  apply in_map_iff in Hk. destruct Hk as (i & <- & Hi). apply in_seq in Hi. cbn. nia.
Qed.

Lemma matrix_shaped {A} c (rows : list (list A)) : rectangular c rows -> well_shaped (matrix c rows).
Proof. intros H. unfold well_shaped, matrix. cbn [data shape]. rewrite (length_concat c) by auto. cbn. lia. Qed.

Lemma mask_mean_none fm mask x :
  well_shaped mask -> well_shaped x -> shape mask = shape x ->
  mask_mean fm None mask x =
  Some (Arr [] [mean_or_nan (map (contribution fm) (selected (data mask) (data x)))]).
Proof.
  intros Hm Hx Hs. rewrite (mask_mean_cells fm None mask x [] [seq 0 (size (shape x))]); auto using none_cells.
  cbn [map]. rewrite cv_selected.
  rewrite <- Hx at 2. rewrite map_nth_seq. rewrite <- Hs, <- Hm, map_nth_seq. reflexivity.
Qed.

Lemma mask_mean_axis0 fm c ms rows :
  rectangular c ms -> rectangular c rows -> length ms = length rows ->
  mask_mean fm (Some 0%nat) (matrix c ms) (matrix c rows) =
  Some (Arr [c] (map (fun j => mean_or_nan (map (contribution fm)
      (selected (col false j ms) (col NaN j rows)))) (seq 0 c))).
Proof.
  intros Hm Hx Hl. erewrite mask_mean_cells; try apply matrix_shaped; auto.
  2:{ cbn [matrix shape]. congruence. }
  2:{ cbn [matrix shape axis_cells]. reflexivity. }
  2:{ apply axis0_cells. }
  rewrite map_map. do 2 f_equal. apply map_ext_in. intros j Hj. apply in_seq in Hj.
  rewrite cv_selected. cbn [matrix data]. rewrite col_cell by (auto; lia). rewrite <- Hl.
  rewrite col_cell by (auto; lia). reflexivity.
Qed.

Lemma map_seq_map2 {A B C} (f : A -> B -> C) a b x : forall y, length x = length y ->
  map (fun i => f (nth i x a) (nth i y b)) (seq 0 (length x)) = map2 f x y.
Proof.
  intros y H. transitivity (map2 f (map (fun k => nth k x a) (seq 0 (length x))) (map (fun k => nth k y b) (seq 0 (length y)))).
  - rewrite <- H. rewrite map2_self. auto.
  - rewrite !map_nth_seq. auto.
Qed.

Lemma mask_mean_axis1 fm c ms rows :
  rectangular c ms -> rectangular c rows -> length ms = length rows ->
  mask_mean fm (Some 1%nat) (matrix c ms) (matrix c rows) =
  Some (Arr [length rows] (map2 (fun m r => mean_or_nan (map (contribution fm) (selected m r))) ms rows)).
Proof.
  intros Hm Hx Hl. erewrite mask_mean_cells; try apply matrix_shaped; auto.
  2:{ cbn [matrix shape]. congruence. }
  2:{ cbn [matrix shape axis_cells]. reflexivity. }
  2:{ apply axis1_cells. }
  rewrite map_map. do 2 f_equal. rewrite <- (map_seq_map2 _ [] []) by auto. rewrite Hl.
  apply map_ext_in. intros i Hi. apply in_seq in Hi.
  rewrite cv_selected. cbn [matrix data]. rewrite !row_cell by (auto; lia). reflexivity.
Qed.

(** *** Standard deviation *)
Lemma std_general fm eps axis centered mask x sh cells :
  0 <= eps ->
  well_shaped mask -> well_shaped x -> shape mask = shape x ->
  axis_cells axis (shape x) = Some (sh, cells) -> all_in_range (size (shape x)) cells ->
  (centered = true \/
   exists E, broadcast2 fsub (Arr (shape x) (filled fm (data mask) (data x)))
      (Arr sh (map (fun cell => mean_or_nan (map (cv fm (data x)) (filter (mk (data mask)) cell))) cells))
      = Some (Arr (shape x) E) /\ length E = size (shape x) /\
     forall cell k, In cell cells -> In k cell -> mk (data mask) k = true ->
       nth_error E k = Some (Fin (cv fm (data x) k - mean_of (map (cv fm (data x)) (filter (mk (data mask)) cell))))) ->
  mask_std fm eps axis centered mask x =
  Some (Arr sh (map (fun cell =>
    let l := map (cv fm (data x)) (filter (mk (data mask)) cell) in
    std_of eps (if centered then second_moment l else var_of l) l) cells)).
Proof.
  intros He Hm Hx Hs Hc Hr HB. unfold mask_std, apply_mask, broadcast_mask.
  destruct (list_eq_dec _ _ _) as [_|E0]; [|congruence]. cbn [bind].
  unfold count_axis, sum_axis, fill_nans, arr_map. cbn [shape data]. rewrite Hs, Hc. cbn [bind data shape].
  rewrite map2_self.
  change (fun (b : bool) (v : fl) => if b then v else Fin 0) with (wh (Fin 0)).
  change (map _ (map2 (wh (Fin 0)) (data mask) (data x))) with (filled fm (data mask) (data x)).
  assert (Hm' : length (data mask) = size (shape x)) by (rewrite <- Hs; exact Hm).
  rewrite (map_ext_in (fun a => fdiv _ _) (fun cell => mean_or_nan (map (cv fm (data x)) (filter (mk (data mask)) cell)))).
  2:{ intros cell Hin. pose proof (proj1 (Forall_forall _ _) Hr _ Hin) as Hcell.
      rewrite (sum_cell fm (data mask) (data x) (size (shape x))); auto. apply (mean_cell fm (data mask) (data x)). }
  assert (HD : exists E h, (if centered then Some (Arr (shape x) (filled fm (data mask) (data x))) else
      broadcast2 fsub (Arr (shape x) (filled fm (data mask) (data x)))
      (Arr sh (map (fun cell => mean_or_nan (map (cv fm (data x)) (filter (mk (data mask)) cell))) cells)))
      = Some (Arr (shape x) E) /\ length E = size (shape x) /\
     forall cell k, In cell cells -> In k cell -> mk (data mask) k = true ->
       nth_error E k = Some (Fin (h cell k)) /\
       (h cell k) ^ 2 = (if centered then cv fm (data x) k ^ 2 else
          (cv fm (data x) k - mean_of (map (cv fm (data x)) (filter (mk (data mask)) cell))) ^ 2)).
  { destruct centered.
    - exists (filled fm (data mask) (data x)), (fun _ k => cv fm (data x) k).
      split; [auto|]. split; [apply filled_length; auto|].
      intros cell k Hin Hk Hmk. split; auto.
      rewrite (filled_nth fm (data mask) (data x) (size (shape x))); auto. { rewrite Hmk; auto. }
      apply (proj1 (Forall_forall _ _) Hr _ Hin); auto.
    - destruct HB as [HB|(E & HB & HE & HH)]; [discriminate|].
      exists E, (fun cell k => cv fm (data x) k - mean_of (map (cv fm (data x)) (filter (mk (data mask)) cell))).
      split; auto. }
  destruct HD as (E & h & -> & HE & HH). cbn [bind shape data].
  destruct (list_eq_dec _ _ _) as [_|E0]; [|congruence]. cbn [bind shape data]. rewrite Hc.
  cbn [bind shape data]. rewrite map2_self, map_map. do 2 f_equal. apply map_ext_in. intros cell Hin.
  pose proof (proj1 (Forall_forall _ _) Hr _ Hin) as Hcell.
  change (map (fun v => fmul v v) (map2 (wh (Fin 0)) (data mask) E)) with (squares (data mask) E).
  rewrite (squares_cell (data mask) (size (shape x)) Hm' E (h cell) cell); auto.
  2:{ intros k Hk Hmk. apply HH; auto. }
  change (fun k => nth k (data mask) false) with (mk (data mask)).
  rewrite (std_cell fm (data mask) (data x) eps (fun k => h cell k ^ 2) cell He).
  cbv zeta. f_equal. unfold second_moment, var_of.
  destruct centered; rewrite map_map; f_equal; apply map_ext_in; intros k Hk; apply filter_In in Hk;
    destruct Hk; apply (HH cell k); auto.
Qed.

Lemma mean_or_nan_nonempty fm mask x cell k : In k cell -> mk mask k = true ->
  mean_or_nan (map (cv fm x) (filter (mk mask) cell)) = Fin (mean_of (map (cv fm x) (filter (mk mask) cell))).
Proof.
  intros H1 H2. destruct (filter (mk mask) cell) as [|a l] eqn:E; auto.
  assert (In k (filter (mk mask) cell)) as H by (apply filter_In; auto). rewrite E in H. destruct H.
Qed.

Lemma mask_std_none fm eps centered mask x :
  0 <= eps -> well_shaped mask -> well_shaped x -> shape mask = shape x ->
  mask_std fm eps None centered mask x =
  let l := map (contribution fm) (selected (data mask) (data x)) in
  Some (Arr [] [std_of eps (if centered then second_moment l else var_of l) l]).
Proof.
  intros He Hm Hx Hs.
  rewrite (std_general fm eps None centered mask x [] [seq 0 (size (shape x))]); auto using none_cells.
  - cbn [map]. rewrite cv_selected.
    assert (E1 : map (fun k => nth k (data x) NaN) (seq 0 (size (shape x))) = data x)
      by (rewrite <- Hx; apply map_nth_seq).
    assert (E2 : map (fun k => nth k (data mask) false) (seq 0 (size (shape x))) = data mask)
      by (rewrite <- Hs, <- Hm; apply map_nth_seq).
    rewrite !E1, !E2. reflexivity.
  - right. unfold broadcast2. cbn [shape data]. eexists. split; [reflexivity|].
    assert (Hm' : length (data mask) = size (shape x)) by (rewrite <- Hs; exact Hm).
    split. { rewrite map_length. apply filled_length; auto. }
    intros cell k [<-|[]] Hk Hmk. rewrite nth_error_map.
    pose proof Hk as Hk'. apply in_seq in Hk'.
    rewrite (filled_nth fm (data mask) (data x) (size (shape x))) by (auto; lia). rewrite Hmk. cbn [option_map map nth].
    rewrite (mean_or_nan_nonempty fm (data mask) (data x) _ k); auto.
Qed.

Lemma mask_std_axis0 fm eps centered c ms rows :
  0 <= eps -> rectangular c ms -> rectangular c rows -> length ms = length rows ->
  mask_std fm eps (Some 0%nat) centered (matrix c ms) (matrix c rows) =
  Some (Arr [c] (map (fun j =>
      let l := map (contribution fm) (selected (col false j ms) (col NaN j rows)) in
      std_of eps (if centered then second_moment l else var_of l) l) (seq 0 c))).
Proof.
  intros He Hm Hx Hl. erewrite (std_general fm eps (Some 0%nat) centered (matrix c ms) (matrix c rows));
    try apply matrix_shaped; auto.
  2:{ cbn [matrix shape]. congruence. }
  2:{ cbn [matrix shape axis_cells]. reflexivity. }
  2:{ apply axis0_cells. }
  { rewrite map_map. do 2 f_equal. apply map_ext_in. intros j Hj. apply in_seq in Hj.
    rewrite cv_selected. cbn [matrix data]. rewrite !(col_cell NaN) by (auto; lia).
    rewrite <- Hl. rewrite !(col_cell false) by (auto; lia). reflexivity. }
  right. unfold broadcast2. cbn [matrix shape data]. rewrite Nat.eqb_refl.
  eexists. split; [reflexivity|]. split. { rewrite map_length, seq_length. cbn. lia. }
  intros cell k Hcell Hk Hmk. rewrite nth_error_map.
  apply in_map_iff in Hcell. destruct Hcell as (j & <- & Hj). apply in_seq in Hj.
  pose proof Hk as Hk'. apply in_map_iff in Hk'. destruct Hk' as (i & <- & Hi). apply in_seq in Hi.
  set (cell := map (fun i0 => (i0 * c + j)%nat) (seq 0 (length rows))) in *.
  assert (B : (i * c + j < length rows * c)%nat) by nia.
  rewrite (nth_error_nth_lt (seq 0 (length rows * c)) _ 0%nat) by (rewrite seq_length; auto).
  rewrite seq_nth by auto. cbn [option_map Nat.add]. do 1 f_equal.
  rewrite (nth_error_nth _ _ _ (filled_nth fm (concat ms) (concat rows) (length rows * c)
     ltac:(rewrite (length_concat c); [congruence|auto]) ltac:(apply length_concat; auto) _ B)).
  rewrite Hmk. rewrite map_map.
  replace ((i * c + j) mod c)%nat with j
    by (rewrite Nat.add_comm, Nat.mod_add, Nat.mod_small by lia; auto).
  erewrite nth_indep by (rewrite map_length, seq_length; lia).
  rewrite map_nth with (f := fun j0 => mean_or_nan (map (cv fm (concat rows)) (filter (mk (concat ms)) (map (fun i0 => (i0 * c + j0)%nat) (seq 0 (length rows)))))) (d := 0%nat).
  rewrite seq_nth by lia. cbn [Nat.add]. fold cell.
  rewrite (mean_or_nan_nonempty fm _ _ cell (i * c + j)%nat); auto.
Qed.

Lemma mask_std_axis1_centered fm eps c ms rows :
  0 <= eps -> rectangular c ms -> rectangular c rows -> length ms = length rows ->
  mask_std fm eps (Some 1%nat) true (matrix c ms) (matrix c rows) =
  Some (Arr [length rows] (map2 (fun m r =>
      let l := map (contribution fm) (selected m r) in std_of eps (second_moment l) l) ms rows)).
Proof.
  intros He Hm Hx Hl. erewrite std_general; try apply matrix_shaped; auto.
  2:{ cbn [matrix shape]. congruence. }
  2:{ cbn [matrix shape axis_cells]. reflexivity. }
  2:{ apply axis1_cells. }
  rewrite map_map. do 2 f_equal. rewrite <- (map_seq_map2 _ [] []) by auto. rewrite Hl.
  apply map_ext_in. intros i Hi. apply in_seq in Hi.
  rewrite cv_selected. cbn [matrix data]. rewrite !row_cell by (auto; lia). reflexivity.
Qed.

Lemma mask_std_axis1_raises fm eps c ms rows :
  rectangular c ms -> rectangular c rows -> length ms = length rows ->
  length rows <> 1%nat -> length rows <> c ->
  mask_std fm eps (Some 1%nat) false (matrix c ms) (matrix c rows) = None.
Proof.
  intros Hm Hx Hl H1 H2. unfold mask_std, apply_mask, broadcast_mask. cbn [matrix shape data]. rewrite Hl.
  destruct (list_eq_dec _ _ _) as [_|E]; [|congruence]. cbn [bind].
  unfold count_axis, sum_axis, fill_nans, arr_map. cbn [shape data axis_cells bind broadcast2].
  unfold broadcast2. cbn [shape data].
  rewrite (proj2 (Nat.eqb_neq _ _)) by auto. rewrite (proj2 (Nat.eqb_neq (length rows) 1)) by auto.
  destruct (Nat.eqb_spec c 1) as [->|Hc]; cbn [bind]; auto.
  cbn [shape]. destruct (list_eq_dec _ _ _) as [E|E]; auto. injection E as E. congruence.
Qed.

(** Masked values do not matter. *)
Lemma apply_mask_same mask x x' v :
  well_shaped mask -> well_shaped x -> well_shaped x' -> same_where mask x x' ->
  apply_mask None v mask x = apply_mask None v mask x'.
Proof.
  intros Hm Hx Hx' [Hs H]. unfold apply_mask, broadcast_mask. rewrite <- Hs.
  destruct (list_eq_dec _ _ _) as [E|E]; auto. do 2 f_equal. apply nth_error_ext. intros k.
  rewrite !nth_error_map2. destruct (nth_error (data mask) k) as [[|]|] eqn:Ek; auto.
  - rewrite H by auto. auto.
  - assert (length (data x) = length (data x')) as L by (rewrite Hx, Hx', Hs; auto).
    destruct (nth_error (data x) k) eqn:E1, (nth_error (data x') k) eqn:E2; auto.
    + apply nth_error_None in E2. assert (k < length (data x))%nat by (apply nth_error_Some; congruence). lia.
    + apply nth_error_None in E1. assert (k < length (data x'))%nat by (apply nth_error_Some; congruence). lia.
Qed.

Lemma mask_stats_same fm eps axis centered mask x x' :
  well_shaped mask -> well_shaped x -> well_shaped x' -> same_where mask x x' ->
  mask_mean fm axis mask x = mask_mean fm axis mask x' /\
  mask_std fm eps axis centered mask x = mask_std fm eps axis centered mask x'.
Proof.
  intros Hm Hx Hx' H. unfold mask_mean, mask_std. rewrite (apply_mask_same mask x x' (Fin 0)) by auto. auto.
Qed.

(** MaskNormalize *)
Lemma broadcast2_none f x m : shape m = [] -> broadcast2 f x m = Some (Arr (shape x) (map (fun v => f v (nth 0 (data m) NaN)) (data x))).
Proof. destruct m as [s d]. cbn. intros ->. auto. Qed.

Lemma mask_normalize_none fm eps centered mask x :
  0 <= eps -> well_shaped mask -> well_shaped x -> shape mask = shape x ->
  exists y, mask_normalize fm eps None centered mask x = Some y /\ shape y = shape x /\
    length (data y) = length (data x) /\
    let l := map (contribution fm) (selected (data mask) (data x)) in
    let v := if centered then second_moment l else var_of l in
    forall k a, nth_error (data x) k = Some a ->
      nth_error (data y) k = Some (Fin (match a with
        | Fin r => if Rlt_b 0 v then match l with [] => 0 | _ => r / sqrt (eps + v) end else 0
        | _ => 0 end)).
Proof.
  intros He Hm Hx Hs. unfold mask_normalize. rewrite mask_std_none by auto. cbv zeta. cbn [bind].
  rewrite broadcast2_none by reflexivity. cbn [bind]. eexists. split; [reflexivity|].
  unfold arr_map. cbn [shape data]. split; auto. split; [rewrite !map_length; auto|].
  intros k a Ha. rewrite !nth_error_map, Ha. cbn [option_map nth]. f_equal.
  unfold std_of.
  set (v := if centered then _ else _). set (l := map (contribution fm) _).
  destruct l as [|r0 l'].
  - destruct a as [| | |r]; cbn; rewrite ?Req_b_refl, ?Rlt_b_false by lra; auto.
    unfold signed_inf. destruct (Req_b r 0); [|destruct (Rlt_b 0 r)]; destruct (Rlt_b 0 v); auto.
  - destruct (Rlt_b_spec 0 v) as [Hv|Hv].
    + assert (sqrt (eps + v) > 0) by (apply sqrt_lt_R0; lra).
      destruct a as [| | |r]; cbn; rewrite ?Rlt_b_false, ?Req_b_neq by lra; auto.
    + destruct a as [| | |r]; cbn; rewrite ?Rlt_b_false, ?Req_b_refl by lra; auto.
      unfold signed_inf. destruct (Req_b r 0); [|destruct (Rlt_b 0 r)]; auto.
Qed.

Lemma mask_normalize_finite fm eps axis centered mask x y :
  mask_normalize fm eps axis centered mask x = Some y -> Forall (fun v => isfinite v = true) (data y).
Proof.
  unfold mask_normalize. destruct (mask_std _ _ _ _ _ _) as [s|]; [|discriminate]. cbn [bind].
  destruct (broadcast2 _ _ _) as [q|]; [|discriminate]. cbn [bind]. intros H; injection H as <-.
  unfold arr_map. cbn [data]. apply Forall_map, Forall_forall. intros v _. destruct v; reflexivity.
Qed.

Lemma mask_std_axis1_wrong : exists y,
  mask_std 1000 0 (Some 1%nat) false (matrix 2 [[true; true]; [true; true]])
    (matrix 2 [[Fin 1; Fin 3]; [Fin 5; Fin 9]]) = Some y /\
  data y = [Fin (sqrt (17/2)); Fin (sqrt (13/2))] /\
  std_of 0 (var_of [1; 3]) [1; 3] = Fin 1 /\
  std_of 0 (var_of [5; 9]) [5; 9] = Fin 2.
Proof.
  unfold mask_std, matrix. cbn. unfold sum_axis, broadcast2. fl_eval.
  eexists. split; [reflexivity|]. cbn [data].
  assert (V1 : var_of [1; 3] = 1) by (unfold var_of, mean_of, total; simpl; lra).
  assert (V2 : var_of [5; 9] = 4) by (unfold var_of, mean_of, total; simpl; lra).
  rewrite V1, V2. unfold std_of.
  rewrite !Rlt_b_true by lra. split; [|split].
  - fin_eq.
  - f_equal. replace (0 + 1) with (1 * 1) by lra. apply sqrt_square; lra.
  - f_equal. replace (0 + 4) with (2 * 2) by lra. apply sqrt_square; lra.
Qed.
