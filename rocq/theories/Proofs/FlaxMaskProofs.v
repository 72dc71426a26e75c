From Coq Require Import List Arith Lia Reals Lra Bool.
From Verif Require Import Model.Tree Model.Float Model.Ewm Model.Masks Model.FlaxMore Spec.MaskSpec Spec.CovSpec
  Spec.FlaxMoreSpec Proofs.FloatFacts Proofs.ListFacts Proofs.TreeProofs Proofs.EwmcovProofs Proofs.EwmExamples
  Proofs.MaskProofs.
Import ListNotations.
Local Open Scope R_scope.

Lemma fbroadcast_full axis mask (x : arr fl) : shape mask = shape x -> (axis = None \/ axis = Some 0%nat \/ axis = Some 1%nat) ->
  fbroadcast_mask axis mask (shape x) = Some (data mask).
Proof.
  intros Hs Ha. unfold fbroadcast_mask. destruct Ha as [->|[->| ->]];
    (destruct (list_eq_dec _ _ _) as [_|E]; [reflexivity|congruence]).
Qed.

Lemma axis_cells_axis axis s sh cells : axis_cells axis s = Some (sh, cells) ->
  (axis = None \/ axis = Some 0%nat \/ axis = Some 1%nat) /\ (sh = [] -> exists c, cells = [c]).
Proof.
  unfold axis_cells. destruct axis as [[|[|a]]|].
  - destruct s as [|n [|c [|d s]]]; try discriminate; intros [= <- <-]; (split; [auto|]); intros E; try discriminate; eauto.
  - destruct s as [|n [|c [|d s]]]; try discriminate; intros [= <- <-]; (split; [auto|]); intros E; discriminate.
  - destruct s as [|n [|c [|d s]]]; discriminate.
  - intros [= <- <-]. split; [auto|]. eauto.
Qed.

Lemma div_count_cells {C : Type} sh (cells : list C) (f g : C -> fl) : (sh = [] -> exists c, cells = [c]) ->
  div_count (Arr sh (map f cells)) (Arr sh (map g cells)) = Some (Arr sh (map (fun c => fdiv (f c) (g c)) cells)).
Proof.
  intros H. unfold div_count. cbn [shape data]. destruct sh as [|n sh].
  - destruct (H eq_refl) as [c ->]. reflexivity.
  - destruct (list_eq_dec _ _ _) as [_|E]; [|congruence]. rewrite map2_self. reflexivity.
Qed.

Lemma where_count_cells {C : Type} sh (cells : list C) (f g : C -> fl) : (sh = [] -> exists c, cells = [c]) ->
  where_count (Arr sh (map f cells)) (Arr sh (map g cells)) =
  Some (Arr sh (map (fun c => if feq (f c) (Fin 0) then NaN else g c) cells)).
Proof.
  intros H. unfold where_count. cbn [shape data]. destruct sh as [|n sh].
  - destruct (H eq_refl) as [c ->]. reflexivity.
  - destruct (list_eq_dec _ _ _) as [_|E]; [|congruence]. unfold nan_where_zero. rewrite map2_self. reflexivity.
Qed.

Section Stats.
  Variables (fm eps : R) (axis : option nat) (mask : arr bool) (x : arr fl) (sh : list nat) (cells : list (list nat)).
  Hypotheses (Hm : well_shaped mask) (Hx : well_shaped x) (Hs : shape mask = shape x)
    (Hc : axis_cells axis (shape x) = Some (sh, cells)) (Hr : all_in_range (size (shape x)) cells).

  Let cnt (cell : list nat) : R := INR (length (filter (mk (data mask)) cell)).
  Let cnt1 (cell : list nat) : R := if Req_b (cnt cell) 0 then 1 else cnt cell.
  Let mu (cell : list nat) : R := total (map (cv fm (data x)) (filter (mk (data mask)) cell)) / cnt1 cell.

  Lemma cnt1_neq cell : cnt1 cell <> 0.
  Proof. unfold cnt1. destruct (Req_b_spec (cnt cell) 0); lra. Qed.

  Lemma cnt_zero cell : Req_b (cnt cell) 0 = match filter (mk (data mask)) cell with [] => true | _ => false end.
  Proof.
    unfold cnt. destruct (filter _ cell) as [|a l]; [apply Req_b_refl|].
    apply Req_b_neq. apply not_0_INR. discriminate.
  Qed.

  Lemma mu_mean cell : filter (mk (data mask)) cell <> [] -> mu cell = mean_of (map (cv fm (data x)) (filter (mk (data mask)) cell)).
  Proof.
    intros H. unfold mu, cnt1, mean_of. rewrite cnt_zero, map_length. unfold cnt. destruct (filter _ cell); [congruence|]. reflexivity.
  Qed.

  Lemma fstat_masked : fapply_mask axis (Fin 0) mask x = Some (Arr (shape x) (map2 (wh (Fin 0)) (data mask) (data x))).
  Proof.
    unfold fapply_mask. rewrite fbroadcast_full; [reflexivity|exact Hs|]. apply (axis_cells_axis _ _ _ _ Hc).
  Qed.
  Lemma fstat_count : count_axis axis mask = Some (Arr sh (map (fun cell => Fin (cnt cell)) cells)).
  Proof. unfold count_axis. rewrite Hs, Hc. reflexivity. Qed.
  Lemma fstat_one : at_least_one (Arr sh (map (fun cell => Fin (cnt cell)) cells)) = Arr sh (map (fun cell => Fin (cnt1 cell)) cells).
  Proof.
    unfold at_least_one, arr_map. cbn [shape data]. f_equal. rewrite map_map. apply map_ext. intros cell. cbn [feq].
    unfold cnt1. destruct (Req_b (cnt cell) 0); reflexivity.
  Qed.
  Lemma fstat_sum : sum_axis axis (fill_nans fm (Arr (shape x) (map2 (wh (Fin 0)) (data mask) (data x)))) =
    Some (Arr sh (map (fun cell => Fin (total (map (cv fm (data x)) (filter (mk (data mask)) cell)))) cells)).
  Proof.
    unfold sum_axis, fill_nans, arr_map. cbn [shape data]. rewrite Hc. do 2 f_equal. apply map_ext_in. intros cell Hin.
    pose proof (proj1 (Forall_forall _ _) Hr _ Hin) as Hcell.
    change (map _ (map2 (wh (Fin 0)) (data mask) (data x))) with (filled fm (data mask) (data x)).
    apply (sum_cell fm (data mask) (data x) (size (shape x))); auto. rewrite <- Hs. exact Hm.
  Qed.

  Lemma fmask_mean_cells : fmask_mean fm axis mask x =
    Some (Arr sh (map (fun cell => mean_or_nan (map (cv fm (data x)) (filter (mk (data mask)) cell))) cells)).
  Proof.
    unfold fmask_mean. rewrite fstat_masked. cbn [bind]. rewrite fstat_count. cbn [bind]. rewrite fstat_sum. cbn [bind].
    rewrite fstat_one. pose proof (proj2 (axis_cells_axis _ _ _ _ Hc)) as H1.
    rewrite div_count_cells by auto. cbn [bind]. rewrite where_count_cells by auto. do 2 f_equal. apply map_ext. intros cell.
    cbn [feq]. rewrite cnt_zero. rewrite fdiv_Fin by apply cnt1_neq. fold (mu cell).
    destruct (filter (mk (data mask)) cell) as [|a l] eqn:E; [reflexivity|].
    rewrite mu_mean, E by congruence. reflexivity.
  Qed.

  (** same as haiku *)
  Lemma fmask_mean_same : fmask_mean fm axis mask x = mask_mean fm axis mask x.
  Proof. rewrite fmask_mean_cells. symmetry. apply mask_mean_cells; auto. Qed.

  Lemma fstd_outer (diff : arr fl) (v : list nat -> fl) (centered : bool) :
    (if centered then Some (fill_nans fm (Arr (shape x) (map2 (wh (Fin 0)) (data mask) (data x))))
     else bind (sum_axis axis (fill_nans fm (Arr (shape x) (map2 (wh (Fin 0)) (data mask) (data x))))) (fun s =>
          bind (div_count s (at_least_one (Arr sh (map (fun cell => Fin (cnt cell)) cells)))) (fun mean =>
          bind (fsub_mean axis x mean) (fun d => fapply_mask axis (Fin 0) mask d)))) = Some diff ->
    shape diff = shape x ->
    (forall cell, In cell cells ->
      fsum (map (fun k => nth k (map (fun v => fmul v v) (data diff)) (Fin 0)) cell) = v cell) ->
    fmask_std fm eps axis centered mask x =
    Some (Arr sh (map (fun cell => match filter (mk (data mask)) cell with
       | [] => NaN
       | _ => let w := fdiv (v cell) (Fin (cnt cell)) in if flt (Fin 0) w then fsqrt (fadd (Fin eps) w) else Fin 0
       end) cells)).
  Proof.
    intros HD HS HV. unfold fmask_std. rewrite fstat_masked. cbn [bind]. rewrite fstat_count. cbn [bind]. rewrite HD. cbn [bind].
    unfold sum_axis, arr_map. cbn [shape data]. rewrite HS, Hc. cbn [bind]. rewrite fstat_one.
    pose proof (proj2 (axis_cells_axis _ _ _ _ Hc)) as H1.
    rewrite div_count_cells by auto. cbn [bind shape data]. rewrite map_map. rewrite where_count_cells by auto.
    do 2 f_equal. apply map_ext_in. intros cell Hin. cbn [feq]. rewrite cnt_zero, (HV cell Hin).
    unfold cnt1. rewrite cnt_zero. destruct (filter (mk (data mask)) cell); reflexivity.
  Qed.

  (** assume_centered *)
  Lemma fmask_std_centered : 0 <= eps -> fmask_std fm eps axis true mask x =
    Some (Arr sh (map (fun cell => flax_centered_std fm eps (map (fun k => nth k (data x) NaN) (filter (mk (data mask)) cell))) cells)).
  Proof.
    intros He. rewrite (fstd_outer (fill_nans fm (Arr (shape x) (map2 (wh (Fin 0)) (data mask) (data x))))
      (fun cell => Fin (total (map (fun k => cv fm (data x) k ^ 2) (filter (mk (data mask)) cell)))) true); auto.
    - do 2 f_equal. apply map_ext. intros cell. unfold flax_centered_std.
      destruct (filter (mk (data mask)) cell) as [|a l] eqn:E; [reflexivity|]. cbn [map]. cbv zeta.
      rewrite fdiv_Fin. 2:{ intros F. pose proof (cnt_zero cell) as C. rewrite F, E, Req_b_refl in C. discriminate. }
      unfold second_moment, mean_of. rewrite !map_map.
      set (V := total _ / cnt cell).
      assert (EV : total (map (fun v => v ^ 2) (contribution fm (nth a (data x) NaN) :: map (fun x1 => contribution fm (nth x1 (data x) NaN)) l)) /
         INR (length (map (fun v => v ^ 2) (contribution fm (nth a (data x) NaN) :: map (fun x1 => contribution fm (nth x1 (data x) NaN)) l))) = V).
      { unfold V, cnt. rewrite E, !map_length. cbn [length map]. rewrite map_map, map_length. reflexivity. }
      rewrite EV. change (flt (Fin 0) (Fin V)) with (Rlt_b 0 V). destruct (Rlt_b_spec 0 V); [|reflexivity].
      cbn [fadd]. apply fsqrt_Fin. lra.
    - intros cell Hin. pose proof (proj1 (Forall_forall _ _) Hr _ Hin) as Hcell.
      unfold fill_nans, arr_map. cbn [data]. change (map _ (map2 (wh (Fin 0)) (data mask) (data x))) with (filled fm (data mask) (data x)).
      assert (Hm' : length (data mask) = size (shape x)) by (rewrite <- Hs; exact Hm).
      rewrite <- (total_filter (data mask) (fun k => cv fm (data x) k ^ 2)). apply fsum_total. intros k Hk.
      rewrite nth_error_map, (filled_nth fm (data mask) (data x) (size (shape x))) by auto. cbn [option_map fmul].
      do 2 f_equal. destruct (mk (data mask) k); ring.
  Qed.

  (** otherwise *)
  Lemma fsum_snoc l a : fsum (l ++ [a]) = fadd (fsum l) a.
  Proof. unfold fsum. rewrite fold_left_app. reflexivity. Qed.

  Lemma total_snoc l a : total (l ++ [a]) = total l + a.
  Proof. unfold total. induction l as [|b l IH]; cbn; [lra|]. rewrite IH. lra. Qed.

  (** a sum of squares of x - m over the mask *)
  Lemma sq_sum (E : list fl) (m : R) cell : length E = size (shape x) -> in_range (size (shape x)) cell ->
    (forall k, In k cell -> nth_error E k = Some (fsub (nth k (data x) NaN) (Fin m))) ->
    let l := map (fun k => nth k (data x) NaN) (filter (mk (data mask)) cell) in
    fsum (map (fun k => nth k (map (fun v => fmul v v) (map2 (wh (Fin 0)) (data mask) E)) (Fin 0)) cell) =
    if existsb isnan l then NaN
    else if forallb isfinite l then Fin (total (map (fun v => (contribution fm v - m) ^ 2) l)) else PInf.
  Proof.
    intros HE Hcell. assert (Hm' : length (data mask) = size (shape x)) by (rewrite <- Hs; exact Hm).
    induction cell as [|k cell IH] using rev_ind; intros HH l; [reflexivity|].
    assert (Hk : (k < size (shape x))%nat) by (apply Hcell, in_or_app; right; left; reflexivity).
    rewrite map_app. cbn [map]. rewrite fsum_snoc.
    specialize (IH ltac:(intros j Hj; apply Hcell, in_or_app; auto) ltac:(intros j Hj; apply HH, in_or_app; auto)).
    cbv zeta in IH. rewrite IH. unfold l. rewrite filter_app, map_app. cbn [filter].
    set (l0 := map (fun k0 => nth k0 (data x) NaN) (filter (mk (data mask)) cell)).
    assert (EK : nth k (map (fun v => fmul v v) (map2 (wh (Fin 0)) (data mask) E)) (Fin 0) =
       if mk (data mask) k then fmul (fsub (nth k (data x) NaN) (Fin m)) (fsub (nth k (data x) NaN) (Fin m)) else Fin 0).
    { apply nth_error_nth. rewrite nth_error_map, nth_error_map2, (nth_error_nth_lt (data mask) k false) by lia.
      rewrite (HH k) by (apply in_or_app; right; left; reflexivity). cbn [option_map]. unfold wh, mk.
      destruct (nth k (data mask) false); [reflexivity|]. cbn. do 2 f_equal. ring. }
    rewrite EK. destruct (mk (data mask) k).
    - cbn [map]. rewrite existsb_app, forallb_app, map_app. cbn [existsb forallb map]. rewrite total_snoc.
      destruct (nth k (data x) NaN) as [| | |r]; cbn [isnan isfinite orb andb fsub fneg fadd fmul contribution].
      + rewrite orb_true_r. destruct (existsb isnan l0); [reflexivity|]. destruct (forallb isfinite l0); reflexivity.
      + rewrite !orb_false_r, !andb_false_r. destruct (existsb isnan l0); [reflexivity|]. destruct (forallb isfinite l0); reflexivity.
      + rewrite !orb_false_r, !andb_false_r. destruct (existsb isnan l0); [reflexivity|]. destruct (forallb isfinite l0); reflexivity.
      + rewrite !orb_false_r, !andb_true_r. destruct (existsb isnan l0); [reflexivity|]. destruct (forallb isfinite l0); [|reflexivity].
        cbn [fadd]. f_equal. ring.
    - cbn [map]. rewrite app_nil_r. destruct (existsb isnan l0); [reflexivity|]. destruct (forallb isfinite l0); [|reflexivity].
      cbn. f_equal. ring.
  Qed.

  Lemma fmask_std_cells E : 0 <= eps ->
    fsub_mean axis x (Arr sh (map (fun cell => Fin (mu cell)) cells)) = Some (Arr (shape x) E) ->
    length E = size (shape x) ->
    (forall cell k, In cell cells -> In k cell -> nth_error E k = Some (fsub (nth k (data x) NaN) (Fin (mu cell)))) ->
    fmask_std fm eps axis false mask x =
    Some (Arr sh (map (fun cell => flax_std fm eps (map (fun k => nth k (data x) NaN) (filter (mk (data mask)) cell))) cells)).
  Proof.
    intros He HF HE HH.
    rewrite (fstd_outer (Arr (shape x) (map2 (wh (Fin 0)) (data mask) E))
      (fun cell => let l := map (fun k => nth k (data x) NaN) (filter (mk (data mask)) cell) in
        if existsb isnan l then NaN
        else if forallb isfinite l then Fin (total (map (fun v => (contribution fm v - mu cell) ^ 2) l)) else PInf) false).
    - do 2 f_equal. apply map_ext. intros cell. unfold flax_std.
      destruct (filter (mk (data mask)) cell) as [|a r] eqn:EF; [reflexivity|]. rewrite <- EF.
      set (l := map (fun k => nth k (data x) NaN) (filter (mk (data mask)) cell)).
      assert (Hl : exists b s, l = b :: s) by (unfold l; rewrite EF; cbn; eauto). destruct Hl as (b & s & Hl).
      rewrite Hl. rewrite <- Hl. cbv zeta.
      assert (Hcnt : cnt cell <> 0).
      { intros F. pose proof (cnt_zero cell) as C. rewrite F, EF, Req_b_refl in C. discriminate. }
      destruct (existsb isnan l) eqn:EN; [reflexivity|].
      destruct (forallb isfinite l) eqn:EI.
      + rewrite fdiv_Fin by exact Hcnt.
        assert (EV : total (map (fun v => (contribution fm v - mu cell) ^ 2) l) / cnt cell = var_of (map (contribution fm) l)).
        { unfold var_of, mean_of at 1. rewrite map_map, map_length. unfold cnt. assert (EL : length l = length (filter (mk (data mask)) cell)) by (unfold l; apply map_length). rewrite EL. do 2 f_equal.
          apply map_ext. intros v. f_equal. f_equal. rewrite mu_mean by (rewrite EF; congruence). f_equal. unfold l.
          rewrite map_map. reflexivity. }
        rewrite EV. set (V := var_of _). change (flt (Fin 0) (Fin V)) with (Rlt_b 0 V). destruct (Rlt_b_spec 0 V); [|reflexivity].
        cbn [fadd]. apply fsqrt_Fin. lra.
      + unfold fdiv. assert (0 < cnt cell).
        { unfold cnt. apply lt_0_INR. rewrite EF. cbn. lia. }
        rewrite Rlt_b_false by lra. reflexivity.
    - rewrite fstat_sum. cbn [bind]. rewrite fstat_one.
      pose proof (proj2 (axis_cells_axis _ _ _ _ Hc)) as H1. rewrite div_count_cells by auto. cbn [bind].
      rewrite (map_ext _ (fun cell => Fin (mu cell))) by (intros cell; apply fdiv_Fin, cnt1_neq).
      rewrite HF. cbn [bind]. unfold fapply_mask. cbn [shape data].
      rewrite fbroadcast_full; [reflexivity|exact Hs|]. apply (axis_cells_axis _ _ _ _ Hc).
    - reflexivity.
    - intros cell Hin. cbn [data]. apply sq_sum; auto. apply (proj1 (Forall_forall _ _) Hr _ Hin).
  Qed.
End Stats.

Lemma sel_cell (mask : list bool) (x : list fl) cell :
  map (fun k => nth k x NaN) (filter (mk mask) cell) =
  selected (map (fun k => nth k mask false) cell) (map (fun k => nth k x NaN) cell).
Proof. rewrite selected_cell. reflexivity. Qed.

Lemma fmask_std_none fm eps centered mask x :
  0 <= eps -> well_shaped mask -> well_shaped x -> shape mask = shape x ->
  fmask_std fm eps None centered mask x =
  Some (Arr [] [flax_std_of fm eps centered (selected (data mask) (data x))]).
Proof.
  intros He Hm Hx Hs.
  assert (E : selected (data mask) (data x) = map (fun k => nth k (data x) NaN) (filter (mk (data mask)) (seq 0 (size (shape x))))).
  { rewrite sel_cell. rewrite <- Hx at 2. rewrite map_nth_seq. rewrite <- Hs, <- Hm, map_nth_seq. reflexivity. }
  rewrite E. destruct centered; unfold flax_std_of.
  - rewrite (fmask_std_centered fm eps None mask x [] [seq 0 (size (shape x))]); auto using none_cells.
  - erewrite (fmask_std_cells fm eps None mask x [] [seq 0 (size (shape x))]); auto using none_cells.
    + unfold fsub_mean. cbn [shape data]. reflexivity.
    + rewrite map_length. exact Hx.
    + intros cell k [<-|[]] Hk. apply in_seq in Hk. rewrite nth_error_map, (nth_error_nth_lt (data x) k NaN).
      * reflexivity.
      * unfold well_shaped in Hx. lia.
Qed.

Lemma fmask_std_axis0 fm eps centered c ms rows :
  0 <= eps -> rectangular c ms -> rectangular c rows -> length ms = length rows ->
  fmask_std fm eps (Some 0%nat) centered (matrix c ms) (matrix c rows) =
  Some (Arr [c] (map (fun j => flax_std_of fm eps centered (selected (col false j ms) (col NaN j rows))) (seq 0 c))).
Proof.
  intros He Hm Hx Hl.
  set (cells := map (fun j => map (fun i => (i * c + j)%nat) (seq 0 (length rows))) (seq 0 c)).
  assert (HC : axis_cells (Some 0%nat) (shape (matrix c rows)) = Some ([c], cells)) by reflexivity.
  assert (HR : all_in_range (size (shape (matrix c rows))) cells) by apply axis0_cells.
  assert (HS : shape (matrix c ms) = shape (matrix c rows)) by (cbn [matrix shape]; congruence).
  assert (E : forall f : list fl -> fl, map (fun cell => f (map (fun k => nth k (data (matrix c rows)) NaN) (filter (mk (data (matrix c ms))) cell))) cells =
     map (fun j => f (selected (col false j ms) (col NaN j rows))) (seq 0 c)).
  { intros f. unfold cells. rewrite map_map. apply map_ext_in. intros j Hj. apply in_seq in Hj. rewrite sel_cell.
    cbn [matrix data]. rewrite !(col_cell NaN) by (auto; lia). rewrite <- Hl. rewrite !(col_cell false) by (auto; lia). reflexivity. }
  destruct centered; unfold flax_std_of.
  - rewrite (fmask_std_centered fm eps (Some 0%nat) (matrix c ms) (matrix c rows) [c] cells); auto using matrix_shaped.
    rewrite E. reflexivity.
  - erewrite (fmask_std_cells fm eps (Some 0%nat) (matrix c ms) (matrix c rows) [c] cells); auto using matrix_shaped.
    + rewrite E. reflexivity.
    + unfold fsub_mean. cbn [shape data matrix]. reflexivity.
    + rewrite map_length, seq_length. cbn. lia.
    + intros cell k Hcell Hk. unfold cells in Hcell. apply in_map_iff in Hcell. destruct Hcell as (j & Ecell & Hj). apply in_seq in Hj.
      pose proof Hk as Hk'. rewrite <- Ecell in Hk'. apply in_map_iff in Hk'. destruct Hk' as (i & <- & Hi). apply in_seq in Hi.
      assert (B : (i * c + j < length rows * c)%nat) by nia.
      rewrite nth_error_map, (nth_error_nth_lt (seq 0 (length rows * c)) _ 0%nat) by (rewrite seq_length; auto).
      rewrite seq_nth by auto. cbn [option_map Nat.add data matrix]. do 2 f_equal.
      replace ((i * c + j) mod c)%nat with j by (rewrite Nat.add_comm, Nat.mod_add, Nat.mod_small by lia; auto).
      unfold cells. rewrite map_map. apply nth_error_nth. rewrite nth_error_map, (nth_error_nth_lt (seq 0 c) j 0%nat) by (rewrite seq_length; lia).
      rewrite seq_nth by lia. cbn [option_map Nat.add]. rewrite <- Ecell. reflexivity.
Qed.

Lemma fmask_std_axis1 fm eps centered c ms rows :
  0 <= eps -> rectangular c ms -> rectangular c rows -> length ms = length rows ->
  fmask_std fm eps (Some 1%nat) centered (matrix c ms) (matrix c rows) =
  Some (Arr [length rows] (map2 (fun m r => flax_std_of fm eps centered (selected m r)) ms rows)).
Proof.
  intros He Hm Hx Hl.
  set (cells := map (fun i => map (fun j => (i * c + j)%nat) (seq 0 c)) (seq 0 (length rows))).
  assert (HC : axis_cells (Some 1%nat) (shape (matrix c rows)) = Some ([length rows], cells)) by reflexivity.
  assert (HR : all_in_range (size (shape (matrix c rows))) cells) by apply axis1_cells.
  assert (HS : shape (matrix c ms) = shape (matrix c rows)) by (cbn [matrix shape]; congruence).
  assert (E : forall f : list fl -> fl, map (fun cell => f (map (fun k => nth k (data (matrix c rows)) NaN) (filter (mk (data (matrix c ms))) cell))) cells =
     map2 (fun m r => f (selected m r)) ms rows).
  { intros f. unfold cells. rewrite map_map. rewrite <- (map_seq_map2 _ [] []) by auto. rewrite Hl. apply map_ext_in. intros i Hi. apply in_seq in Hi.
    rewrite sel_cell. cbn [matrix data]. rewrite !row_cell by (auto; lia). reflexivity. }
  destruct centered; unfold flax_std_of.
  - rewrite (fmask_std_centered fm eps (Some 1%nat) (matrix c ms) (matrix c rows) [length rows] cells); auto using matrix_shaped.
    rewrite E. reflexivity.
  - erewrite (fmask_std_cells fm eps (Some 1%nat) (matrix c ms) (matrix c rows) [length rows] cells); auto using matrix_shaped.
    + rewrite E. reflexivity.
    + unfold fsub_mean. cbn [shape data matrix]. reflexivity.
    + rewrite map_length, seq_length. cbn. lia.
    + intros cell k Hcell Hk. unfold cells in Hcell. apply in_map_iff in Hcell. destruct Hcell as (i & Ecell & Hi). apply in_seq in Hi.
      pose proof Hk as Hk'. rewrite <- Ecell in Hk'. apply in_map_iff in Hk'. destruct Hk' as (j & <- & Hj). apply in_seq in Hj.
      assert (B : (i * c + j < length rows * c)%nat) by nia.
      rewrite nth_error_map, (nth_error_nth_lt (seq 0 (length rows * c)) _ 0%nat) by (rewrite seq_length; auto).
      rewrite seq_nth by auto. cbn [option_map Nat.add data matrix]. do 2 f_equal.
      replace ((i * c + j) / c)%nat with i by (rewrite Nat.div_add_l, Nat.div_small by lia; lia).
      unfold cells. rewrite map_map. apply nth_error_nth. rewrite nth_error_map, (nth_error_nth_lt (seq 0 (length rows)) i 0%nat) by (rewrite seq_length; lia).
      rewrite seq_nth by lia. cbn [option_map Nat.add]. rewrite <- Ecell. reflexivity.
Qed.

(** Means: the same as in haiku. *)
Lemma fmask_mean_none fm mask x :
  well_shaped mask -> well_shaped x -> shape mask = shape x ->
  fmask_mean fm None mask x = mask_mean fm None mask x.
Proof. intros Hm Hx Hs. eapply fmask_mean_same; eauto; [reflexivity|apply none_cells]. Qed.
Lemma fmask_mean_axis01 fm axis c ms rows : (axis = 0 \/ axis = 1)%nat ->
  rectangular c ms -> rectangular c rows -> length ms = length rows ->
  fmask_mean fm (Some axis) (matrix c ms) (matrix c rows) = mask_mean fm (Some axis) (matrix c ms) (matrix c rows).
Proof.
  intros Ha Hm Hx Hl. destruct Ha as [-> | ->]; (eapply fmask_mean_same; [apply matrix_shaped; auto|apply matrix_shaped; auto|cbn [matrix shape]; congruence|reflexivity|]).
  - apply axis0_cells.
  - apply axis1_cells.
Qed.

(** One mask entry per row. *)
Definition row_mask (m : list bool) : arr bool := Arr [length m] m.

Lemma count_row m : count_axis (Some 0%nat) (row_mask m) = Some (Arr [] [Fin (INR (length (filter (fun b => b) m)))]).
Proof.
  unfold count_axis, row_mask. cbn [shape axis_cells data map]. do 4 f_equal.
  assert (G : forall l, map (fun k => nth k l false) (seq 0 (length l)) = l) by (intros; apply map_nth_seq).
  f_equal. rewrite <- (G m) at 2. generalize (seq 0 (length m)). intros l. induction l as [|k l IH]; [reflexivity|].
  cbn [map filter]. destruct (nth k m false); cbn [length]; rewrite IH; reflexivity.
Qed.

Lemma count_row_full c m :
  count_axis (Some 0%nat) (matrix c (map (fun b => repeat b c) m)) = Some (Arr [c] (map (fun _ => Fin (INR (length (filter (fun b => b) m)))) (seq 0 c))).
Proof.
  unfold count_axis, matrix. cbn [shape axis_cells data]. do 2 f_equal. rewrite map_map, map_length. apply map_ext_in. intros j Hj. apply in_seq in Hj.
  do 2 f_equal.
  assert (HR : rectangular c (map (fun b => repeat b c) m)) by (apply Forall_map, Forall_forall; intros b _; apply repeat_length).
  assert (G : map (fun k => nth k (concat (map (fun b => repeat b c) m)) false) (map (fun i => (i * c + j)%nat) (seq 0 (length m))) = m).
  { pose proof (col_cell false c (map (fun b => repeat b c) m) j HR ltac:(lia)) as Q. rewrite map_length in Q. rewrite Q. unfold col.
    rewrite map_map. rewrite <- (map_id m) at 2. apply map_ext_in. intros b _. 
    apply nth_error_nth. rewrite nth_error_repeat'. destruct (Nat.ltb_spec j c); [reflexivity|lia]. }
  rewrite <- G at 2. generalize (map (fun i => (i * c + j)%nat) (seq 0 (length m))). intros l. clear. induction l as [|k l IH]; [reflexivity|].
  cbn [map filter]. destruct (nth k _ false); cbn [length]; rewrite IH; reflexivity.
Qed.

Lemma fapply_row v c m (x : arr fl) r : shape x = [r; c] -> length m = r ->
  fapply_mask (Some 0%nat) v (row_mask m) x = fapply_mask (Some 0%nat) v (matrix c (map (fun b => repeat b c) m)) x.
Proof.
  intros Hs Hl. unfold fapply_mask, fbroadcast_mask, row_mask, matrix. cbn [shape data]. rewrite Hs, map_length.
  destruct (list_eq_dec _ [length m] [r; c]) as [E|_]; [discriminate|].
  destruct (list_eq_dec _ [length m; c] [r; c]) as [_|E]; [|congruence].
  rewrite Hl, Nat.eqb_refl. rewrite flat_map_concat_map. reflexivity.
Qed.

Lemma div_row s n c : shape s = [c] -> length (data s) = c ->
  div_count s (Arr [] [n]) = div_count s (Arr [c] (map (fun _ => n) (seq 0 c))).
Proof.
  intros Hs Hl. unfold div_count. cbn [shape data]. rewrite Hs. destruct (list_eq_dec _ _ _) as [_|E]; [|congruence].
  do 2 f_equal. cbn [nth]. rewrite <- Hl. rewrite <- (map_nth_seq (data s) NaN) at 1 2. rewrite map2_self, map_map. reflexivity.
Qed.
Lemma where_row v n c : shape v = [c] -> length (data v) = c ->
  where_count (Arr [] [n]) v = where_count (Arr [c] (map (fun _ => n) (seq 0 c))) v.
Proof.
  intros Hs Hl. unfold where_count. cbn [shape data]. rewrite Hs. destruct (list_eq_dec _ _ _) as [_|E]; [|congruence].
  do 2 f_equal. unfold nan_where_zero. cbn [nth]. rewrite <- Hl. rewrite <- (map_nth_seq (data v) NaN) at 1 3. rewrite map2_self, map_map. reflexivity.
Qed.

Lemma sum_axis_shape r c (x : arr fl) s : shape x = [r; c] -> sum_axis (Some 0%nat) x = Some s -> shape s = [c] /\ length (data s) = c.
Proof.
  intros Hs. unfold sum_axis. rewrite Hs. cbn [axis_cells]. intros [= <-]. cbn [shape data]. rewrite !map_length, seq_length. auto.
Qed.

Lemma div_count_shape c s n q : shape s = [c] -> length (data s) = c -> shape n = [c] -> length (data n) = c -> div_count s n = Some q -> shape q = [c] /\ length (data q) = c.
Proof.
  intros Hs Hl Hn Hln. unfold div_count. rewrite Hn, Hs. destruct (list_eq_dec _ _ _) as [_|E]; [|congruence]. intros [= <-].
  cbn [shape data]. rewrite length_map2. split; [reflexivity|lia].
Qed.

Lemma at_least_one_row n c : at_least_one (Arr [] [n]) = Arr [] [if feq n (Fin 0) then Fin 1 else n] /\
  at_least_one (Arr [c] (map (fun _ => n) (seq 0 c))) = Arr [c] (map (fun _ => if feq n (Fin 0) then Fin 1 else n) (seq 0 c)).
Proof. unfold at_least_one, arr_map. cbn [shape data map]. rewrite map_map. auto. Qed.

Lemma fmask_mean_row fm c m rows : rectangular c rows -> length m = length rows ->
  fmask_mean fm (Some 0%nat) (row_mask m) (matrix c rows) =
  fmask_mean fm (Some 0%nat) (matrix c (map (fun b => repeat b c) m)) (matrix c rows).
Proof.
  intros Hx Hl. unfold fmask_mean. rewrite (fapply_row _ c m (matrix c rows) (length rows)) by auto.
  destruct (fapply_mask _ _ _ _) as [xm|] eqn:Exm; [|reflexivity]. cbn [bind].
  assert (Hxm : shape xm = [length rows; c]).
  { unfold fapply_mask in Exm. destruct (fbroadcast_mask _ _ _); [|discriminate]. injection Exm as <-. reflexivity. }
  rewrite count_row, count_row_full. cbn [bind]. destruct (at_least_one_row (Fin (INR (length (filter (fun b => b) m)))) c) as [-> ->].
  destruct (sum_axis _ _) as [s|] eqn:Es; [|reflexivity]. cbn [bind].
  destruct (sum_axis_shape (length rows) c (fill_nans fm xm) s Hxm Es) as [S1 S2].
  rewrite (div_row s _ c) by auto. destruct (div_count _ _) as [q|] eqn:Eq; [|reflexivity]. cbn [bind].
  assert (Q : shape q = [c] /\ length (data q) = c) by (eapply div_count_shape; [exact S1|exact S2| | |exact Eq]; cbn [shape data]; rewrite ?map_length, ?seq_length; reflexivity).
  destruct Q. apply where_row; auto.
Qed.

Lemma fmask_std_row fm eps centered c m rows : rectangular c rows -> length m = length rows ->
  fmask_std fm eps (Some 0%nat) centered (row_mask m) (matrix c rows) =
  fmask_std fm eps (Some 0%nat) centered (matrix c (map (fun b => repeat b c) m)) (matrix c rows).
Proof.
  intros Hx Hl. unfold fmask_std. rewrite (fapply_row _ c m (matrix c rows) (length rows)) by auto.
  destruct (fapply_mask _ _ _ _) as [xm|] eqn:Exm; [|reflexivity]. cbn [bind].
  assert (Hxm : shape xm = [length rows; c]).
  { unfold fapply_mask in Exm. destruct (fbroadcast_mask _ _ _); [|discriminate]. injection Exm as <-. reflexivity. }
  rewrite count_row, count_row_full. cbn [bind]. destruct (at_least_one_row (Fin (INR (length (filter (fun b => b) m)))) c) as [-> ->].
  set (n1 := if feq _ _ then _ else _). set (n := Fin (INR _)).
  assert (HD : (if centered then Some (fill_nans fm xm) else
      bind (sum_axis (Some 0%nat) (fill_nans fm xm)) (fun s => bind (div_count s (Arr [] [n1])) (fun mean =>
        bind (fsub_mean (Some 0%nat) (matrix c rows) mean) (fun diff => fapply_mask (Some 0%nat) (Fin 0) (row_mask m) diff)))) =
      (if centered then Some (fill_nans fm xm) else
      bind (sum_axis (Some 0%nat) (fill_nans fm xm)) (fun s => bind (div_count s (Arr [c] (map (fun _ => n1) (seq 0 c)))) (fun mean =>
        bind (fsub_mean (Some 0%nat) (matrix c rows) mean) (fun diff => fapply_mask (Some 0%nat) (Fin 0) (matrix c (map (fun b => repeat b c) m)) diff)))) /\
      forall d, (if centered then Some (fill_nans fm xm) else
      bind (sum_axis (Some 0%nat) (fill_nans fm xm)) (fun s => bind (div_count s (Arr [] [n1])) (fun mean =>
        bind (fsub_mean (Some 0%nat) (matrix c rows) mean) (fun diff => fapply_mask (Some 0%nat) (Fin 0) (row_mask m) diff)))) = Some d -> shape d = [length rows; c]).
  { destruct centered. { split; [reflexivity|]. intros d [= <-]. exact Hxm. }
    destruct (sum_axis (Some 0%nat) (fill_nans fm xm)) as [s|] eqn:Es; [|split; [reflexivity|discriminate]]. cbn [bind].
    destruct (sum_axis_shape (length rows) c (fill_nans fm xm) s Hxm Es) as [S1 S2]. rewrite (div_row s _ c) by auto.
    destruct (div_count _ _) as [q|]; [|split; [reflexivity|discriminate]]. cbn [bind].
    destruct (fsub_mean _ _ _) as [diff|] eqn:Ed; [|split; [reflexivity|discriminate]]. cbn [bind].
    assert (Sd : shape diff = [length rows; c]) by (cbn in Ed; injection Ed as <-; reflexivity).
    split. { apply (fapply_row _ c m diff (length rows)); auto. }
    intros d Hd. unfold fapply_mask in Hd. destruct (fbroadcast_mask _ _ _); [|discriminate]. injection Hd as <-. exact Sd. }
  destruct HD as [HD1 HD2]. rewrite <- HD1. destruct (if centered then _ else _) as [d|] eqn:Ed; [|reflexivity]. cbn [bind].
  destruct (sum_axis _ (arr_map _ d)) as [ss|] eqn:Es; [|reflexivity]. cbn [bind].
  destruct (sum_axis_shape (length rows) c (arr_map (fun v => fmul v v) d) ss (HD2 d eq_refl) Es) as [S1 S2].
  rewrite (div_row ss _ c) by auto. destruct (div_count _ _) as [q|] eqn:Eq; [|reflexivity]. cbn [bind].
  assert (Q : shape q = [c] /\ length (data q) = c) by (eapply div_count_shape; [exact S1|exact S2| | |exact Eq]; cbn [shape data]; rewrite ?map_length, ?seq_length; reflexivity).
  destruct Q. apply where_row; unfold arr_map; cbn [shape data]; rewrite ?map_length; auto.
Qed.

(** A one-dimensional mask cannot be reduced along axis 1. *)
Lemma fmask_axis1_vector_mask fm eps centered m x :
  fmask_mean fm (Some 1%nat) (row_mask m) x = None /\ fmask_std fm eps (Some 1%nat) centered (row_mask m) x = None.
Proof.
  unfold fmask_mean, fmask_std, count_axis, row_mask. cbn [shape axis_cells bind].
  destruct (fapply_mask _ _ _ _); auto.
Qed.

Lemma fmask_normalize_finite fm eps axis centered mask x y :
  fmask_normalize fm eps axis centered mask x = Some y -> Forall (fun v => isfinite v = true) (data y).
Proof.
  unfold fmask_normalize. destruct (fmask_std _ _ _ _ _ _) as [s|]; [|discriminate]. cbn [bind].
  destruct (broadcast2 _ _ _) as [q|]; [|discriminate]. cbn [bind]. intros H; injection H as <-.
  unfold arr_map. cbn [data]. apply Forall_map, Forall_forall. intros v _. destruct v; reflexivity.
Qed.

(** A masked array: normalisation along all axes. *)
Lemma fmask_normalize_none fm eps centered mask x :
  0 <= eps -> well_shaped mask -> well_shaped x -> shape mask = shape x ->
  exists y, fmask_normalize fm eps None centered mask x = Some y /\ shape y = shape x /\
    length (data y) = length (data x) /\
    forall k a, nth_error (data x) k = Some a ->
      nth_error (data y) k = Some (match a, flax_std_of fm eps centered (selected (data mask) (data x)) with
        | Fin r, Fin s => if Req_b s 0 then Fin 0 else Fin (r / s)
        | _, _ => Fin 0 end).
Proof.
  intros He Hm Hx Hs. unfold fmask_normalize. rewrite fmask_std_none by auto. cbn [bind].
  rewrite broadcast2_none by reflexivity. cbn [bind]. eexists. split; [reflexivity|].
  unfold arr_map. cbn [shape data]. split; auto. split; [rewrite !map_length; auto|].
  intros k a Ha. rewrite !nth_error_map, Ha. cbn [option_map nth]. f_equal.
  destruct a as [| | |r], (flax_std_of fm eps centered _) as [| | |s]; cbn; try reflexivity.
  - destruct (Rlt_b s 0); reflexivity.
  - destruct (Rlt_b s 0); reflexivity.
  - destruct (Req_b s 0); [|reflexivity]. unfold signed_inf. destruct (Req_b r 0); [|destruct (Rlt_b 0 r)]; reflexivity.
Qed.

(** A missing value which is not masked: 0 in flax, while haiku counts it as 0. *)
Lemma flax_std_nan fm eps l : In NaN l -> flax_std_of fm eps false l = Fin 0.
Proof.
  intros Hin. unfold flax_std_of, flax_std. destruct l as [|a l]; [destruct Hin|].
  rewrite (proj2 (existsb_exists isnan (a :: l))); [reflexivity|]. exists NaN. auto.
Qed.
(** Without NaN and infinite values, it is the value of haiku for non-empty selections. *)
Lemma flax_std_finite fm eps centered (l : list R) : l <> [] ->
  flax_std_of fm eps centered (map Fin l) = std_of eps (if centered then second_moment l else var_of l) l.
Proof.
  intros Hl. destruct l as [|a l]; [congruence|].
  assert (E1 : map (contribution fm) (map Fin (a :: l)) = a :: l) by (rewrite map_map; cbn [contribution]; apply map_id).
  assert (E2 : existsb isnan (map Fin (a :: l)) = false) by (apply not_true_is_false; intros H; apply existsb_exists in H; destruct H as (y & Hy & Hn); apply in_map_iff in Hy; destruct Hy as (z & <- & _); discriminate).
  assert (E3 : forallb isfinite (map Fin (a :: l)) = true) by (apply forallb_forall; intros y Hy; apply in_map_iff in Hy; destruct Hy as (z & <- & _); reflexivity).
  unfold flax_std_of, flax_std, flax_centered_std. destruct centered; cbn [map] in *; rewrite ?E2, ?E3, E1; reflexivity.
Qed.
Lemma fmask_std_nan_refuted : exists y yf,
  mask_std 1000 0 None false (Arr [3%nat] [true; true; true]) (Arr [3%nat] [Fin 1; Fin 5; NaN]) = Some (Arr [] [y]) /\
  fmask_std 1000 0 None false (Arr [3%nat] [true; true; true]) (Arr [3%nat] [Fin 1; Fin 5; NaN]) = Some (Arr [] [yf]) /\
  yf = Fin 0 /\ exists r, y = Fin r /\ 0 < r.
Proof.
  rewrite mask_std_none, fmask_std_none by (try lra; reflexivity). cbv zeta. cbn [data selected map contribution].
  do 2 eexists. split; [reflexivity|]. split; [reflexivity|]. split; [apply flax_std_nan; right; right; left; reflexivity|].
  unfold std_of. assert (V : var_of [1; 5; 0] = 14 / 3) by (unfold var_of, mean_of, total; simpl; lra). rewrite V, Rlt_b_true by lra.
  eexists. split; [reflexivity|]. apply sqrt_lt_R0. lra.
Qed.
