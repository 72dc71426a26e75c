From Coq Require Import List Arith Lia.
From Verif Require Import Model.Tree Model.Unroll Model.UnrollMore Spec.TreeSpec Proofs.ListFacts Proofs.UnrollProofs
  Proofs.TreeProofs Proofs.UnrollExtra.
Import ListNotations.

Section M.
  Context {K P S X Y : Type} (split : K -> K * K) (tf : transformed K P S X Y).

  Lemma transform_apply (skip : bool) p s rng xs :
    u_apply (unroll_transform split (total_pair tf) skip) p s rng xs = unroll_apply split tf skip p s rng xs.
  Proof. reflexivity. Qed.

  Lemma unroll_any_plain skip rng params state xs :
    unroll_any split (Plain tf) skip rng params state xs = unroll split tf skip rng params state xs.
  Proof. destruct xs; reflexivity. Qed.

  Lemma unroll_any_already split' skip skip' rng params state xs :
    unroll_any split' (Already (unroll_transform split (total_pair tf) skip)) skip' rng params state xs =
    unroll split tf skip rng params state xs.
  Proof. destruct xs; reflexivity. Qed.

  Lemma deprecated_same skip rng params state xs :
    init_params_state split tf rng xs = unroll_init tf rng xs /\
    dynamic_unroll split tf params state rng skip xs = unroll split tf skip rng params state xs.
  Proof. destruct xs; split; reflexivity. Qed.

  Definition nest_f (skip_in : bool) (p : P) (st : S * option K) (c : list X) : (S * option K) * list Y :=
    let '(state, rng) := st in
    let '(rng', sub_rng) := match rng with Some k => let '(a, b) := split k in (Some a, Some b) | None => (None, None) end in
    let '(o, s') := unroll_apply split tf skip_in p state sub_rng c in ((s', rng'), o).

  Lemma nest_trace skip_in p : forall (chunks : list (list X)) s rng,
    exists yss sF kF, lax_scan (nest_f skip_in p) (s, rng) chunks = ((sF, kF), yss) /\ length yss = length chunks /\
    exists (st : nat -> S) (key : nat -> option K),
      st 0 = s /\ key 0 = rng /\ st (length chunks) = sF /\
      forall i c, nth_error chunks i = Some c ->
        exists ys, nth_error yss i = Some ys /\
          unroll_apply split tf skip_in p (st i) (option_map (fun k => snd (split k)) (key i)) c = (ys, st (1 + i)) /\
          key (1 + i) = option_map (fun k => fst (split k)) (key i).
  Proof.
    induction chunks as [|c chunks IH]; intros s rng.
    - exists [], s, rng. split; [reflexivity|]. split; [reflexivity|]. exists (fun _ => s), (fun _ => rng).
      repeat (split; [reflexivity|]). intros [|i] c H; discriminate.
    - destruct (unroll_apply split tf skip_in p s (option_map (fun k => snd (split k)) rng) c) as [o s'] eqn:E.
      destruct (IH s' (option_map (fun k => fst (split k)) rng)) as (yss & sF & kF & H1 & H2 & st & key & H3 & H4 & H5 & H6).
      exists (o :: yss), sF, kF. split.
      { cbn [lax_scan]. unfold nest_f at 1. destruct rng as [k|]; [destruct (split k) as [a b] eqn:Es|];
          cbn [option_map] in E, H1; try rewrite Es in E, H1; cbn [fst snd] in E, H1; rewrite E, H1; reflexivity. }
      split; [cbn; congruence|].
      exists (fun i => match i with 0 => s | Datatypes.S j => st j end), (fun i => match i with 0 => rng | Datatypes.S j => key j end).
      split; [reflexivity|]. split; [reflexivity|]. split; [exact H5|].
      intros [|i] c' Hc; cbn [nth_error] in Hc.
      + injection Hc as <-. exists o. split; [reflexivity|]. cbn [Nat.add]. rewrite H3, H4. split; [exact E|reflexivity].
      + exact (H6 i c' Hc).
  Qed.

  Lemma nest_flat skip_in p : forall (chunks : list (list X)) s,
    exists yss sF, lax_scan (nest_f skip_in p) (s, None) chunks = ((sF, None), yss) /\
      unroll_apply split tf false p s None (concat (map (fun c => if skip_in then tl c else c) chunks)) = (concat yss, sF) /\
      map (@length Y) yss = map (fun c => length (if skip_in then tl c else c)) chunks.
  Proof.
    induction chunks as [|c chunks IH]; intros s.
    - exists [], s. repeat split; reflexivity.
    - destruct (unroll_apply split tf skip_in p s None c) as [o s'] eqn:E.
      destruct (IH s') as (yss & sF & H1 & H2 & H3). exists (o :: yss), sF.
      split. { cbn [lax_scan]. unfold nest_f at 1. rewrite E, H1. reflexivity. }
      assert (E' : unroll_apply split tf false p s None (if skip_in then tl c else c) = (o, s')).
      { destruct skip_in; exact E. }
      split.
      + cbn [map concat]. unfold unroll_apply in *. rewrite lax_scan_app.
        assert (Hn := scan_key_none split tf p s (if skip_in then tl c else c)).
        unfold scan_carry in Hn.
        destruct (lax_scan (scan_f split tf p) (s, None) (if skip_in then tl c else c)) as [[a b] ys] eqn:E1.
        cbn [fst snd] in Hn. assert (ys = o) by congruence. assert (a = s') by congruence. assert (b = None) by congruence. subst.
        destruct (lax_scan (scan_f split tf p) (s', None) (concat (map (fun c => if skip_in then tl c else c) chunks))) as [[a b] ys].
        congruence.
      + cbn [map]. f_equal; [|exact H3]. unfold unroll_apply in E'.
        assert (L := lax_scan_length (scan_f split tf p) (s, None) (if skip_in then tl c else c)).
        cbn [fst snd] in *. destruct (lax_scan (scan_f split tf p) (s, None) (if skip_in then tl c else c)) as [[a b] ys]. cbn [snd] in L. assert (ys = o) by congruence. subst ys. exact L.
  Qed.

  Lemma nested_flat (skip_in skip_out : bool) params state x0 r rest :
    let xss := (x0 :: r) :: rest in
    let chunks := map (fun c => if skip_in then tl c else c) (if skip_out then tl xss else xss) in
    exists yss sF,
      unroll_any split (Already (unroll_transform split (unroll_transform split (total_pair tf) skip_in) skip_out)) false None params state xss =
        Some (yss, sF) /\
      map (@length Y) yss = map (@length X) chunks /\
      unroll split tf true None params state (x0 :: concat chunks) = Some (concat yss, sF).
  Proof.
    intros xss chunks.
    set (p := match params with None => fst (t_init tf None x0) | Some p => p end).
    set (s := match state with None => snd (t_init tf None x0) | Some s => s end).
    destruct (nest_flat skip_in p (if skip_out then tl xss else xss) s) as (yss & sF & H1 & H2 & H3).
    exists yss, sF. split; [|split].
    - unfold unroll_any. cbn [u_init u_apply unroll_transform total_pair]. unfold xss at 1.
      assert (EI : t_init tf None x0 = (fst (t_init tf None x0), snd (t_init tf None x0))) by apply surjective_pairing.
      rewrite EI. fold p s.
      change (Some (let '((final_state, _), ys) := lax_scan (nest_f skip_in p) (s, None) (if skip_out then tl xss else xss) in (ys, final_state)) = Some (yss, sF)).
      rewrite H1. reflexivity.
    - rewrite H3. unfold chunks. rewrite map_map. reflexivity.
    - unfold unroll. cbn [unroll_init].
      assert (EI : t_init tf None x0 = (fst (t_init tf None x0), snd (t_init tf None x0))) by apply surjective_pairing.
      rewrite EI. fold p s. f_equal. exact H2.
  Qed.

  Lemma nested_trace (skip_in skip_out : bool) rng params state x0 r rest :
    let xss := (x0 :: r) :: rest in
    let chunks := if skip_out then tl xss else xss in
    let p := match params with None => fst (t_init tf rng x0) | Some p => p end in
    exists yss sF,
      unroll_any split (Already (unroll_transform split (unroll_transform split (total_pair tf) skip_in) skip_out)) false rng params state xss =
        Some (yss, sF) /\
      length yss = length chunks /\
      exists (st : nat -> S) (key : nat -> option K),
        st 0 = match state with None => snd (t_init tf rng x0) | Some s => s end /\ key 0 = rng /\ st (length chunks) = sF /\
        forall i c, nth_error chunks i = Some c ->
          key (1 + i) = option_map (fun k => fst (split k)) (key i) /\
          (c <> [] -> exists ys, nth_error yss i = Some ys /\
            unroll split tf skip_in (option_map (fun k => snd (split k)) (key i)) (Some p) (Some (st i)) c = Some (ys, st (1 + i))).
  Proof.
    intros xss chunks p.
    set (s := match state with None => snd (t_init tf rng x0) | Some s => s end).
    destruct (nest_trace skip_in p chunks s rng) as (yss & sF & kF & H1 & H2 & st & key & H3 & H4 & H5 & H6).
    exists yss, sF. split; [|split; [exact H2|]].
    - unfold unroll_any. cbn [u_init u_apply unroll_transform total_pair]. unfold xss at 1.
      assert (EI : t_init tf rng x0 = (fst (t_init tf rng x0), snd (t_init tf rng x0))) by apply surjective_pairing.
      rewrite EI. fold p s.
      change (Some (let '((final_state, _), ys) := lax_scan (nest_f skip_in p) (s, rng) chunks in (ys, final_state)) = Some (yss, sF)).
      rewrite H1. reflexivity.
    - exists st, key. split; [exact H3|]. split; [exact H4|]. split; [exact H5|].
      intros i c Hc. destruct (H6 i c Hc) as (ys & Hy & Hu & Hk). split; [exact Hk|].
      intros Hne. exists ys. split; [exact Hy|]. destruct c as [|c0 c]; [congruence|].
      unfold unroll. cbn [unroll_init]. destruct (t_init tf _ c0). f_equal. exact Hu.
  Qed.
End M.

Lemma static_scan_no_xs_raises {C B} (f : C -> tree unit -> C * tree B) init n : static_scan_no_xs f init n = None.
Proof.
  unfold static_scan_no_xs, static_scan, iter_first_axis. cbn [tree_leaves].
  assert (H : flat_map (@tree_leaves (list unit)) (repeat (Node []) n) = []).
  { induction n; cbn; auto. }
  rewrite H. reflexivity.
Qed.

Section D.
  Context {A I : Type} (td : tree unit).

  Lemma data_loop_static (xs : option (tree unit * list (list A))) gen :
    data_loop xs gen = snd (static_loop (fun (_ : unit) (x : tree A) => (tt, x)) tt xs (map (@fst _ I) gen)).
  Proof.
    revert xs; induction gen as [|[o i] gen IH]; intros xs; [reflexivity|]. cbn [data_loop map fst static_loop]. apply IH.
  Qed.

  Lemma leaf_slices (out : tree (list A)) (obs : list (tree A)) :
    tree_def out = td -> (forall o, In o obs -> tree_def o = td) ->
    (forall i l, nth_error (tree_leaves out) i = Some l -> leaf_rows obs l i) -> slices out obs.
  Proof.
    intros Hd Ho Hl. split.
    - intros l Hin. apply In_nth_error in Hin. destruct Hin as [i Hi]. specialize (Hl i l Hi).
      unfold leaf_rows in Hl. apply (f_equal (@length _)) in Hl. rewrite !map_length in Hl. exact Hl.
    - intros t s Ht. apply tree_ext.
      + rewrite !tree_def_map, Hd. apply Ho. eapply nth_error_In, Ht.
      + rewrite !tree_leaves_map. apply nth_error_ext. intros i. rewrite !nth_error_map.
        assert (Hds : tree_def s = td) by (apply Ho; eapply nth_error_In, Ht).
        assert (Hlen : length (tree_leaves s) = length (tree_leaves out)).
        { rewrite <- (tree_leaves_def_length s), <- (tree_leaves_def_length out). congruence. }
        destruct (nth_error (tree_leaves out) i) as [l|] eqn:Ei.
        * specialize (Hl i l Ei). unfold leaf_rows in Hl.
          assert (Hi : i < length (tree_leaves s)) by (rewrite Hlen; apply nth_error_Some; congruence).
          destruct (nth_error_lt _ _ Hi) as [b Hb]. rewrite Hb. cbn [option_map]. f_equal.
          apply (f_equal (fun q => nth_error q t)) in Hl. rewrite !nth_error_map, Ht in Hl. cbn [option_map] in Hl.
          rewrite Hb in Hl. destruct (nth_error l t); cbn in Hl; congruence.
        * apply nth_error_None in Ei. rewrite (proj2 (nth_error_None (tree_leaves s) i)) by lia. reflexivity.
  Qed.

  Lemma data_loop_spec : forall (gen : list (tree A * I)) prev ys,
    (forall o, In o (map fst gen) -> tree_def o = td) ->
    length ys = length (tree_leaves td) ->
    (forall i l, nth_error ys i = Some l -> leaf_rows prev l i) ->
    exists ys', data_loop (Some (td, ys)) gen = Some (td, ys') /\ length ys' = length (tree_leaves td) /\
      (forall i l, nth_error ys' i = Some l -> leaf_rows (prev ++ map fst gen) l i).
  Proof.
    induction gen as [|[y j] gen IH]; intros prev ys Ho Hl Hr.
    - exists ys. rewrite app_nil_r. auto.
    - assert (Hd : tree_def y = td) by (apply Ho; left; reflexivity).
      assert (Hly : length (tree_leaves y) = length (tree_leaves td)) by (rewrite <- Hd, tree_leaves_def_length; reflexivity).
      cbn [data_loop]. rewrite Hd.
      destruct (IH (prev ++ [y]) (append_leaves ys (tree_leaves y))) as (ys' & E & E1 & E2).
      + intros o Hin. apply Ho. right. exact Hin.
      + rewrite append_leaves_length; congruence.
      + intros i l H.
        assert (Hi : i < length (tree_leaves y)).
        { rewrite <- (append_leaves_length ys) by congruence. apply nth_error_Some; congruence. }
        destruct (nth_error_lt _ _ Hi) as [b Hb].
        destruct (nth_error_lt ys i ltac:(lia)) as [l0 Hl0].
        rewrite (append_leaves_nth _ _ _ _ _ Hl0 Hb) in H. injection H as <-.
        unfold leaf_rows. rewrite !map_app. rewrite (Hr _ _ Hl0). simpl. rewrite Hb. reflexivity.
      + exists ys'. split; [exact E|]. split; [exact E1|]. intros i l H. specialize (E2 i l H). rewrite <- app_assoc in E2. exact E2.
  Qed.

  Lemma data_unroll_spec (gen : list (tree A * I)) :
    gen <> [] -> (forall o i, In (o, i) gen -> tree_def o = td) ->
    exists out, data_unroll gen = Some out /\ tree_def out = td /\ slices out (map fst gen).
  Proof.
    intros Hne Ho'. assert (Ho : forall o, In o (map fst gen) -> tree_def o = td).
    { intros o Hin. apply in_map_iff in Hin. destruct Hin as [[o' i] [<- Hin]]. exact (Ho' _ _ Hin). }
    destruct gen as [|[y j] gen]; [congruence|]. unfold data_unroll. cbn [data_loop].
    assert (Hd : tree_def y = td) by (apply Ho; left; reflexivity).
    assert (Hly : length (tree_leaves y) = length (tree_leaves td)) by (rewrite <- Hd, tree_leaves_def_length; reflexivity).
    rewrite Hd.
    destruct (data_loop_spec gen [y] (append_leaves (map (fun _ => []) (tree_leaves y)) (tree_leaves y))) as (ys' & E & E1 & E2).
    - intros o Hin. apply Ho. right. exact Hin.
    - rewrite append_leaves_length; [congruence|rewrite map_length; reflexivity].
    - intros i l H.
      assert (Hi : i < length (tree_leaves y)).
      { rewrite <- (append_leaves_length (map (fun _ => []) (tree_leaves y))) by (rewrite map_length; reflexivity). apply nth_error_Some; congruence. }
      destruct (nth_error_lt _ _ Hi) as [b Hb].
      rewrite (append_leaves_nth _ _ i [] b) in H; [| |exact Hb].
      + injection H as <-. unfold leaf_rows; simpl. rewrite Hb; reflexivity.
      + rewrite nth_error_map, Hb. reflexivity.
    - rewrite E. destruct (tree_unflatten_total td ys' E1) as (out & U1 & U2 & U3).
      exists out. split; [exact U1|]. split; [exact U3|]. apply leaf_slices; auto. intros i l H. rewrite U2 in H. exact (E2 i l H).
  Qed.
End D.

Lemma data_unroll_static {K P S A B I} (split : K -> K * K) (tf : transformed K P S (tree A) (tree B)) td td' (gen : list (tree A * I))
  rng params state :
  gen <> [] -> (forall o i, In (o, i) gen -> tree_def o = td) -> tree_leaves td <> [] ->
  (forall p s k x, tree_def (fst (t_apply tf p s k x)) = td') ->
  exists xs out ys sF,
    data_unroll gen = Some xs /\ unroll_static split tf false rng params state xs = Some (out, sF) /\
    unroll split tf false rng params state (map fst gen) = Some (ys, sF) /\ slices out ys.
Proof.
  intros Hne Ho Hl Hf. destruct (data_unroll_spec td gen Hne Ho) as (xs & E & Ed & Es).
  destruct (unroll_static_spec split tf td' false rng params state xs (map fst gen)) as (out & ys & sF & H1 & H2 & H3).
  - exact Hf.
  - exact Es.
  - intros H. apply Hl. rewrite <- Ed. unfold tree_def. rewrite tree_leaves_map, H. reflexivity.
  - destruct gen; [congruence|discriminate].
  - eauto 8.
Qed.
