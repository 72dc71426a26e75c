(** Proofs about Model/Unroll.v. *)
From Coq Require Import List Arith Lia.
From Verif Require Import Model.Tree Model.Unroll Proofs.ListFacts.
Import ListNotations.

(** ** lax_scan *)
Lemma lax_scan_app {C X Y} (f : C -> X -> C * Y) c xs ys :
  lax_scan f c (xs ++ ys) =
  let '(c1, o1) := lax_scan f c xs in
  let '(c2, o2) := lax_scan f c1 ys in (c2, o1 ++ o2).
Proof.
  revert c; induction xs as [|x xs IH]; intros c; simpl.
  - destruct (lax_scan f c ys); reflexivity.
  - destruct (f c x) as [c1 y]. rewrite IH.
    destruct (lax_scan f c1 xs) as [c2 o2]. destruct (lax_scan f c2 ys) as [c3 o3]. reflexivity.
Qed.

Lemma lax_scan_length {C X Y} (f : C -> X -> C * Y) c xs :
  length (snd (lax_scan f c xs)) = length xs.
Proof.
  revert c; induction xs as [|x xs IH]; intros c; simpl; auto.
  destruct (f c x) as [c1 y]. specialize (IH c1).
  destruct (lax_scan f c1 xs); simpl in *; lia.
Qed.

(** carry after n steps *)
Definition scan_carry {C X Y} (f : C -> X -> C * Y) c (xs : list X) : C := fst (lax_scan f c xs).

Lemma scan_carry_snoc {C X Y} (f : C -> X -> C * Y) c xs x :
  scan_carry f c (xs ++ [x]) = fst (f (scan_carry f c xs) x).
Proof.
  unfold scan_carry. rewrite lax_scan_app. destruct (lax_scan f c xs) as [c1 o1]; simpl.
  destruct (f c1 x); reflexivity.
Qed.

Lemma lax_scan_nth {C X Y} (f : C -> X -> C * Y) c xs t x :
  nth_error xs t = Some x ->
  nth_error (snd (lax_scan f c xs)) t = Some (snd (f (scan_carry f c (firstn t xs)) x)).
Proof.
  revert c t; induction xs as [|x0 xs IH]; intros c t H; destruct t as [|t]; simpl in *;
    try discriminate.
  - injection H as ->. unfold scan_carry; simpl. destruct (f c x) as [c1 y].
    destruct (lax_scan f c1 xs); reflexivity.
  - unfold scan_carry in *; simpl. destruct (f c x0) as [c1 y]. specialize (IH c1 t H).
    destruct (lax_scan f c1 xs) as [c2 o2] eqn:E; simpl in *.
    destruct (lax_scan f c1 (firstn t xs)); simpl in *. exact IH.
Qed.

Section U.
  Context {K P S X Y : Type} (split : K -> K * K) (tf : transformed K P S X Y).

  Lemma unroll_apply_eq skip p s rng xs :
    unroll_apply split tf skip p s rng xs =
    (snd (lax_scan (scan_f split tf p) (s, rng) (if skip then tl xs else xs)),
     fst (fst (lax_scan (scan_f split tf p) (s, rng) (if skip then tl xs else xs)))).
  Proof.
    unfold unroll_apply. destruct (lax_scan _ _ _) as [[sF k] ys]; reflexivity.
  Qed.

  (** Trace characterisation of unroll_apply (skip_first = false). *)
  Lemma unroll_apply_trace p s0 rng xs ys sF :
    unroll_apply split tf false p s0 rng xs = (ys, sF) ->
    length ys = length xs /\
    exists (st : nat -> S) (key : nat -> option K),
      st 0 = s0 /\ key 0 = rng /\ st (length xs) = sF /\
      forall t x, nth_error xs t = Some x ->
        exists y, nth_error ys t = Some y /\
          t_apply tf p (st t) (option_map (fun k => snd (split k)) (key t)) x = (y, st (1 + t)) /\
          key (1 + t) = option_map (fun k => fst (split k)) (key t).
  Proof.
    rewrite unroll_apply_eq; intros H; injection H as Hy Hs.
    set (f := scan_f split tf p) in *.
    split. { subst ys; apply lax_scan_length. }
    exists (fun t => fst (scan_carry f (s0, rng) (firstn t xs))),
           (fun t => snd (scan_carry f (s0, rng) (firstn t xs))).
    repeat split.
    - rewrite firstn_all; exact Hs.
    - intros t x Hx.
      change (1 + t) with (Datatypes.S t). rewrite (firstn_snoc _ _ _ Hx), scan_carry_snoc.
      pose proof (lax_scan_nth f (s0, rng) xs t x Hx) as Hn. rewrite Hy in Hn.
      destruct (scan_carry f (s0, rng) (firstn t xs)) as [s k].
      exists (snd (f (s, k) x)). split; [exact Hn|].
      unfold f, scan_f. destruct k as [k|]; simpl.
      + destruct (split k) as [a b]; simpl. destruct (t_apply tf p s (Some b) x); simpl; auto.
      + destruct (t_apply tf p s None x); simpl; auto.
  Qed.

  Lemma unroll_unfold skip rng po so x0 xs :
    unroll split tf skip rng po so (x0 :: xs) =
    Some (unroll_apply split tf skip
            (match po with None => fst (t_init tf rng x0) | Some p => p end)
            (match so with None => snd (t_init tf rng x0) | Some s => s end) rng (x0 :: xs)).
  Proof.
    unfold unroll, unroll_init. destruct (t_init tf rng x0); reflexivity.
  Qed.

  Lemma unroll_apply_app p s rng xs ys :
    unroll_apply split tf false p s rng (xs ++ ys) =
    let '(c1, o1) := lax_scan (scan_f split tf p) (s, rng) xs in
    let '(c2, o2) := lax_scan (scan_f split tf p) c1 ys in (o1 ++ o2, fst c2).
  Proof.
    rewrite unroll_apply_eq, lax_scan_app.
    destruct (lax_scan _ _ xs) as [c1 o1]. destruct (lax_scan _ c1 ys) as [c2 o2]. reflexivity.
  Qed.

  Lemma scan_key_none p s xs :
    snd (fst (lax_scan (scan_f split tf p) (s, None) xs)) = None.
  Proof.
    revert s; induction xs as [|x xs IH]; intros s; [reflexivity|].
    cbn [lax_scan]. unfold scan_f at 1.
    destruct (t_apply tf p s None x) as [y s']. specialize (IH s').
    destruct (lax_scan (scan_f split tf p) (s', None) xs) as [[? ?] ?]; exact IH.
  Qed.

  Lemma unroll_causal rng po so x0 pre suf1 suf2 ys1 ys2 s1 s2 :
    unroll split tf false rng po so ((x0 :: pre) ++ suf1) = Some (ys1, s1) ->
    unroll split tf false rng po so ((x0 :: pre) ++ suf2) = Some (ys2, s2) ->
    firstn (length (x0 :: pre)) ys1 = firstn (length (x0 :: pre)) ys2.
  Proof.
    rewrite <- !app_comm_cons, !unroll_unfold, !app_comm_cons.
    set (p := match po with None => _ | Some p => p end).
    set (s := match so with None => _ | Some s => s end).
    rewrite !unroll_apply_app.
    pose proof (lax_scan_length (scan_f split tf p) (s, rng) (x0 :: pre)) as Hl.
    destruct (lax_scan (scan_f split tf p) (s, rng) (x0 :: pre)) as [c1 o1].
    destruct (lax_scan _ c1 suf1) as [c2 o2]. destruct (lax_scan _ c1 suf2) as [c3 o3].
    simpl snd in Hl. intros H1 H2; injection H1 as <- _; injection H2 as <- _.
    rewrite <- Hl, !firstn_app, !Nat.sub_diag. reflexivity.
  Qed.

  Lemma unroll_prefix rng po so x0 pre suf ys1 ys2 s1 s2 :
    unroll split tf false rng po so ((x0 :: pre) ++ suf) = Some (ys1, s1) ->
    unroll split tf false rng po so (x0 :: pre) = Some (ys2, s2) ->
    ys2 = firstn (length (x0 :: pre)) ys1.
  Proof.
    intros H1 H2.
    assert (H2' : unroll split tf false rng po so ((x0 :: pre) ++ []) = Some (ys2, s2))
      by (rewrite app_nil_r; exact H2).
    rewrite (unroll_causal _ _ _ _ _ _ _ _ _ _ _ H1 H2').
    rewrite unroll_unfold in H2. injection H2 as H2.
    apply unroll_apply_trace in H2. destruct H2 as [Hl _]. rewrite <- Hl, firstn_all. reflexivity.
  Qed.

  Lemma unroll_resume po so xs ys o1 s1 p1 :
    unroll split tf false None po so xs = Some (o1, s1) ->
    ys <> [] ->
    (** [p1] the parameters used by the first call *)
    (po = Some p1 \/ (po = None /\ exists x0 r, xs = x0 :: r /\ p1 = fst (t_init tf None x0))) ->
    forall o2 s2,
    unroll split tf false None (Some p1) (Some s1) ys = Some (o2, s2) ->
    unroll split tf false None po so (xs ++ ys) = Some (o1 ++ o2, s2).
  Proof.
    intros H1 Hne Hp o2 s2 H2.
    destruct xs as [|x0 xs]; [discriminate|]. destruct ys as [|y0 ys]; [congruence|].
    rewrite <- app_comm_cons, unroll_unfold, app_comm_cons.
    rewrite unroll_unfold in H1, H2.
    assert (Ep : match po with None => fst (t_init tf None x0) | Some p => p end = p1).
    { destruct Hp as [->|[-> (x & r & Hx & ->)]]; auto. injection Hx as -> _; auto. }
    rewrite Ep in *. injection H1 as H1. injection H2 as H2.
    rewrite unroll_apply_app. rewrite unroll_apply_eq in H1, H2.
    set (s := match so with None => _ | Some s => s end) in *.
    pose proof (scan_key_none p1 s (x0 :: xs)) as Hk.
    destruct (lax_scan (scan_f split tf p1) (s, None) (x0 :: xs)) as [[c k] oo].
    simpl in H1, Hk; subst k; injection H1 as -> ->.
    destruct (lax_scan (scan_f split tf p1) (s1, None) (y0 :: ys)) as [[c2 k2] oo2].
    simpl in H2; injection H2 as -> ->. reflexivity.
  Qed.

  Lemma unroll_skip rng po so x0 xs :
    unroll split tf true rng po so (x0 :: xs) =
    Some (unroll_apply split tf false
            (match po with None => fst (t_init tf rng x0) | Some p => p end)
            (match so with None => snd (t_init tf rng x0) | Some s => s end) rng xs).
  Proof. rewrite unroll_unfold, !unroll_apply_eq. reflexivity. Qed.

  (** ** fori loop *)
  Lemma set_nth_app (a : list Y) y0 y b i :
    i = length a -> set_nth i y (a ++ y0 :: b) = (a ++ [y]) ++ b.
  Proof.
    intros ->. induction a as [|z a IH]; simpl; [reflexivity|]. f_equal; exact IH.
  Qed.

  Lemma fori_run p rng nan_out : forall todo done_ s out,
    length out = length done_ ->
    fori_loop (length done_) (length todo) (fori_body tf p rng (done_ ++ todo))
      (s, out ++ repeat nan_out (length todo)) =
    let '(sF, ys) := lax_scan (fun s x => let '(y, s') := t_apply tf p s rng x in (s', y)) s todo
    in (sF, out ++ ys).
  Proof.
    induction todo as [|x todo IH]; intros dn s out Hl; simpl.
    - reflexivity.
    - unfold fori_body at 2.
      rewrite nth_error_app2, Nat.sub_diag by lia. simpl.
      destruct (t_apply tf p s rng x) as [y s'].
      replace (set_nth (length dn) y (out ++ nan_out :: repeat nan_out (length todo)))
        with ((out ++ [y]) ++ repeat nan_out (length todo))
        by (symmetry; apply set_nth_app; auto).
      specialize (IH (dn ++ [x]) s' (out ++ [y])).
      rewrite <- app_assoc in IH. simpl in IH.
      rewrite !app_length in IH. simpl in IH.
      replace (length dn + 1) with (Datatypes.S (length dn)) in IH by lia.
      rewrite IH by lia.
      destruct (lax_scan _ s' todo) as [sF ys]. rewrite <- app_assoc. reflexivity.
  Qed.

  Lemma fori_eq_scan nan_out (skip : bool) rng po so (xs : list X) :
    (forall p s k1 k2 x, t_apply tf p s k1 x = t_apply tf p s k2 x) ->
    (if skip then tl xs else xs) <> [] ->
    dynamic_unroll_fori_loop tf nan_out skip rng po so xs = unroll split tf skip rng po so xs.
  Proof.
    intros Hk Hne. unfold dynamic_unroll_fori_loop, unroll.
    destruct (unroll_init tf rng xs) as [[p0 s0]|]; [|reflexivity].
    set (p := match po with None => p0 | Some p => p end).
    set (s := match so with None => s0 | Some s => s end).
    rewrite unroll_apply_eq. set (xs' := if skip then tl xs else xs) in *.
    destruct xs' as [|x r] eqn:E; [congruence|]. rewrite <- E in *; clear E x r.
    pose proof (fori_run p rng nan_out xs' [] s [] eq_refl) as H. simpl in H. rewrite H. clear H Hne.
    set (g := fun (s : S) (x : X) => let '(y, s') := t_apply tf p s rng x in (s', y)).
    assert (G : forall xs s rng',
       let a := lax_scan g s xs in
       let b := lax_scan (scan_f split tf p) (s, rng') xs in
       fst a = fst (fst b) /\ snd a = snd b).
    { clear - Hk. induction xs as [|x xs IH]; intros s rng'; simpl; [auto|].
      unfold g at 1 3.
      destruct rng' as [k|]; [destruct (split k) as [a b]|];
      [ rewrite (Hk p s (Some b) rng x) | rewrite (Hk p s None rng x) ];
      destruct (t_apply tf p s rng x) as [y s'];
      [ specialize (IH s' (Some a)) | specialize (IH s' None) ];
      destruct (lax_scan g s' xs) as [c1 o1];
      destruct (lax_scan (scan_f split tf p) _ xs) as [[c2 kk] o2]; simpl in *; intuition congruence. }
    specialize (G xs' s rng).
    destruct (lax_scan g s xs') as [c1 o1].
    destruct (lax_scan (scan_f split tf p) _ xs') as [[c2 kk] o2]; simpl in *.
    destruct G; subst; reflexivity.
  Qed.
End U.
