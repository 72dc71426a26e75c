From Coq Require Import List Arith Lia.
From Verif Require Import Model.Tree Model.Unroll Model.Batch Spec.BatchSpec Proofs.ListFacts Proofs.UnrollProofs
  Proofs.TreeProofs.
Import ListNotations.

Section B.
  Context {K P S X Y : Type} (split : K -> K * K) (splitn : nat -> K -> list K)
    (tf : transformed K P S X Y).

  Lemma lanes_nth : forall ps ss ks xs r,
    vmap_apply_lanes tf ps ss ks xs = Some r ->
    forall i p s k x, nth_error ps i = Some p -> nth_error ss i = Some s ->
      nth_error ks i = Some k -> nth_error xs i = Some x ->
      nth_error r i = Some (t_apply tf p s k x).
  Proof.
    induction ps as [|p0 ps IH]; intros [|s0 ss] [|k0 ks] [|x0 xs] r H i p s k x Hp Hs Hk Hx;
      simpl in H; try discriminate.
    - destruct i; discriminate.
    - destruct (vmap_apply_lanes tf ps ss ks xs) as [r'|] eqn:E; [|discriminate].
      injection H as <-. destruct i as [|i]; simpl in *; [congruence|].
      eapply IH; eauto.
  Qed.

  Lemma lanes_lengths : forall ps ss ks xs r,
    vmap_apply_lanes tf ps ss ks xs = Some r ->
    length ps = length xs /\ length ss = length xs /\ length ks = length xs /\ length r = length xs.
  Proof.
    induction ps as [|p0 ps IH]; intros [|s0 ss] [|k0 ks] [|x0 xs] r H;
      simpl in H; try discriminate.
    - injection H as <-; auto.
    - destruct (vmap_apply_lanes tf ps ss ks xs) as [r'|] eqn:E; [|discriminate].
      injection H as <-. apply IH in E. simpl; intuition lia.
  Qed.

  Lemma lanes_total : forall ps ss ks xs,
    length ps = length xs -> length ss = length xs -> length ks = length xs ->
    exists r, vmap_apply_lanes tf ps ss ks xs = Some r.
  Proof.
    induction ps as [|p0 ps IH]; intros [|s0 ss] [|k0 ks] [|x0 xs] H1 H2 H3; simpl in *;
      try discriminate; eauto.
    destruct (IH ss ks xs) as [r ->]; eauto.
  Qed.

  Notation lane_key := (lane_key split splitn).
  Notation lane_module := (lane_module split splitn tf).

  Lemma vmap_apply_lane split_rng ps ss rng xs ys ss' :
    vmap_apply split splitn tf split_rng ps ss rng xs = Some (ys, ss') ->
    (forall n k, length (splitn n k) = n) ->
    length ps = length xs /\ length ss = length xs /\ length ys = length xs /\ length ss' = length xs /\
    forall i p s x, nth_error ps i = Some p -> nth_error ss i = Some s -> nth_error xs i = Some x ->
      let r := t_apply tf p s (lane_key split_rng (length xs) i rng) x in
      nth_error ys i = Some (fst r) /\ nth_error ss' i = Some (snd r).
  Proof.
    unfold vmap_apply, BatchSpec.lane_key. intros H Hn. destruct split_rng.
    - destruct rng as [k|]; simpl in H; [|discriminate].
      destruct (vmap_apply_lanes tf ps ss _ xs) as [r|] eqn:E; [|discriminate].
      simpl in H; injection H as <- <-.
      destruct (lanes_lengths _ _ _ _ _ E) as (L1 & L2 & L3 & L4).
      rewrite !map_length. do 4 (split; [congruence|]). intros i p s x Hp Hs Hx; cbn zeta.
      destruct (nth_error_lt (splitn (length xs) (snd (split k))) i) as [ki Hki].
      { rewrite Hn, <- L1. apply nth_error_Some; congruence. }
      assert (Hr : nth_error r i = Some (t_apply tf p s (Some ki) x)).
      { eapply lanes_nth; eauto. rewrite nth_error_map, Hki; reflexivity. }
      rewrite !nth_error_map, Hr, Hki. auto.
    - destruct (vmap_apply_lanes tf ps ss _ xs) as [r|] eqn:E; [|discriminate].
      simpl in H; injection H as <- <-.
      destruct (lanes_lengths _ _ _ _ _ E) as (L1 & L2 & L3 & L4).
      rewrite !map_length. do 4 (split; [congruence|]). intros i p s x Hp Hs Hx; cbn zeta.
      assert (Hr : nth_error r i = Some (t_apply tf p s None x)).
      { eapply lanes_nth; eauto. rewrite nth_error_map, Hx; reflexivity. }
      rewrite !nth_error_map, Hr. auto.
  Qed.

  Lemma add_batch_lanes ps ss k xs : (forall n k, length (splitn n k) = n) ->
    (length ps = length xs -> length ss = length xs ->
     exists ys ss', add_batch_apply split splitn tf ps ss k xs = Some (ys, ss') /\
     length ys = length xs /\ length ss' = length xs /\
     forall i p s x, nth_error ps i = Some p -> nth_error ss i = Some s -> nth_error xs i = Some x ->
       let r := t_apply tf p s (nth_error (splitn (length xs) (snd (split k))) i) x in
       nth_error ys i = Some (fst r) /\ nth_error ss' i = Some (snd r)) /\
    (length ps <> length xs \/ length ss <> length xs -> add_batch_apply split splitn tf ps ss k xs = None).
  Proof.
    intros Hk. split.
    - intros Hp Hs.
      destruct (lanes_total ps ss (map Some (splitn (length xs) (snd (split k)))) xs) as [r Hr]; auto; [rewrite map_length; auto|].
      assert (E : vmap_apply split splitn tf true ps ss (Some k) xs = Some (map fst r, map snd r)).
      { unfold vmap_apply, next_rng_key. cbn [option_map]. rewrite Hr. reflexivity. }
      exists (map fst r), (map snd r). split; [unfold add_batch_apply; rewrite E; reflexivity|].
      destruct (vmap_apply_lane _ _ _ _ _ _ _ E Hk) as (_ & _ & L1 & L2 & H).
      split; [exact L1|]. split; [exact L2|]. intros i p s x Hi1 Hi2 Hi3. cbv zeta.
      specialize (H i p s x Hi1 Hi2 Hi3). cbv zeta in H. exact H.
    - intros Hd. assert (G : forall b, vmap_apply split splitn tf b ps ss (Some k) xs = None).
      { intros b. destruct (vmap_apply split splitn tf b ps ss (Some k) xs) as [[ys ss']|] eqn:E; [|reflexivity].
        destruct (vmap_apply_lane _ _ _ _ _ _ _ E Hk) as (L1 & L2 & _). lia. }
      unfold add_batch_apply. rewrite !G. reflexivity.
  Qed.

  Lemma batch_scan_lane split_rng (n : nat) ps : (forall n k, length (splitn n k) = n) ->
    forall xss ss rng yss sF,
    length ss = n ->
    (forall xs, In xs xss -> length xs = n) ->
    batch_scan split splitn tf split_rng ps ss rng xss = Some (yss, sF) ->
    forall i p s, nth_error ps i = Some p -> nth_error ss i = Some s ->
    forall xi, column i xss = map Some xi ->
    let '(c, yi) := lax_scan (scan_f split (lane_module split_rng n i) p) (s, rng) xi in
    column i yss = map Some yi /\ nth_error sF i = Some (fst c).
  Proof.
    intros Hn. induction xss as [|xs xss IH]; intros ss rng yss sF Hss Hrows H i p s Hp Hs xi Hxi.
    - destruct xi; [|discriminate]. simpl in *. injection H as <- <-. auto.
    - destruct xi as [|x xi]; [discriminate|]. cbn in Hxi. injection Hxi as Hx Hxi.
      cbn [batch_scan] in H.
      set (rng' := option_map (fun k => fst (split k)) rng) in *.
      set (sub := option_map (fun k => snd (split k)) rng) in *.
      destruct (vmap_apply split splitn tf split_rng ps ss sub xs) as [[ys ss']|] eqn:E; [|discriminate].
      destruct (batch_scan split splitn tf split_rng ps ss' rng' xss) as [[yss' sF']|] eqn:E2; [|discriminate].
      injection H as <- <-.
      apply vmap_apply_lane in E; auto. destruct E as (L1 & L2 & L3 & L4 & Hlane).
      specialize (Hlane i p s x Hp Hs Hx). cbn zeta in Hlane. destruct Hlane as [Hy Hs'].
      assert (Hxs : length xs = n) by (apply Hrows; left; reflexivity).
      rewrite Hxs in Hy, Hs'.
      assert (Hsc : scan_f split (lane_module split_rng n i) p (s, rng) x =
        ((snd (t_apply tf p s (lane_key split_rng n i sub) x), rng'),
          fst (t_apply tf p s (lane_key split_rng n i sub) x))).
      { unfold scan_f, BatchSpec.lane_module; cbn [t_apply]. subst sub rng'.
        destruct rng as [k|]; cbn; [destruct (split k) as [a b] eqn:Ek; cbn|];
        match goal with |- context [let '(_, _) := ?q in _] => destruct q end; reflexivity. }
      cbn [lax_scan]. rewrite Hsc.
      specialize (IH ss' rng' yss' sF' ltac:(congruence)
                    (fun xs0 h => Hrows xs0 (or_intror h)) E2 i p _ Hp Hs' xi Hxi).
      destruct (lax_scan _ _ xi) as [c yi]. destruct IH as [IH1 IH2]. split; auto.
      cbn. rewrite Hy. f_equal. exact IH1.
  Qed.

  (** VMap never fails on well-shaped batches without key splitting *)
  Lemma batch_scan_total ps n : length ps = n -> forall xss ss rng,
    length ss = n -> (forall xs, In xs xss -> length xs = n) ->
    exists yss sF, batch_scan split splitn tf false ps ss rng xss = Some (yss, sF).
  Proof.
    intros Hps. induction xss as [|xs xss IH]; intros ss rng Hss Hrows; simpl; eauto.
    unfold vmap_apply.
    destruct (lanes_total ps ss (map (fun _ => None) xs) xs) as [r Er].
    - rewrite Hps; symmetry; apply Hrows; left; auto.
    - rewrite Hss; symmetry; apply Hrows; left; auto.
    - apply map_length.
    - rewrite Er. cbn [option_map].
      pose proof (lanes_lengths _ _ _ _ _ Er) as (_ & L2 & _ & L4).
      destruct (IH (map snd r) (option_map (fun k => fst (split k)) rng)) as (yss & sF & ->); eauto.
      + rewrite map_length; congruence.
      + intros; apply Hrows; right; auto.
  Qed.

  (** ** transform_batch *)
  Lemma batch_scan_f_eq p key : forall xs s,
    lax_scan (batch_scan_f tf) (BatchState p s key) xs =
    let '(sF, ys) := lax_scan (fun s x => (snd (t_apply tf p s key x), fst (t_apply tf p s key x))) s xs in
    (BatchState p sF key, ys).
  Proof.
    induction xs as [|x xs IH]; intros s; cbn [lax_scan]; auto.
    unfold batch_scan_f at 1; cbn. destruct (t_apply tf p s key x) as [y s']; cbn.
    rewrite IH. destruct (lax_scan _ s' xs); reflexivity.
  Qed.

  Lemma transform_batch_resume skip st key xs ys :
    (xs <> [] \/ skip = false) ->
    transform_batch_apply tf skip st key (xs ++ ys) =
    let '(o1, st1) := transform_batch_apply tf skip st key xs in
    let '(o2, st2) := transform_batch_apply tf false st1 key ys in
    (o1 ++ o2, st2).
  Proof.
    intros Hx. unfold transform_batch_apply.
    replace (if skip then tl (xs ++ ys) else xs ++ ys)
      with ((if skip then tl xs else xs) ++ ys)
      by (destruct skip; auto; destruct xs; simpl; auto; destruct Hx; congruence).
    rewrite lax_scan_app. destruct (lax_scan _ st _) as [c1 o1].
    destruct (lax_scan _ c1 ys) as [c2 o2]. reflexivity.
  Qed.

  Lemma unroll_lift_eq skip next p s xs :
    unroll_lift_apply tf skip false next p s xs = unroll_apply split tf skip p s None xs.
  Proof.
    unfold unroll_lift_apply. rewrite unroll_apply_eq.
    set (l := if skip then tl xs else xs). clearbody l. generalize 0. revert s.
    induction l as [|x l IH]; intros s n; cbn [unroll_lift_scan lax_scan]; auto.
    unfold scan_f at 1 3. destruct (t_apply tf p s None x) as [y s']. rewrite IH.
    destruct (lax_scan _ (s', None) l) as [[? ?] ?]. reflexivity.
  Qed.

  Lemma unroll_lift_steps skip rs next p s xs ys sF :
    unroll_lift_apply tf skip rs next p s xs = (ys, sF) ->
    let l := if skip then tl xs else xs in
    length ys = length l /\
    exists ss, length ss = length l + 1 /\ nth_error ss 0 = Some s /\ nth_error ss (length l) = Some sF /\
      forall t x, nth_error l t = Some x -> exists st,
        nth_error ss t = Some st /\
        nth_error ys t = Some (fst (t_apply tf p st (if rs then next t else None) x)) /\
        nth_error ss (t + 1) = Some (snd (t_apply tf p st (if rs then next t else None) x)).
  Proof.
    unfold unroll_lift_apply. set (l := if skip then tl xs else xs). clearbody l. cbv zeta.
    assert (G : forall l s n ys, unroll_lift_scan tf rs next n p s l = (ys, sF) ->
      length ys = length l /\ exists ss, length ss = length l + 1 /\ nth_error ss 0 = Some s /\ nth_error ss (length l) = Some sF /\
      forall t x, nth_error l t = Some x -> exists st,
        nth_error ss t = Some st /\
        nth_error ys t = Some (fst (t_apply tf p st (if rs then next (n + t) else None) x)) /\
        nth_error ss (t + 1) = Some (snd (t_apply tf p st (if rs then next (n + t) else None) x))).
    { clear. induction l as [|x l IH]; intros s n ys E; cbn [unroll_lift_scan] in E.
      - injection E as <- <-. split; [reflexivity|]. exists [s]. repeat split. intros [|t] x Hx; discriminate.
      - destruct (t_apply tf p s (if rs then next n else None) x) as [y s'] eqn:Ea.
        destruct (unroll_lift_scan tf rs next (Datatypes.S n) p s' l) as [ys' sF'] eqn:E'. injection E as <- ->.
        destruct (IH _ _ _ E') as (L & ss & Ls & H0 & HF & H). split; [cbn; lia|].
        exists (s :: ss). split; [cbn; lia|]. split; [reflexivity|]. split; [exact HF|].
        intros [|t] x1 Hx.
        + injection Hx as <-. exists s. rewrite Nat.add_0_r, Ea. split; [reflexivity|]. split; [reflexivity|exact H0].
        + destruct (H t x1 Hx) as (st & A & B & C). exists st. replace (n + Datatypes.S t) with (Datatypes.S n + t) by lia.
          split; [exact A|]. split; [exact B|exact C]. }
    intros E. exact (G l s 0 ys E).
  Qed.
End B.
