From Coq Require Import List Arith Lia.
From Verif Require Import Model.Tree Model.Unroll Spec.TreeSpec Proofs.ListFacts Proofs.UnrollProofs.
Import ListNotations.

Fixpoint tree_ind' {L} (Q : tree L -> Prop) (HL : forall l, Q (Leaf l))
  (HN : forall c, Forall Q c -> Q (Node c)) (t : tree L) : Q t :=
  match t with
  | Leaf l => HL l
  | Node c => HN c ((fix go (c : list (tree L)) : Forall Q c :=
                       match c with
                       | [] => Forall_nil _
                       | x :: r => Forall_cons _ (tree_ind' Q HL HN x) (go r)
                       end) c)
  end.

Lemma tree_map_map {A B C} (f : A -> B) (g : B -> C) t :
  tree_map g (tree_map f t) = tree_map (fun a => g (f a)) t.
Proof.
  induction t as [l|c IH] using tree_ind'; simpl; auto. f_equal.
  induction IH as [|x r Hx Hr IHr]; simpl; auto. f_equal; auto.
Qed.

Lemma tree_leaves_map {A B} (f : A -> B) t : tree_leaves (tree_map f t) = map f (tree_leaves t).
Proof.
  induction t as [l|c IH] using tree_ind'; simpl; auto.
  induction IH as [|x r Hx Hr IHr]; simpl; auto. rewrite map_app, Hx, IHr. reflexivity.
Qed.

Lemma tree_def_map {A B} (f : A -> B) t : tree_def (tree_map f t) = tree_def t.
Proof. unfold tree_def. apply tree_map_map. Qed.

(** Children version of unflatten *)
Fixpoint unflatten_list {L} (cs : list (tree unit)) (ls : list L) : option (list (tree L) * list L) :=
  match cs with
  | [] => Some ([], ls)
  | c0 :: cs' => match unflatten_aux c0 ls with
                 | None => None
                 | Some (t0, r) => match unflatten_list cs' r with
                                   | None => None
                                   | Some (ts, r') => Some (t0 :: ts, r')
                                   end
                 end
  end.

Lemma unflatten_aux_node {L} cs (ls : list L) :
  unflatten_aux (Node cs) ls =
  match unflatten_list cs ls with None => None | Some (ts, r) => Some (Node ts, r) end.
Proof.
  cbn [unflatten_aux].
  match goal with |- match ?g cs ls with _ => _ end = _ =>
    assert (G : forall cs ls, g cs ls = unflatten_list cs ls) end.
  { clear. induction cs as [|c cs IH]; intros ls; [reflexivity|].
    cbn [unflatten_list].
    destruct (unflatten_aux c ls) as [[t r]|]; [|reflexivity]. rewrite IH. reflexivity. }
  rewrite G. reflexivity.
Qed.

Lemma unflatten_flatten {L} (t : tree L) r :
  unflatten_aux (tree_def t) (tree_leaves t ++ r) = Some (t, r).
Proof.
  revert r; induction t as [l|c IH] using tree_ind'; intros r; [reflexivity|].
  unfold tree_def; cbn [tree_map]. rewrite unflatten_aux_node.
  assert (G : unflatten_list (map (tree_map (fun _ => tt)) c) (flat_map tree_leaves c ++ r) = Some (c, r)).
  { revert r; induction IH as [|x xs Hx Hr IHr]; intros r; simpl; auto.
    rewrite <- app_assoc. unfold tree_def in Hx. rewrite Hx, IHr. reflexivity. }
  cbn [tree_leaves]. rewrite G. reflexivity.
Qed.

Lemma tree_unflatten_flatten {L} (t : tree L) :
  tree_unflatten (tree_def t) (tree_leaves t) = Some t.
Proof.
  unfold tree_unflatten. rewrite <- (app_nil_r (tree_leaves t)), unflatten_flatten. reflexivity.
Qed.

(** Changing the leaves: any list of the right length. *)
Lemma unflatten_total {L} (td : tree unit) (ls r : list L) :
  length ls = length (tree_leaves td) ->
  exists t, unflatten_aux td (ls ++ r) = Some (t, r) /\ tree_leaves t = ls /\ tree_def t = td.
Proof.
  revert ls r; induction td as [l|c IH] using tree_ind'; intros ls r Hl.
  - destruct ls as [|a [|b ls]]; simpl in Hl; try discriminate. exists (Leaf a). destruct l; auto.
  - assert (G : exists ts, unflatten_list c (ls ++ r) = Some (ts, r) /\
                flat_map tree_leaves ts = ls /\ map (tree_map (fun _ => tt)) ts = c).
    { revert ls r Hl; induction IH as [|x xs Hx Hr IHr]; intros ls r Hl.
      - destruct ls; try discriminate. exists []; auto.
      - cbn [tree_leaves flat_map] in Hl. rewrite app_length in Hl.
        set (n := length (tree_leaves x)) in *.
        destruct (Hx (firstn n ls) (skipn n ls ++ r)) as (t & E1 & E2 & E3).
        { rewrite firstn_length. cbn in *. lia. }
        destruct (IHr (skipn n ls) r) as (ts & E4 & E5 & E6).
        { rewrite skipn_length. cbn in *. lia. }
        exists (t :: ts). cbn [unflatten_list].
        rewrite app_assoc, firstn_skipn in E1. rewrite E1, E4. cbn. rewrite E2, E5, E6.
        split; auto. split; [apply firstn_skipn|]. unfold tree_def in E3; congruence. }
    destruct G as (ts & E1 & E2 & E3). exists (Node ts).
    rewrite unflatten_aux_node, E1. unfold tree_def; cbn. rewrite E2, E3. auto.
Qed.

Lemma tree_ext {L} (t1 t2 : tree L) :
  tree_def t1 = tree_def t2 -> tree_leaves t1 = tree_leaves t2 -> t1 = t2.
Proof.
  intros H1 H2. pose proof (tree_unflatten_flatten t1) as E1. rewrite H1, H2 in E1.
  rewrite tree_unflatten_flatten in E1. congruence.
Qed.

Lemma tree_unflatten_total {L} (td : tree unit) (ls : list L) :
  length ls = length (tree_leaves td) ->
  exists t, tree_unflatten td ls = Some t /\ tree_leaves t = ls /\ tree_def t = td.
Proof.
  intros H. destruct (unflatten_total td ls [] H) as (t & E & H2 & H3).
  rewrite app_nil_r in E. unfold tree_unflatten. rewrite E. eauto.
Qed.

Lemma tree_leaves_def_length {L} (t : tree L) : length (tree_leaves (tree_def t)) = length (tree_leaves t).
Proof. unfold tree_def. rewrite tree_leaves_map, map_length. reflexivity. Qed.

(** ** mapM *)
Lemma mapM_Some {A B} (f : A -> option B) l bs : map f l = map Some bs -> mapM f l = Some bs.
Proof.
  revert bs; induction l as [|a l IH]; intros [|b bs] H; simpl in *; try discriminate; auto.
  injection H as H1 H2. rewrite H1, (IH _ H2). reflexivity.
Qed.

Lemma mapM_inv {A B} (f : A -> option B) l bs : mapM f l = Some bs -> map f l = map Some bs.
Proof.
  revert bs; induction l as [|a l IH]; intros bs; simpl.
  - intros [= <-]; reflexivity.
  - destruct (f a) eqn:E; [|discriminate]. destruct (mapM f l) eqn:E2; [|discriminate].
    intros [= <-]. simpl. rewrite (IH _ eq_refl). reflexivity.
Qed.

(** ** iter_first_axis *)
Lemma slice_unflatten {A} (xs : tree (list A)) t s :
  tree_map Some s = tree_map (fun l => nth_error l t) xs ->
  (match mapM (fun x => nth_error x t) (tree_leaves xs) with
   | Some leaves => tree_unflatten (tree_def xs) leaves
   | None => None end) = Some s.
Proof.
  intros H.
  assert (Hl : map Some (tree_leaves s) = map (fun l => nth_error l t) (tree_leaves xs)).
  { rewrite <- !tree_leaves_map, H; reflexivity. }
  assert (Hd : tree_def s = tree_def xs).
  { rewrite <- (tree_def_map Some s), H, tree_def_map; reflexivity. }
  rewrite (mapM_Some _ _ _ (eq_sym Hl)), <- Hd. apply tree_unflatten_flatten.
Qed.

Lemma iter_first_axis_slices {A} (xs : tree (list A)) sl :
  slices xs sl -> tree_leaves xs <> [] -> iter_first_axis xs = Some sl.
Proof.
  intros [Hlen Hs] Hne. unfold iter_first_axis.
  destruct (tree_leaves xs) as [|l0 ls] eqn:E; [congruence|].
  rewrite (Hlen l0 (or_introl eq_refl)). apply mapM_Some. rewrite <- E.
  apply nth_error_ext; intros i.
  rewrite !nth_error_map.
  destruct (nth_error sl i) as [s|] eqn:Hi.
  - assert (i < length sl) by (apply nth_error_Some; congruence).
    assert (Hq : nth_error (seq 0 (length sl)) i = Some i).
    { rewrite nth_error_nth' with (d := 0) by (rewrite seq_length; lia). rewrite seq_nth; auto. }
    rewrite Hq. simpl. f_equal. apply slice_unflatten, Hs, Hi.
  - assert (length sl <= i) by (apply nth_error_None; auto).
    assert (Hq : nth_error (seq 0 (length sl)) i = None)
      by (apply nth_error_None; rewrite seq_length; lia).
    rewrite Hq. reflexivity.
Qed.

(** ** static_loop *)
Section SL.
  Context {C A B : Type} (f : C -> tree A -> C * tree B) (td : tree unit).
  Hypothesis Hf : forall c x, tree_def (snd (f c x)) = td.

  Lemma append_leaves_nth ys y i l b :
    nth_error ys i = Some l -> nth_error y i = Some b ->
    nth_error (@append_leaves B ys y) i = Some (l ++ [b]).
  Proof.
    revert y i; induction ys as [|l0 ys IH]; intros [|b0 y] [|i] H1 H2; simpl in *; try discriminate.
    - congruence.
    - apply IH; auto.
  Qed.

  Lemma append_leaves_length ys y : length ys = length y -> length (@append_leaves B ys y) = length y.
  Proof.
    revert y; induction ys as [|l0 ys IH]; intros [|b0 y] H; simpl in *; auto; lia.
  Qed.

  (** leaf number i of each output *)
  Definition leaf_rows (ys : list (tree B)) (l : list B) (i : nat) : Prop :=
    map Some l = map (fun y => nth_error (tree_leaves y) i) ys.

  Lemma static_loop_spec : forall xs c prev ys,
    length ys = length (tree_leaves td) ->
    (forall i l, nth_error ys i = Some l -> leaf_rows prev l i) ->
    exists ys', static_loop f c (Some (td, ys)) xs = (fst (lax_scan f c xs), Some (td, ys')) /\
      length ys' = length (tree_leaves td) /\
      (forall i l, nth_error ys' i = Some l -> leaf_rows (prev ++ snd (lax_scan f c xs)) l i).
  Proof.
    induction xs as [|x xs IH]; intros c prev ys Hl Hr; simpl.
    - exists ys. rewrite app_nil_r. auto.
    - pose proof (Hf c x) as Hd. destruct (f c x) as [c1 y]. simpl in Hd.
      assert (Hly : length (tree_leaves y) = length (tree_leaves td)).
      { rewrite <- Hd, tree_leaves_def_length; reflexivity. }
      destruct (IH c1 (prev ++ [y]) (append_leaves ys (tree_leaves y))) as (ys' & E & E1 & E2).
      + rewrite append_leaves_length; congruence.
      + intros i l H.
        assert (Hi : i < length (tree_leaves y)).
        { rewrite <- (append_leaves_length ys) by congruence. apply nth_error_Some; congruence. }
        destruct (nth_error_lt _ _ Hi) as [b Hb].
        destruct (nth_error_lt ys i ltac:(lia)) as [l0 Hl0].
        rewrite (append_leaves_nth _ _ _ _ _ Hl0 Hb) in H. injection H as <-.
        unfold leaf_rows. rewrite !map_app. rewrite (Hr _ _ Hl0). simpl. rewrite Hb. reflexivity.
      + exists ys'. rewrite Hd, E. destruct (lax_scan f c1 xs) as [c2 o2]. simpl in *.
        split; auto. split; auto. intros i l H. specialize (E2 i l H).
        rewrite <- app_assoc in E2. exact E2.
  Qed.

  Lemma static_scan_spec c xs sl :
    slices xs sl -> tree_leaves xs <> [] -> sl <> [] ->
    exists out, static_scan f c xs = Some (fst (lax_scan f c sl), out) /\
      tree_def out = td /\ slices out (snd (lax_scan f c sl)).
  Proof.
    intros Hs Hne Hsl. unfold static_scan. rewrite (iter_first_axis_slices _ _ Hs Hne).
    destruct sl as [|x sl]; [congruence|]. cbn [static_loop lax_scan].
    pose proof (Hf c x) as Hd. destruct (f c x) as [c1 y]. cbn [snd] in Hd.
    assert (Hly : length (tree_leaves y) = length (tree_leaves td)).
    { rewrite <- Hd, tree_leaves_def_length; reflexivity. }
    destruct (static_loop_spec sl c1 [y]
                (append_leaves (map (fun _ => []) (tree_leaves y)) (tree_leaves y)))
      as (ys & E & E1 & E2).
    - rewrite append_leaves_length; rewrite ?map_length; auto.
    - intros i l H.
      assert (Hi : i < length (tree_leaves y)).
      { rewrite <- (append_leaves_length (map (fun _ => []) (tree_leaves y)))
          by (rewrite map_length; reflexivity). apply nth_error_Some; congruence. }
      destruct (nth_error_lt _ _ Hi) as [b Hb].
      rewrite (append_leaves_nth _ _ i [] b) in H.
      + injection H as <-. unfold leaf_rows; simpl. rewrite Hb; reflexivity.
      + rewrite nth_error_map, Hb. reflexivity.
      + exact Hb.
    - rewrite Hd, E. destruct (tree_unflatten_total td ys E1) as (out & U1 & U2 & U3).
      rewrite U1. exists out. destruct (lax_scan f c1 sl) as [c2 o2] eqn:Esc. cbn [fst snd] in *.
      split; auto. split; auto. split.
      + intros l Hin. rewrite U2 in Hin. apply In_nth_error in Hin. destruct Hin as [i Hi].
        specialize (E2 i l Hi). unfold leaf_rows in E2.
        apply (f_equal (@length _)) in E2. rewrite !map_length in E2. exact E2.
      + intros t s Ht. apply tree_ext.
        * rewrite !tree_def_map, U3. clear - Hf Ht Esc Hd.
          change (y :: o2) with ([y] ++ o2) in Ht.
          destruct t as [|t]; simpl in Ht. { congruence. }
          assert (Hl := lax_scan_length f c1 sl). rewrite Esc in Hl; simpl in Hl.
          assert (t < length sl) by (rewrite <- Hl; apply nth_error_Some; congruence).
          destruct (nth_error_lt sl t H) as [x' Hx'].
          pose proof (lax_scan_nth f c1 sl t x' Hx') as Hn. rewrite Esc in Hn; simpl in Hn.
          rewrite Ht in Hn; injection Hn as ->. apply Hf.
        * rewrite !tree_leaves_map, U2. apply nth_error_ext; intros i. rewrite !nth_error_map.
          assert (Hls : length (tree_leaves s) = length (tree_leaves td)).
          { destruct t as [|t]; simpl in Ht. { congruence. }
            assert (Hl := lax_scan_length f c1 sl). rewrite Esc in Hl; simpl in Hl.
            assert (t < length sl) by (rewrite <- Hl; apply nth_error_Some; congruence).
            destruct (nth_error_lt sl t H) as [x' Hx'].
            pose proof (lax_scan_nth f c1 sl t x' Hx') as Hn. rewrite Esc in Hn; simpl in Hn.
            rewrite Ht in Hn; injection Hn as ->. rewrite <- (Hf (scan_carry f c1 (firstn t sl)) x').
            symmetry; apply tree_leaves_def_length. }
          destruct (nth_error ys i) as [l|] eqn:Hi.
          -- specialize (E2 i l Hi). unfold leaf_rows in E2.
             apply (f_equal (fun l => nth_error l t)) in E2. rewrite !nth_error_map in E2.
             simpl in Ht. change ([y] ++ o2) with (y :: o2) in E2. rewrite Ht in E2. simpl in E2.
             assert (i < length (tree_leaves s)).
             { rewrite Hls, <- E1. apply nth_error_Some; congruence. }
             destruct (nth_error_lt _ _ H) as [b Hb]. rewrite Hb in *. simpl.
             destruct (nth_error l t); simpl in *; congruence.
          -- assert (nth_error (tree_leaves s) i = None) as ->.
             { apply nth_error_None. rewrite Hls, <- E1. apply nth_error_None; auto. }
             reflexivity.
  Qed.
End SL.

Lemma slices_tl {A} (xs : tree (list A)) s sl :
  slices xs (s :: sl) -> slices (tree_map (@tl A) xs) sl.
Proof.
  intros [H1 H2]. split.
  - intros l. rewrite tree_leaves_map. intros Hin. apply in_map_iff in Hin.
    destruct Hin as (l0 & <- & Hin). specialize (H1 _ Hin). destruct l0; simpl in *; lia.
  - intros t s' Ht. rewrite (H2 (S t) s' Ht). rewrite tree_map_map.
    clear. induction xs as [l|c IH] using tree_ind'; simpl.
    + destruct l; simpl; auto. destruct t; reflexivity.
    + f_equal. induction IH as [|x r Hx Hr IHr]; simpl; auto. f_equal; auto.
Qed.

Lemma unroll_static_spec {K P S A B} (split : K -> K * K) (tf : transformed K P S (tree A) (tree B))
  td (skip : bool) rng po so xs sl :
  (forall p s k x, tree_def (fst (t_apply tf p s k x)) = td) ->
  slices xs sl -> tree_leaves xs <> [] -> (if skip then tl sl else sl) <> [] ->
  exists out ys sF,
    unroll split tf skip rng po so sl = Some (ys, sF) /\
    unroll_static split tf skip rng po so xs = Some (out, sF) /\ slices out ys.
Proof.
  intros Hd Hs Hne Hsl.
  destruct sl as [|x0 sl]; [destruct skip; simpl in Hsl; congruence|].
  rewrite unroll_unfold.
  assert (Hx0 : tree_map Some x0 = tree_map (fun l => nth_error l 0) xs) by (apply Hs; reflexivity).
  pose proof (slice_unflatten _ _ _ Hx0) as H0.
  unfold unroll_static.
  destruct (mapM (fun x => nth_error x 0) (tree_leaves xs)) as [l0|]; [|discriminate].
  rewrite H0. destruct (t_init tf rng x0) as [p0 s0]; cbn [fst snd].
  set (p := match po with None => p0 | Some p => p end).
  set (s := match so with None => s0 | Some s => s end).
  rewrite unroll_apply_eq. set (xs' := if skip then tl (x0 :: sl) else x0 :: sl) in *.
  assert (Hs' : slices (if skip then tree_map (@tl A) xs else xs) xs').
  { destruct skip; unfold xs'; auto. apply slices_tl in Hs; exact Hs. }
  assert (Hf : forall c x, tree_def (snd (scan_f split tf p c x)) = td).
  { intros [s' k] x. unfold scan_f. destruct k as [k|]; [destruct (split k) as [ka kb]|].
    - pose proof (Hd p s' (Some kb) x). destruct (t_apply tf p s' (Some kb) x); auto.
    - pose proof (Hd p s' None x). destruct (t_apply tf p s' None x); auto. }
  destruct (static_scan_spec _ td Hf (s, rng) _ xs' Hs') as (out & E & _ & E2).
  - destruct skip; rewrite ?tree_leaves_map; auto. destruct (tree_leaves xs); simpl; congruence.
  - exact Hsl.
  - rewrite E. destruct (lax_scan _ (s, rng) xs') as [[sF k] ys]. cbn [fst snd] in *.
    exists out, ys, sF. auto.
Qed.

(** No step left: the static version raises. *)
Lemma unroll_static_empty {K P S A B} (split : K -> K * K) (tf : transformed K P S (tree A) (tree B))
  rng po so xs x0 :
  slices xs [x0] -> unroll_static split tf true rng po so xs = None.
Proof.
  intros Hs.
  assert (Hx0 : tree_map Some x0 = tree_map (fun l => nth_error l 0) xs) by (apply Hs; reflexivity).
  pose proof (slice_unflatten _ _ _ Hx0) as H0.
  unfold unroll_static.
  destruct (mapM (fun x => nth_error x 0) (tree_leaves xs)) as [l0|]; [|discriminate].
  rewrite H0. destruct (t_init tf rng x0) as [p0 s0].
  apply slices_tl in Hs. unfold static_scan.
  destruct (tree_leaves (tree_map (@tl A) xs)) as [|a r] eqn:E.
  - unfold iter_first_axis. rewrite E. reflexivity.
  - rewrite (iter_first_axis_slices _ _ Hs) by congruence. reflexivity.
Qed.
