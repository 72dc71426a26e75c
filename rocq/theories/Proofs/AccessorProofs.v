From Coq Require Import String ZArith List Bool Arith Lia.
From Verif Require Import Model.Tree Model.Unroll Model.Stream Model.Format Model.Accessors
  Spec.FormatSpec Spec.AccessorSpec Proofs.ListFacts Proofs.TreeProofs Proofs.UnrollProofs Proofs.StreamTrace
  Proofs.FormatProofs.
Import ListNotations.
Local Open Scope list_scope.

Lemma mapM_nth {A B} (f : A -> option B) l l' :
  length l' = length l ->
  (forall i a, nth_error l i = Some a -> exists b, nth_error l' i = Some b /\ f a = Some b) ->
  mapM f l = Some l'.
Proof.
  revert l'. induction l as [|a l IH]; intros [|b l'] Hl H; try discriminate; [reflexivity|].
  cbn [mapM]. destruct (H 0 a eq_refl) as (b' & Hb & Hf). cbn in Hb. injection Hb as <-. rewrite Hf.
  rewrite (IH l'); [reflexivity|cbn in Hl; lia|]. intros i x Hx. apply (H (S i) x Hx).
Qed.

Lemma mapM_inv {A B} (f : A -> option B) l : forall l', mapM f l = Some l' ->
  length l' = length l /\ forall i a, nth_error l i = Some a -> exists b, nth_error l' i = Some b /\ f a = Some b.
Proof.
  induction l as [|a l IH]; intros l' H; cbn in H.
  - assert (l' = []) by congruence. subst. split; [reflexivity|]. intros [|i]; discriminate.
  - destruct (f a) as [b|] eqn:Ef; [|discriminate]. destruct (mapM f l) as [bs|] eqn:Em; [|discriminate].
    assert (l' = b :: bs) by congruence. subst l'. destruct (IH bs eq_refl) as [H1 H2]. split; [cbn; congruence|].
    intros [|i] x Hx; cbn in *; [exists b; split; congruence|apply H2; auto].
Qed.

(** a module precomposed with a function of its input *)
Lemma unroll_precomp {K P S X X' Y} (split : K -> K * K) (tf' : transformed K P S X' Y) (tf : transformed K P S X Y)
  (g : X' -> X) skip rng params state xs :
  (forall r x, t_init tf' r x = t_init tf r (g x)) ->
  (forall p s r x, t_apply tf' p s r x = t_apply tf p s r (g x)) ->
  unroll split tf' skip rng params state xs = unroll split tf skip rng params state (map g xs).
Proof.
  intros Hi Ha.
  assert (G : forall p l c, lax_scan (scan_f split tf' p) c l = lax_scan (scan_f split tf p) c (map g l)).
  { intros p. induction l as [|x l IH]; intros [s r]; [reflexivity|]. cbn [lax_scan map].
    assert (E : scan_f split tf' p (s, r) x = scan_f split tf p (s, r) (g x)).
    { unfold scan_f. destruct r as [k|]; [destruct (split k)|]; cbn; rewrite Ha; reflexivity. }
    rewrite E. destruct (scan_f split tf p (s, r) (g x)) as [c1 y]. rewrite IH. reflexivity. }
  unfold unroll, unroll_init. destruct xs as [|x0 xs]; [reflexivity|]. cbn [map]. rewrite Hi.
  destruct (t_init tf rng (g x0)) as [p0 s0]. f_equal. unfold unroll_apply.
  destruct skip; cbn [tl]; [rewrite G; reflexivity|].
  change (g x0 :: map g xs) with (map g (x0 :: xs)). rewrite G. reflexivity.
Qed.

Lemma map_nth_seq {A} (d : A) l : map (fun i => nth i l d) (seq 0 (length l)) = l.
Proof.
  apply nth_error_ext. intros i. rewrite nth_error_map.
  destruct (Nat.lt_ge_cases i (length l)) as [H|H].
  - rewrite (nth_error_nth' (seq 0 (length l)) 0) by (rewrite seq_length; auto).
    rewrite seq_nth by auto. cbn. symmetry. apply nth_error_nth'. auto.
  - rewrite (proj2 (nth_error_None (seq 0 (length l)) i)) by (rewrite seq_length; auto).
    symmetry. apply nth_error_None. auto.
Qed.

Lemma unroll_transform_dataset {K P S A Y} (split : K -> K * K) (views : list (list (string * seen A)))
  (m : transformed K P S (list (string * seen A)) Y) skip rng params state :
  unroll split (transform_dataset views m) skip rng params state (seq 0 (length views)) =
  unroll split m skip rng params state views.
Proof.
  rewrite (unroll_precomp split _ m (fun i => nth i views [])) by reflexivity. rewrite map_nth_seq. reflexivity.
Qed.

(** *** One time axis *)
Lemma only_time_coords {C} (dt : C -> option (list Z)) coords time ts :
  only_time dt coords time ts -> time_coords dt coords = [(time, ts)].
Proof.
  intros (b & c & a & -> & <- & Hc & Hn). unfold time_coords. rewrite flat_map_app. cbn [flat_map]. rewrite Hc.
  assert (G : forall l, (forall c', In c' l -> dt (c_val c') = None) ->
    flat_map (fun c => match dt (c_val c) with Some ts => [(c_name c, ts)] | None => [] end) l = []).
  { induction l as [|x l IH]; intros H; [reflexivity|]. cbn. rewrite (H x (or_introl eq_refl)), IH; auto.
    intros c' Hc'. apply H. right. auto. }
  rewrite !G; auto; intros c' Hc'; apply Hn, in_or_app; auto.
Qed.

Lemma positions_nth ts i : nth_error (positions ts) i = option_map (fun t => (t, Z.of_nat i)) (nth_error ts i).
Proof.
  unfold positions. rewrite trace_obs_nth, nth_error_map. destruct (nth_error ts i); reflexivity.
Qed.
Lemma positions_length ts : length (positions ts) = length ts.
Proof. unfold positions, trace_obs. rewrite map_length, combine_length, seq_length, map_length. lia. Qed.

Lemma time_index_single {C} (dt : C -> option (list Z)) cfg coords time ts :
  only_time dt coords time ts -> local_time cfg = ""%string \/ local_time cfg = time ->
  time_index dt cfg coords = Some (time, [(time, map (fun o => One (real o)) (positions ts))]).
Proof.
  intros Ht Hl. unfold time_index. rewrite (only_time_coords _ _ _ _ Ht). cbn [map fst].
  assert (E : get_local_time (local_time cfg) [time] = Some time).
  { unfold get_local_time. destruct Hl as [-> | ->]; [reflexivity|]. destruct (String.eqb_spec time ""); auto. }
  rewrite E. cbn [lookup]. rewrite String.eqb_refl. reflexivity.
Qed.

Lemma gather_nth {A} (rows : list (list A)) i r : nth_error rows i = Some r -> gather rows (Z.of_nat i) = r.
Proof.
  intros H. assert (i < length rows) by (apply nth_error_Some; congruence). unfold gather.
  destruct (Z.ltb_spec (Z.of_nat i) 0); [lia|].
  replace (Z.to_nat (Z.max 0 (Z.min (Z.of_nat i) (Z.of_nat (length rows) - 1)))) with i by lia.
  apply nth_error_nth. auto.
Qed.
Lemma masked_nonneg {A} (d : A) z r : (0 <= z)%Z -> map (masked d z) r = r.
Proof.
  intros H. rewrite (map_ext _ (fun a => a)); [apply map_id|]. intros a. unfold masked.
  destruct (Z.ltb_spec z 0); [lia|reflexivity].
Qed.

Lemma prepare_single {A C} (dt : C -> option (list Z)) cfg (a : array_in A C) time rest ts :
  only_time dt (in_coords a) time ts -> local_time cfg = ""%string \/ local_time cfg = time ->
  in_dims a = time :: rest -> length ts = length (in_rows a) ->
  prepare dt cfg (as_dataset a) (in_coords a) = Some (map (fun r => [("dataarray"%string, SOne r)]) (in_rows a)).
Proof.
  intros Ht Hl Hd Hn. unfold prepare. rewrite (time_index_single _ _ _ _ _ Ht Hl).
  cbn [lookup]. rewrite String.eqb_refl.
  assert (En : length (map (fun o => One (real o)) (positions ts)) = length (in_rows a))
    by (rewrite map_length, positions_length; auto).
  cbv zeta. rewrite En. unfold as_dataset. cbn [mapM]. unfold var_index at 1. cbn [dv_dims]. rewrite Hd.
  cbn [map fst existsb mem_str lookup]. rewrite String.eqb_refl. cbn [orb option_map].
  rewrite <- Hd. apply mapM_nth.
  - rewrite map_length, seq_length. reflexivity.
  - intros i s Hi. assert (Hlt : i < length (in_rows a)).
    { rewrite <- (seq_length (length (in_rows a)) 0). apply nth_error_Some. congruence. }
    assert (s = i).
    { apply (nth_error_nth _ _ 0) in Hi. rewrite seq_nth in Hi by auto. cbn in Hi. auto. }
    subst s. destruct (nth_error_lt (in_rows a) i Hlt) as (r & Hr). destruct (nth_error_lt ts i) as (t & Ht'); [lia|].
    eexists. split; [rewrite nth_error_map, Hr; reflexivity|].
    unfold view_at. cbn [combine mapM fst snd]. rewrite !nth_error_map, positions_nth, Ht'. cbn [option_map].
    unfold real, index_of_out. cbn [fst snd]. unfold access_data. cbn [option_map dv_default dv_rows dv_name].
    rewrite (gather_nth _ _ _ Hr), masked_nonneg by lia. reflexivity.
Qed.

(** Applying a module to an array with one time axis is unrolling it on the rows. *)
Lemma stream_apply_single {K P S A C Y} (split : K -> K * K) (dt : C -> option (list Z)) cfg (a : array_in A C)
  (m : transformed K P S (seen A) Y) skip rng params state time rest ts :
  only_time dt (in_coords a) time ts -> local_time cfg = ""%string \/ local_time cfg = time ->
  in_dims a = time :: rest -> length ts = length (in_rows a) ->
  stream_apply split dt cfg (as_dataset a) (in_coords a) (on_array m) skip rng params state =
  unroll split m skip rng params state (map SOne (in_rows a)).
Proof.
  intros Ht Hl Hd Hn. unfold stream_apply. rewrite (prepare_single _ _ _ _ _ _ Ht Hl Hd Hn).
  rewrite unroll_transform_dataset.
  rewrite (unroll_precomp split (on_array m) m (fun v => match lookup "dataarray"%string v with Some s => s | None => SOne [] end)) by reflexivity.
  rewrite map_map. reflexivity.
Qed.

(** *** Stacking *)
Lemma append_leaves_length {B} (acc : list (list B)) y : length (append_leaves acc y) = length acc.
Proof. revert y. induction acc as [|l acc IH]; intros [|b y]; cbn; auto. Qed.
Lemma append_leaves_nth {B} (acc : list (list B)) y i l b :
  nth_error acc i = Some l -> nth_error y i = Some b -> nth_error (append_leaves acc y) i = Some (l ++ [b]).
Proof.
  revert y i. induction acc as [|l' acc IH]; intros [|b' y] [|i] H1 H2; cbn in *; try discriminate; [congruence|].
  apply IH; auto.
Qed.

Lemma fold_append_spec {B} (ys : list (list B)) : forall acc n,
  length acc = n -> Forall (fun y => length y = n) ys ->
  length (fold_left append_leaves ys acc) = n /\
  forall i l, nth_error acc i = Some l ->
    exists l', nth_error (fold_left append_leaves ys acc) i = Some (l ++ l') /\
      map Some l' = map (fun y => nth_error y i) ys.
Proof.
  induction ys as [|y ys IH]; intros acc n Hn HF; cbn [fold_left].
  - split; [auto|]. intros i l Hi. exists []. rewrite app_nil_r. split; auto.
  - inversion HF as [|? ? Hy HF']; subst.
    destruct (IH (append_leaves acc y) (length acc)) as [H1 H2]; [apply append_leaves_length|auto|].
    split; [auto|]. intros i l Hi.
    assert (Hlt : i < length y) by (rewrite Hy; apply nth_error_Some; congruence).
    destruct (nth_error_lt y i Hlt) as (b & Hb).
    destruct (H2 i (l ++ [b])) as (l' & E1 & E2); [apply append_leaves_nth; auto|].
    exists (b :: l'). rewrite E1, <- app_assoc. split; [reflexivity|]. cbn. rewrite Hb, E2. reflexivity.
Qed.

Lemma map_Some_inj {A} (l l' : list A) : map Some l = map Some l' -> l = l'.
Proof. revert l'. induction l as [|a l IH]; intros [|b l'] H; cbn in H; try discriminate; auto. injection H as -> H. f_equal. auto. Qed.

Lemma stack_outputs_spec {B} (shapes : tree (list nat)) (ys : list (list B)) :
  Forall (fun y => length y = length (tree_leaves shapes)) ys ->
  exists outputs, stack_outputs shapes ys = Some outputs /\ stacked shapes ys outputs.
Proof.
  intros HF. unfold stack_outputs.
  destruct (fold_append_spec ys (map (fun _ => []) (tree_leaves shapes)) (length (tree_leaves shapes))) as [H1 H2];
    [apply map_length|auto|].
  set (st := fold_left append_leaves ys (map (fun _ => []) (tree_leaves shapes))) in *.
  set (ls := map (fun sl => NdArray (length ys :: fst sl) (snd sl)) (combine (tree_leaves shapes) st)).
  assert (Hls : length ls = length (tree_leaves shapes)).
  { unfold ls. rewrite map_length, combine_length. lia. }
  destruct (tree_unflatten_total (tree_def shapes) ls) as (u & Hu & Hd & Hle).
  { rewrite tree_leaves_def_length. auto. }
  exists u. split; [exact Hu|].
  assert (Hiff := unflatten_iff shapes ls u Hls). destruct Hiff as [Hiff _]. destruct (Hiff Hu) as [Hs Hl]. split; [exact Hs|].
  rewrite Hl. intros i a Ha. unfold ls in Ha. rewrite nth_error_map in Ha.
  destruct (nth_error (combine (tree_leaves shapes) st) i) as [[s l]|] eqn:E; [|discriminate].
  cbn in Ha. assert (a = NdArray (length ys :: s) l) by congruence. subst a. cbn [nd_shape nd_data].
  assert (Hc : nth_error (tree_leaves shapes) i = Some s /\ nth_error st i = Some l).
  { clear -E. revert i E. generalize (tree_leaves shapes) st. induction l0 as [|x l0 IH]; intros [|y l1] [|i] E; cbn in *; try discriminate.
    - split; congruence.
    - apply IH; auto. }
  destruct Hc as [Hc1 Hc2]. split; [exists s; auto|].
  destruct (H2 i []) as (l' & E1 & E2). { rewrite nth_error_map, Hc1. reflexivity. }
  cbn [app] in E1. rewrite Hc2 in E1. assert (l = l') by congruence. subst l'. exact E2.
Qed.

Lemma stacked_unique {B} (shapes : tree (list nat)) (ys : list (list B)) o o' :
  stacked shapes ys o -> stacked shapes ys o' -> o = o'.
Proof.
  intros [S1 L1] [S2 L2].
  assert (E : tree_leaves o = tree_leaves o').
  { apply nth_error_ext. intros i.
    assert (Hlen : length (tree_leaves o) = length (tree_leaves o')).
    { rewrite <- (same_structure_len _ _ S1), <- (same_structure_len _ _ S2). reflexivity. }
    destruct (nth_error (tree_leaves o) i) as [a|] eqn:E1.
    - destruct (nth_error_lt (tree_leaves o') i) as (a' & E2).
      { rewrite <- Hlen. apply nth_error_Some. congruence. }
      rewrite E2. f_equal. destruct (L1 _ _ E1) as [(s & Hs & Hsh) Hd]. destruct (L2 _ _ E2) as [(s' & Hs' & Hsh') Hd'].
      destruct a as [sh d], a' as [sh' d']. cbn in *. assert (s = s') by congruence. subst. f_equal.
      apply map_Some_inj. congruence.
    - symmetry. apply nth_error_None. rewrite <- Hlen. apply nth_error_None. auto. }
  pose proof (tree_unflatten_flatten o) as U1. pose proof (tree_unflatten_flatten o') as U2.
  unfold same_structure in *. rewrite <- S1 in U1. rewrite <- S2 in U2. rewrite E in U1. congruence.
Qed.

(** one leaf *)
Lemma stack_leaf {B} (shape : list nat) (bs : list B) :
  stack_outputs (Leaf shape) (map (fun b => [b]) bs) = Some (Leaf (NdArray (length bs :: shape) bs)).
Proof.
  unfold stack_outputs. cbn [tree_leaves map tree_def tree_map].
  assert (G : forall acc, fold_left append_leaves (map (fun b => [b]) bs) [acc] = [acc ++ bs]).
  { induction bs as [|b bs IH]; intros acc; cbn; [rewrite app_nil_r; reflexivity|].
    rewrite IH, <- app_assoc. reflexivity. }
  rewrite G. cbn. rewrite map_length. reflexivity.
Qed.
