(** Proofs about traced streams and unroll_stream (C44, C45). *)
From Coq Require Import ZArith List Bool Lia.
From Verif Require Import Model.Encode Model.Stream Spec.StreamSpec Proofs.ListFacts Proofs.EncodeProofs
  Proofs.StreamProofs.
Import ListNotations.

Section Nat.
  Context {V W : Type} (f : V -> W).
  Definition mapv {X : Type} (o : X * V) : X * W := (fst o, f (snd o)).

  Lemma takeW_map T (g : list (@obs V)) : takeW T (map mapv g) = map mapv (takeW T g).
  Proof. induction g as [|o g IH]; cbn; auto. rewrite IH. now destruct (_ <? _)%Z. Qed.
  Lemma dropW_map T (g : list (@obs V)) : dropW T (map mapv g) = map mapv (dropW T g).
  Proof. induction g as [|o g IH]; cbn; auto. rewrite IH. now destruct (_ <? _)%Z. Qed.
  Lemma con_map e Ts : forall g : list (@obs V),
    con e Ts (map mapv g) = (map mapv (fst (con e Ts g)), map mapv (snd (con e Ts g))).
  Proof.
    induction Ts as [|T Ts IH]; intros g; cbn; auto.
    rewrite dropW_map, IH, takeW_map. destruct (con e Ts (dropW (e T) g)). cbn. now rewrite map_app.
  Qed.
  Lemma map_last {A B} (h : A -> B) l a : last (map h l) (h a) = h (last l a).
  Proof. induction l as [|x l IH]; auto. cbn. destruct l; auto. Qed.
  Lemma map_lastn {A B} (h : A -> B) n l : lastn n (map h l) = map h (lastn n l).
  Proof. unfold lastn. rewrite map_length, skipn_map. reflexivity. Qed.
  Lemma map_rep {A B} (h : A -> B) n a : map h (repeat a n) = repeat (h a) n.
  Proof. induction n; cbn; congruence. Qed.

  Definition map_cfg (c : @sec_cfg V) : @sec_cfg W := SecCfg (embed c) (ffill c) (maxlen c) (f (default c)).
  Lemma map_real (P : list (@obs V)) : map real (map mapv P) = map mapv (map real P).
  Proof. rewrite !map_map. apply map_ext. now intros [t v]. Qed.
  Lemma out_map cfg P : cells (out_of (map_cfg cfg) (map mapv P)) = map mapv (cells (out_of cfg P)).
  Proof.
    unfold out_of. cbn [map_cfg maxlen]. rewrite map_real.
    change (init_obs (map_cfg cfg)) with (mapv (init_obs cfg)).
    destruct (maxlen cfg) as [n|]; cbn [cells].
    - unfold padded_window. now rewrite map_real, <- map_lastn, map_app, map_rep.
    - cbn. now rewrite map_last.
  Qed.
  Lemma result_map cfg P tw :
    cells (result (map_cfg cfg) (map mapv P) (map mapv tw)) = map mapv (cells (result cfg P tw)).
  Proof.
    unfold result. cbn [map_cfg ffill]. destruct (ffill cfg).
    - rewrite <- map_app. apply out_map.
    - destruct tw as [|x tw].
      + apply (out_map cfg []).
      + etransitivity; [|apply (out_map cfg (P ++ x :: tw))]. rewrite map_app. reflexivity.
  Qed.
End Nat.

Lemma trace_obs_nth {V} (data : list (@obs V)) j :
  nth_error (trace_obs data) j = option_map (fun o => (fst o, Z.of_nat j)) (nth_error data j).
Proof.
  unfold trace_obs.
  destruct (nth_error data j) as [o|] eqn:E.
  - assert (Hj : j < length data) by (apply nth_error_Some; congruence).
    rewrite (map_nth_error _ j _ (d := (j, o))); auto.
    apply nth_error_combine; auto.
    rewrite (nth_error_nth' _ 0) by now rewrite seq_length. now rewrite seq_nth.
  - apply nth_error_None. rewrite map_length, combine_length, seq_length.
    apply nth_error_None in E. unfold obs in *. lia.
Qed.
Lemma access_nth {V} (d : V) x j v : nth_error x j = Some v -> access d x (Z.of_nat j) = v.
Proof.
  intros H. unfold access. destruct (Z.ltb_spec (Z.of_nat j) 0); [lia|].
  assert (j < length x) by (apply nth_error_Some; congruence).
  rewrite Nat2Z.id, Nat.min_l by lia. now apply nth_error_nth.
Qed.
Lemma trace_obs_map {V} (d : V) (data : list (@obs V)) :
  map (mapv (access d (map snd data))) (trace_obs data) = data.
Proof.
  apply nth_error_ext. intros j.
  destruct (nth_error data j) as [o|] eqn:E.
  - erewrite map_nth_error. 2:{ rewrite trace_obs_nth, E. reflexivity. }
    unfold mapv. cbn [fst snd]. erewrite access_nth; [|erewrite map_nth_error; eauto]. now destruct o.
  - etransitivity; [|symmetry; exact E]. apply nth_error_None. rewrite map_length.
    apply nth_error_None. rewrite trace_obs_nth, E. reflexivity.
Qed.
Lemma out_values_cells {V} (o : @out V) : out_values o = map snd (cells o).
Proof. now destruct o. Qed.
Lemma access_out_cells {V} d (x : list V) o : access_out d x o = map (fun c => access d x (snd c)) (cells o).
Proof. now destruct o. Qed.

Lemma map_fst_tl_firstn {V W} (l : list (@obs V)) (l' : list (@obs W)) j : map fst l = map fst l' ->
  map fst (firstn j (tl l)) = map fst (firstn j (tl l')).
Proof.
  intros H. rewrite <- !firstn_map. f_equal. destruct l, l'; cbn in *; try discriminate; auto. now injection H.
Qed.

Lemma trace_access {V} (d : V) data gz g e ff ml k (localz : list (@obs Z)) (local : list (@obs V))
    secsz secs itemsz items j oz outsz o outs i :
  (k < 0)%Z ->
  start_dataset_stream (trace_obs data) = Some gz -> start_dataset_stream data = Some g ->
  nth_error secsz i = Some (SecCfg e ff ml k, gz) -> nth_error secs i = Some (SecCfg e ff ml d, g) ->
  map fst localz = map fst local -> merge localz secsz = Some itemsz -> merge local secs = Some items ->
  nth_error itemsz j = Some (oz, outsz) -> nth_error items j = Some (o, outs) ->
  exists outz out, nth_error outsz i = Some outz /\ nth_error outs i = Some out /\
    map fst (cells outz) = map fst (cells out) /\
    access_out d (map snd data) outz = out_values out.
Proof.
  intros Hk Hgz Hg Hsz Hs Hl Hmz Hm Hjz Hj.
  destruct (merge_lane _ _ _ _ _ _ _ _ _ Hmz Hjz Hsz) as [Hoz Hrz].
  destruct (merge_lane _ _ _ _ _ _ _ _ _ Hm Hj Hs) as [Ho Hr].
  do 2 eexists. split; [exact Hrz|]. split; [exact Hr|]. clear Hrz Hr.
  set (f := access d (map snd data)).
  assert (Eg : g = map (mapv f) gz).
  { unfold start_dataset_stream in *. destruct data as [|x r]; [discriminate|].
    pose proof (trace_obs_map d (x :: r)) as Et. fold f in Et.
    destruct (trace_obs (x :: r)) as [|xz rz] eqn:Etr; [discriminate|].
    assert (gz = xz :: xz :: rz) by congruence. subst gz.
    cbn [map] in *. unfold obs in *. injection Et as E1 E2. rewrite E1, E2. congruence. }
  assert (ET : fst oz = fst o).
  { destruct localz as [|a localz], local as [|b local]; cbn [tl map] in *; try discriminate Hl.
    - destruct j; discriminate Ho.
    - assert (Hl' : map fst localz = map fst local) by now injection Hl.
      apply (map_nth_error fst) in Hoz. apply (map_nth_error fst) in Ho. rewrite Hl' in Hoz. unfold obs in *. congruence. }
  set (cz := SecCfg e ff ml k).
  assert (Ec : SecCfg e ff ml d = map_cfg f cz).
  { unfold map_cfg, cz. cbn. f_equal. unfold f, access. now rewrite (proj2 (Z.ltb_lt _ _) Hk). }
  rewrite Ec, Eg. change (embed (map_cfg f cz)) with (embed cz).
  rewrite <- (map_fst_tl_firstn localz local j Hl), con_map, <- ET. cbn [fst snd].
  rewrite takeW_map, out_values_cells, access_out_cells, result_map, !map_map.
  split; apply map_ext; now intros [t v].
Qed.

Lemma trace_local {V} (d : V) (ldata : list (@obs V)) gz secsz itemsz j oz outsz :
  start_dataset_stream (trace_obs ldata) = Some gz -> merge gz secsz = Some itemsz ->
  nth_error itemsz j = Some (oz, outsz) ->
  exists v, nth_error ldata j = Some (fst oz, v) /\ access d (map snd ldata) (snd oz) = v.
Proof.
  intros Hg Hm Hj.
  assert (E : map fst itemsz = trace_obs ldata).
  { rewrite (merge_local _ _ _ Hm). unfold start_dataset_stream in Hg.
    destruct (trace_obs ldata) as [|a r]; [discriminate|].
    assert (gz = a :: a :: r) by congruence. now subst. }
  apply (map_nth_error fst) in Hj. rewrite E, trace_obs_nth in Hj.
  destruct (nth_error ldata j) as [[t v]|] eqn:El; [|discriminate]. cbn in Hj.
  assert (oz = (t, Z.of_nat j)) by (unfold obs in *; congruence). subst oz. exists v. split; auto.
  cbn [snd]. apply access_nth. now erewrite map_nth_error by eauto.
Qed.

(** A default index which is not negative is the position of a datum, shown before its time. *)
Lemma access_positive_default {V} (d : V) (data : list (@obs V)) gz e ff k T v (localz : list (@obs Z)) secsz itemsz j oz outsz i :
  nth_error data k = Some (T, v) ->
  start_dataset_stream (trace_obs data) = Some gz ->
  nth_error secsz i = Some (SecCfg e ff None (Z.of_nat k), gz) -> merge localz secsz = Some itemsz ->
  nth_error itemsz j = Some (oz, outsz) ->
  (forall To o, In To (firstn (S j) (tl localz)) -> In o data -> (e (fst To) <= fst o)%Z) ->
  exists outz, nth_error outsz i = Some outz /\ access_out d (map snd data) outz = [v].
Proof.
  intros Hk Hg Hs Hm Hj Hfut.
  destruct (merge_lane _ _ _ _ _ _ _ _ _ Hm Hj Hs) as [Ho Hr]. eexists. split; [exact Hr|]. clear Hr.
  assert (Hgz : forall o, In o gz -> exists o', In o' data /\ fst o' = fst o).
  { intros o Hin. assert (Hin' : In o (trace_obs data)).
    { unfold start_dataset_stream in Hg. destruct (trace_obs data) as [|x r]; [discriminate|].
      assert (gz = x :: x :: r) by congruence. subst gz. destruct Hin; [left|]; auto. }
    apply In_nth_error in Hin' as [n Hn]. rewrite trace_obs_nth in Hn.
    destruct (nth_error data n) as [o'|] eqn:E; [|discriminate]. exists o'. split; [eapply nth_error_In; eauto|].
    cbn in Hn. injection Hn as <-. reflexivity. }
  assert (Hle : forall To o, In To (firstn (S j) (tl localz)) -> In o gz -> (e (fst To) <= fst o)%Z).
  { intros To o HT Hin. destruct (Hgz o Hin) as (o' & Ho' & <-). now apply Hfut. }
  erewrite firstn_snoc in Hle by eauto.
  cbn [embed].
  pose proof (con_future e gz (map fst (firstn j (tl localz)))) as Ec.
  specialize (Ec ltac:(intros T' o (x & <- & Hx)%in_map_iff Hin; apply Hle; auto; apply in_or_app; auto) []).
  cbn [app] in Ec. rewrite Ec. clear Ec.
  assert (Ec : forall Ts, con e Ts (@nil (@obs Z)) = ([], [])).
  { induction Ts as [|T' Ts IH]; cbn; auto. now rewrite IH. }
  rewrite Ec. cbn [fst snd app].
  destruct (takeW_future (e (fst oz)) [] gz) as [Et _].
  { intros o Hin. apply Hle; auto. apply in_or_app. right. left. auto. }
  cbn [app] in Et. rewrite Et. cbn [takeW].
  assert (Er : result (SecCfg e ff None (Z.of_nat k)) [] [] = One (None, Z.of_nat k)).
  { unfold result. now destruct ff. }
  rewrite Er. cbn. f_equal. apply access_nth. now erewrite map_nth_error by eauto.
Qed.

Lemma constant_scalar {V} (d x : V) step : access_constant_scalar d x step = x.
Proof.
  unfold access_constant_scalar, access. destruct (Z.ltb_spec (Z.of_nat step) 0); [lia|].
  cbn [length]. now rewrite Nat.min_0_r.
Qed.
Lemma constant_vector {V} (d : V) x step i : i < length x ->
  nth_error (access_constant_vector d x step) i = nth_error x (Nat.min (step * i) (length x - 1)).
Proof.
  intros Hi. unfold access_constant_vector.
  rewrite (map_nth_error _ i _ (d := i)).
  2:{ rewrite (nth_error_nth' _ 0) by now rewrite seq_length. now rewrite seq_nth. }
  unfold access. destruct (Z.ltb_spec (Z.of_nat (step * i)) 0); [lia|]. rewrite Nat2Z.id.
  rewrite (nth_error_nth' _ d); [reflexivity|]. lia.
Qed.

(** *** unroll_stream *)
Lemma unroll_fold {A} (r : list (list A)) : forall outs (k : nat),
  Forall (fun it => length it = k) r -> length outs = k ->
  let res := fold_left (fun outs it => map (fun yx : list A * A => fst yx ++ [snd yx]) (combine outs it)) r outs in
  length res = k /\ forall i ys, nth_error outs i = Some ys ->
    exists zs, nth_error res i = Some (ys ++ zs) /\
      map Some zs = map (fun it => nth_error it i) r.
Proof.
  induction r as [|it r IH]; intros outs k HF Hl; cbn.
  - split; auto. intros i ys H. exists []. now rewrite app_nil_r.
  - inversion HF as [|? ? Hit HF']; subst.
    destruct (IH (map (fun yx : list A * A => fst yx ++ [snd yx]) (combine outs it)) (length outs)) as [H1 H2]; auto.
    { rewrite map_length, combine_length. lia. }
    split; auto. intros i ys Hi.
    assert (Hil : i < length outs) by (apply nth_error_Some; congruence).
    destruct (nth_error_lt it i) as (x & Hx); [lia|].
    destruct (H2 i (ys ++ [x])) as (zs & Hz1 & Hz2).
    { erewrite map_nth_error; [|apply nth_error_combine; eauto]. reflexivity. }
    exists (x :: zs). rewrite Hz1, <- app_assoc. split; auto. cbn. now rewrite Hx, Hz2.
Qed.

(** every leaf of the result collects the values of this leaf, one per item, in order *)
Lemma unroll_stream_collects {A} (items : list (list A)) k res :
  items <> [] -> Forall (fun it => length it = k) items -> unroll_stream false items = Some res ->
  length res = k /\ forall i ys, nth_error res i = Some ys ->
    map Some ys = map (fun it => nth_error it i) items.
Proof.
  destruct items as [|first r]; [congruence|]. intros _ HF H. inversion HF as [|? ? Hk HF']; subst.
  unfold unroll_stream in H. destruct (forallb _ r); [|discriminate].
  destruct (unroll_fold r (map (fun x => [x]) first) (length first)) as [H1 H2]; auto.
  { now rewrite map_length. }
  set (res' := fold_left _ r _) in *. assert (res = res') by congruence. subst res. split; auto.
  intros i ys Hi. assert (i < length first). { rewrite <- H1. apply nth_error_Some. congruence. }
  destruct (nth_error_lt first i) as (x & Hx); auto.
  destruct (H2 i [x]) as (zs & Hz1 & Hz2). { now erewrite map_nth_error by eauto. }
  assert (ys = [x] ++ zs) by congruence. subst ys. cbn. now rewrite Hx, Hz2.
Qed.
Lemma unroll_stream_runs {A} (items : list (list A)) k :
  items <> [] -> Forall (fun it => length it = k) items -> exists res, unroll_stream false items = Some res.
Proof.
  destruct items as [|first r]; [congruence|]. intros _ HF. inversion HF as [|? ? Hk HF']; subst.
  unfold unroll_stream. rewrite (proj2 (forallb_forall _ _)); eauto.
  intros x Hx. rewrite Forall_forall in HF'. apply Nat.eqb_eq. auto.
Qed.
(** skip_first: right for one leaf *)
Lemma unroll_stream_skip_one {A} (first : A) (r : list A) : r <> [] ->
  unroll_stream true (map (fun x => [x]) (first :: r)) = Some [r].
Proof.
  intros Hr. cbn. rewrite (proj2 (forallb_forall _ _)).
  - destruct r as [|a r]; [congruence|]. cbn. do 2 f_equal. f_equal. clear.
    induction r; cbn; congruence.
  - intros x (y & <- & _)%in_map_iff. reflexivity.
Qed.
(** skip_first: every leaf of the result holds the values of all leaves *)
Lemma unroll_stream_skip_interleaves {A} (first : list A) (r : list (list A)) k : k <> 0 -> r <> [] ->
  Forall (fun it => length it = k) (first :: r) ->
  unroll_stream true (first :: r) = Some (repeat (concat r) k).
Proof.
  intros Hk Hr HF. inversion HF as [|? ? Hf HF']; subst. unfold unroll_stream.
  rewrite (proj2 (forallb_forall _ _)).
  - destruct (Nat.eqb_spec (length first) 0); [congruence|]. destruct r; congruence.
  - intros x Hx. rewrite Forall_forall in HF'. apply Nat.eqb_eq. auto.
Qed.
(** for merged items, all the leaf values of an item are interleaved: one column is not the stream *)
Lemma unroll_stream_skip_wrong {A} (first : list A) (r : list (list A)) k res : 2 <= k -> r <> [] ->
  Forall (fun it => length it = k) (first :: r) ->
  unroll_stream true (first :: r) = Some res ->
  forall i ys, nth_error res i = Some ys -> length ys = k * length r.
Proof.
  intros Hk Hr HF H i ys Hi. rewrite (unroll_stream_skip_interleaves _ _ k) in H; auto; [|lia].
  assert (res = repeat (concat r) k) by congruence. subst res.
  apply nth_error_In, repeat_spec in Hi. subst ys.
  inversion HF as [|? ? _ HF']; subst. clear -HF'.
  induction HF' as [|it r Hit _ IH]; cbn [concat length]; [lia|]. rewrite app_length, IH. lia.
Qed.
