(** The growth computed by the memory tracker is the slope of the least-squares line. *)
From Coq Require Import String List Bool Arith Lia Reals Lra.
From Verif Require Import Model.Float Model.FlaxOptim Spec.DebugSpec Proofs.FloatFacts Proofs.DebugProofs5 Model.Debug.
Import ListNotations.
Local Open Scope R_scope.

Definition se (a b : R) (l : list (R * R)) : R := sumR (map (fun p => Rsqr (snd p - (a + b * fst p))) l).

Lemma se_split a b a' b' l :
  se a' b' l = se a b l + sumR (map (fun p => Rsqr ((a - a') + (b - b') * fst p)) l)
             + 2 * (a - a') * sumR (map (fun p => snd p - (a + b * fst p)) l)
             + 2 * (b - b') * sumR (map (fun p => fst p * (snd p - (a + b * fst p))) l).
Proof.
  unfold se, sumR. induction l as [|[x y] l IH]; cbn [map fold_right fst snd]; [ring|].
  rewrite IH. unfold Rsqr. ring.
Qed.
Lemma sum_res a b l : sumR (map (fun p : R * R => snd p - (a + b * fst p)) l) =
  sumR (map snd l) - INR (length l) * a - b * sumR (map fst l).
Proof.
  unfold sumR. induction l as [|[x y] l IH]; [cbn; ring|]. cbn [map fold_right fst snd length].
  rewrite IH, S_INR. ring.
Qed.
Lemma sum_prod xm ym l : sumR (map (fun p : R * R => (fst p - xm) * (snd p - ym)) l) =
  sumR (map (fun p => fst p * snd p) l) - ym * sumR (map fst l) - xm * sumR (map snd l) + INR (length l) * xm * ym.
Proof.
  unfold sumR. induction l as [|[x y] l IH]; [cbn; ring|]. cbn [map fold_right fst snd length].
  rewrite IH, S_INR. ring.
Qed.
Lemma sum_xres a b l : sumR (map (fun p : R * R => fst p * (snd p - (a + b * fst p))) l) =
  sumR (map (fun p => fst p * snd p) l) - a * sumR (map fst l) - b * sumR (map (fun p => fst p * fst p) l).
Proof.
  unfold sumR. induction l as [|[x y] l IH]; [cbn; ring|]. cbn [map fold_right fst snd].
  rewrite IH. ring.
Qed.
Lemma sum_sq xm l : sumR (map (fun p : R * R => Rsqr (fst p - xm)) l) =
  sumR (map (fun p => fst p * fst p) l) - 2 * xm * sumR (map fst l) + INR (length l) * xm * xm.
Proof.
  unfold sumR. induction l as [|[x y] l IH]; [cbn; ring|]. cbn [map fold_right fst snd length].
  rewrite IH, S_INR. unfold Rsqr. ring.
Qed.
Lemma sumR_nonneg {A} (f : A -> R) l : (forall x, 0 <= f x) -> 0 <= sumR (map f l).
Proof. intros H. unfold sumR. induction l as [|x l IH]; cbn; [lra|]. pose proof (H x). lra. Qed.

Lemma combine_fst {A B} (l : list A) (m : list B) : length l = length m -> map fst (combine l m) = l.
Proof. revert m; induction l as [|x l IH]; intros [|y m] H; cbn in *; try discriminate; [reflexivity|]. now rewrite IH by lia. Qed.
Lemma combine_snd {A B} (l : list A) (m : list B) : length l = length m -> map snd (combine l m) = m.
Proof. revert m; induction l as [|x l IH]; intros [|y m] H; cbn in *; try discriminate; [reflexivity|]. now rewrite IH by lia. Qed.

Lemma errors_se a b ys : forall i, squared_errors a b i ys = se a b (combine (map INR (seq i (length ys))) ys).
Proof.
  induction ys as [|y ys IH]; intros i; [reflexivity|]. cbn [squared_errors length seq map combine].
  rewrite IH. unfold se, sumR. cbn [map fold_right fst snd]. reflexivity.
Qed.

Lemma slope_least_squares ys b : (2 <= length ys)%nat ->
  slope_of ys = Some b <-> exists a, forall a' b', squared_errors a b 0 ys <= squared_errors a' b' 0 ys.
Proof.
  intros Hn. set (l := combine (map INR (seq 0 (length ys))) ys).
  assert (Hxs : length (map INR (seq 0 (length ys))) = length ys) by (rewrite map_length, seq_length; reflexivity).
  assert (Fl : map fst l = map INR (seq 0 (length ys))) by (apply combine_fst; exact Hxs).
  assert (Sl : map snd l = ys) by (apply combine_snd; exact Hxs).
  assert (Ll : length l = length ys) by (unfold l; rewrite combine_length, Hxs; lia).
  set (n := length ys) in *. set (xm := sumR (map fst l) / INR n). set (ym := sumR ys / INR n).
  set (den := sumR (map (fun p : R * R => Rsqr (fst p - xm)) l)).
  set (num := sumR (map (fun p : R * R => (fst p - xm) * (snd p - ym)) l)).
  assert (HN : 0 < INR n) by (apply lt_0_INR; lia).
  assert (ED : sumR (map (fun x => Rsqr (x - xm)) (map INR (seq 0 n))) = den).
  { unfold den. rewrite <- Fl, map_map. reflexivity. }
  assert (HD : 0 < den).
  { rewrite <- ED. destruct n as [|[|m]]; try lia. cbn [seq map]. unfold sumR. cbn [fold_right INR].
    pose proof (sumR_nonneg (fun x => Rsqr (x - xm)) (map INR (seq 2 m)) (fun x => Rle_0_sqr _)) as P. unfold sumR in P.
    assert (0 < Rsqr (0 - xm) + Rsqr (1 - xm)); [|lra]. unfold Rsqr. nra. }
  assert (Sl0 : slope_of ys = Some (num / den)).
  { unfold slope_of. fold n. rewrite <- Fl. fold xm ym. rewrite Fl, ED. fold l. fold num. rewrite Rlt_b_true by exact HD. reflexivity. }
  set (B := num / den) in *. set (A := ym - B * xm).
  assert (R1 : sumR (map (fun p : R * R => snd p - (A + B * fst p)) l) = 0).
  { rewrite sum_res, Sl, Ll. fold n. unfold A. 
    replace (sumR ys) with (INR n * ym) by (unfold ym; field; lra).
    replace (sumR (map fst l)) with (INR n * xm) by (unfold xm; field; lra). ring. }
  assert (R2 : sumR (map (fun p : R * R => fst p * (snd p - (A + B * fst p))) l) = 0).
  { assert (N1 : num = B * den) by (unfold B; field; lra).
    unfold num in N1. rewrite sum_prod, Sl, Ll in N1. fold n in N1.
    unfold den in N1. rewrite sum_sq, Ll in N1. fold n in N1.
    assert (X1 : sumR (map fst l) = INR n * xm) by (unfold xm; field; lra).
    assert (Y1 : sumR ys = INR n * ym) by (unfold ym; field; lra).
    rewrite X1, Y1 in N1. rewrite sum_xres, X1. unfold A.
    set (XY := sumR (map (fun p => fst p * snd p) l)) in *. set (XX := sumR (map (fun p => fst p * fst p) l)) in *.
    replace XY with (XY - ym * (INR n * xm) - xm * (INR n * ym) + INR n * xm * ym + INR n * xm * ym) by ring.
    rewrite N1. ring. }
  assert (Sp : forall a' b', se a' b' l = se A B l + sumR (map (fun p => Rsqr ((A - a') + (B - b') * fst p)) l)).
  { intros a' b'. rewrite (se_split A B a' b'), R1, R2. ring. }
  split.
  - intros E. assert (b = B) by congruence. subst b. exists A. intros a' b'.
    rewrite !errors_se. fold n. fold l. rewrite (Sp a' b').
    pose proof (sumR_nonneg (fun p : R * R => Rsqr ((A - a') + (B - b') * fst p)) l (fun x => Rle_0_sqr _)). lra.
  - intros (a & H). specialize (H A B). rewrite !errors_se in H. fold n in H. fold l in H. rewrite (Sp a b) in H.
    assert (Z : sumR (map (fun p : R * R => Rsqr ((A - a) + (B - b) * fst p)) l) <= 0) by lra.
    assert (Z' : sumR (map (fun x => Rsqr ((A - a) + (B - b) * x)) (map INR (seq 0 n))) <= 0).
    { rewrite <- Fl, map_map. exact Z. }
    destruct n as [|[|m]]; try lia. cbn [seq map] in Z'. unfold sumR in Z'. cbn [fold_right INR] in Z'.
    pose proof (sumR_nonneg (fun x => Rsqr ((A - a) + (B - b) * x)) (map INR (seq 2 m)) (fun x => Rle_0_sqr _)) as P. unfold sumR in P.
    set (T := fold_right Rplus 0 (map (fun x => Rsqr ((A - a) + (B - b) * x)) (map INR (seq 2 m)))) in *. clearbody T.
    pose proof (Rle_0_sqr (A - a + (B - b) * 0)) as P0. pose proof (Rle_0_sqr (A - a + (B - b) * 1)) as P1.
    assert (V0 : A - a + (B - b) * 0 = 0) by (apply Rsqr_0_uniq; lra).
    assert (V1 : A - a + (B - b) * 1 = 0) by (apply Rsqr_0_uniq; lra).
    rewrite Sl0. f_equal. lra.
Qed.

Lemma nbytes_eq t : nbytes t = tree_bytes t.
Proof. reflexivity. Qed.
Lemma megabytes_eq n : megabytes n = mb n.
Proof. unfold megabytes, mb. field. Qed.
Lemma state_memory' (kvs : list (string * ptree nat)) :
  NoDup (map fst kvs) -> (forall n, sget "state"%string kvs <> Some (PLeaf n)) ->
  let '(sv, pv, bv) := analyze_state_memory (Some (PDict kvs)) in
  sv + pv = megabytes (nbytes (PDict kvs)) /\
  pv = megabytes (match sget "params"%string kvs with Some t => nbytes t | None => 0 end) /\
  bv = megabytes (match sget "state"%string kvs with Some (PDict vars) => list_sum (map (fun kv => if contains "buffer" (lower (fst kv)) then nbytes (snd kv) else 0%nat) vars) | _ => 0%nat end) /\
  0 <= bv <= sv.
Proof.
  intros N H. pose proof (state_memory kvs N H) as S.
  destruct (analyze_state_memory (Some (PDict kvs))) as [[sv pv] bv] eqn:E. destruct S as (S1 & S2 & S3).
  split; [rewrite megabytes_eq; exact S1|]. split; [rewrite megabytes_eq; exact S2|]. split; [|exact S3].
  rewrite megabytes_eq. cbn [analyze_state_memory] in E. destruct (sget "state" kvs) as [[n|vars]|] eqn:Es.
  - now destruct (H n).
  - injection E as _ _ <-. rewrite sum_mb. f_equal. unfold dict_bytes. clear.
    induction vars as [|kv vars IH]; [reflexivity|]. cbn [filter map list_sum fold_right].
    destruct (contains "buffer" (lower (fst kv))); cbn [map list_sum fold_right]; unfold list_sum in *; rewrite IH; reflexivity.
  - injection E as _ _ <-. unfold mb. cbn. lra.
Qed.

(** reset *)
Lemma take_snapshot_settings name state force mem t o t' : take_snapshot name state force mem t = Some (o, t') ->
  t_interval t' = t_interval t /\ t_thr t' = t_thr t /\ t_max t' = t_max t /\ t_enabled t' = t_enabled t.
Proof.
  unfold take_snapshot. destruct (t_enabled t) eqn:E; [|intros H; assert (t' = t) as -> by congruence; auto].
  destruct (analyze_state_memory state) as [[sv pv] bv].
  destruct (match t_last t with Some _ => _ | None => _ end) as [delta adelta].
  destruct force; [|destruct (_ =? 0); [discriminate|destruct (_ =? 0)]]; intros H;
    match type of H with Some (_, ?x) = _ => assert (t' = x) as -> by congruence end;
    cbn [t_interval t_thr t_max t_enabled]; auto.
Qed.
Lemma reset_fresh (interval : nat) (thr : R) (mx : nat) (calls calls' : list call_mem) (t : tracker) :
  snapshots_run (new_tracker interval thr mx) calls = Some t ->
  snapshots_run (reset_tracker t) calls' = snapshots_run (new_tracker interval thr mx) calls'.
Proof.
  assert (G : forall calls t0, t_interval t0 = interval -> t_thr t0 = thr -> t_max t0 = mx -> t_enabled t0 = true ->
    snapshots_run t0 calls = Some t -> reset_tracker t = new_tracker interval thr mx).
  { clear. induction calls as [|[[[name st] force] mem] r IH]; intros t0 H1 H2 H3 H4 H; cbn [snapshots_run] in H.
    - assert (t0 = t) as <- by congruence. unfold reset_tracker, new_tracker. congruence.
    - destruct (take_snapshot name st force mem t0) as [[o t1]|] eqn:E; [|discriminate].
      apply take_snapshot_settings in E. destruct E as (E1 & E2 & E3 & E4).
      apply (IH t1); congruence. }
  intros H. rewrite (G calls (new_tracker interval thr mx)); auto.
Qed.
