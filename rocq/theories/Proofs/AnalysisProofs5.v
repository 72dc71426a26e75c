(** Online gradient descent: the regret of OnlineOptimizer with sgd. *)
From Coq Require Import String List ZArith Reals Lra Lia Bool.
From Verif Require Import Model.Unroll Model.Batch Model.Float Model.Ewm Model.Newton Model.Optim Spec.OptimSpec Spec.EwmSpec Spec.AnalysisSpec
  Proofs.FloatFacts Proofs.ListFacts Proofs.OptimProofs.
Import ListNotations.
Local Open Scope list_scope.
Local Open Scope R_scope.

Lemma get_nth {V} (m : pmap V) i k v : NoDup (map fst m) -> nth_error m i = Some (k, v) -> get k m = Some v.
Proof.
  revert i; induction m as [|[k0 v0] m IH]; intros i Hd Hi; [destruct i; discriminate|].
  cbn [map fst] in Hd. inversion Hd as [|? ? Hn Hd']; subst. destruct i as [|i]; cbn [nth_error] in Hi.
  - injection Hi as <- <-. cbn. rewrite pkey_eqb_refl. reflexivity.
  - cbn. destruct (pkey_eqb_spec k k0) as [->|_]; [|eapply IH; eauto].
    exfalso. apply Hn. change k0 with (fst (k0, v)). apply in_map. eapply nth_error_In; eauto.
Qed.

Lemma map2_nth {A B C} (f : A -> B -> C) la lb i : nth_error (map2 f la lb) i =
  match nth_error la i, nth_error lb i with Some a, Some b => Some (f a b) | _, _ => None end.
Proof.
  revert lb i; induction la as [|a la IH]; intros [|b lb] [|i]; simpl; auto; destruct (nth_error la i); auto.
Qed.
Lemma map2_len {A B C} (f : A -> B -> C) la lb : length la = length lb -> length (map2 f la lb) = length la.
Proof. revert lb; induction la as [|a la IH]; intros [|b lb]; simpl; auto; try discriminate. Qed.

Lemma nth_error_ext' {A} (l l' : list A) : (forall i, nth_error l i = nth_error l' i) -> l = l'.
Proof. apply nth_error_ext. Qed.

Lemma shape_keys p q : same_shape p q -> map fst p = map fst q.
Proof.
  intros H. apply (f_equal (map fst)) in H. rewrite !map_map in H. exact H.
Qed.
Lemma shape_nth (p q : list (pkey * array)) i (k : pkey) (v : array) : same_shape p q -> nth_error p i = Some (k, v) ->
  exists w, nth_error q i = Some (k, w) /\ length w = length v.
Proof.
  unfold same_shape. intros H Hp. assert (E0 := f_equal (fun l => nth_error l i) H). clear H. rename E0 into H. cbv beta in H.
  rewrite !nth_error_map in H. rewrite Hp in H.
  destruct (nth_error q i) as [[k' w]|]; [|discriminate]. cbn in H. injection H as <- E. eauto.
Qed.

Lemma moved_zip p u q : NoDup (map fst p) -> same_shape u p -> moved p u q ->
  q = map2 (fun a b : pkey * array => (fst a, map2 fadd (snd a) (snd b) : array)) p u.
Proof.
  intros Hd Hs [Hk Hm]. apply nth_error_ext'. intros i. rewrite map2_nth.
  assert (Lq : length q = length p) by (rewrite <- (map_length fst q), Hk; apply map_length).
  destruct (nth_error p i) as [[k v]|] eqn:Ep.
  2:{ apply nth_error_None in Ep. apply nth_error_None. lia. }
  destruct (shape_nth p u i k v (eq_sym Hs) Ep) as (d & Eu & Ld). rewrite Eu. cbn [fst snd].
  assert (Hdu : NoDup (map fst u)) by (rewrite (shape_keys _ _ Hs); auto).
  destruct (Hm k v d (get_nth p i k v Hd Ep) (get_nth u i k d Hdu Eu) Ld) as (w & Hw & Lw & Hn).
  assert (Eq : nth_error (map fst q) i = Some k) by (rewrite Hk, nth_error_map, Ep; reflexivity).
  rewrite nth_error_map in Eq. destruct (nth_error q i) as [[k' w']|] eqn:Eqi; [|discriminate].
  cbn in Eq. injection Eq as ->.
  assert (Hdq : NoDup (map fst q)) by (rewrite Hk; auto).
  rewrite (get_nth q i k w' Hdq Eqi) in Hw. injection Hw as <-.
  apply f_equal. apply (f_equal2 pair); auto.
  apply nth_error_ext'. intros j. rewrite map2_nth.
  destruct (nth_error v j) as [a|] eqn:Ev.
  - destruct (nth_error d j) as [b|] eqn:Edj; [apply Hn; auto|].
    apply nth_error_None in Edj. assert (j < length v)%nat by (apply nth_error_Some; congruence). lia.
  - apply nth_error_None in Ev. apply nth_error_None. lia.
Qed.

Lemma map2_app {A B C} (f : A -> B -> C) a1 b1 a2 b2 : length a1 = length b1 ->
  map2 f (a1 ++ a2) (b1 ++ b2) = map2 f a1 b1 ++ map2 f a2 b2.
Proof. revert b1; induction a1 as [|x a1 IH]; intros [|y b1] H; try discriminate; simpl; auto. rewrite IH; auto. Qed.

Lemma entries_zip p u : same_shape u p ->
  entries (map2 (fun a b : pkey * array => (fst a, map2 fadd (snd a) (snd b) : array)) p u) = map2 fadd (entries p) (entries u) /\
  same_shape (map2 (fun a b : pkey * array => (fst a, map2 fadd (snd a) (snd b) : array)) p u) p.
Proof.
  unfold same_shape, entries. revert u; induction p as [|[k v] p IH]; intros [|[k' d] u] H; try discriminate; [auto|].
  cbn in H. injection H as -> Hl H. destruct (IH u H) as [E1 E2]. cbn. rewrite E1. split.
  - rewrite map2_app by auto. reflexivity.
  - rewrite E2, map2_len by auto. reflexivity.
Qed.

Lemma map2_Fin v d : map2 fadd (map Fin v) (map Fin d) = map Fin (map2 Rplus v d).
Proof. revert d; induction v as [|x v IH]; intros [|y d]; simpl; auto. rewrite IH; auto. Qed.

Lemma same_shape_trans a b c : same_shape a b -> same_shape b c -> same_shape a c.
Proof. unfold same_shape; congruence. Qed.

Lemma moved_point sh p u q v d : NoDup (map fst sh) -> at_point sh p v -> at_point sh u d -> moved p u q ->
  at_point sh q (map2 Rplus v d).
Proof.
  intros Hd [Sp Ep] [Su Eu] Hm.
  assert (Sup : same_shape u p) by (unfold same_shape in *; congruence).
  rewrite (moved_zip p u q) by (auto; rewrite (shape_keys _ _ Sp); auto).
  destruct (entries_zip p u Sup) as [E1 E2]. split; [eapply same_shape_trans; eauto|].
  rewrite E1, Ep, Eu. apply map2_Fin.
Qed.

Lemma entries_map f (p : pmap array) : entries (map (fun kv : pkey * array => (fst kv, map f (snd kv) : array)) p) = map f (entries p).
Proof. unfold entries. rewrite concat_map, !map_map. reflexivity. Qed.
Lemma shape_map f (p : pmap array) : same_shape (map (fun kv : pkey * array => (fst kv, map f (snd kv) : array)) p) p.
Proof. unfold same_shape. rewrite map_map. apply map_ext. intros [k v]. cbn. rewrite map_length. reflexivity. Qed.

Lemma point_length sh p q v w : at_point sh p v -> at_point sh q w -> length v = length w.
Proof.
  intros [Sp Ep] [Sq Eq]. rewrite <- (map_length Fin v), <- (map_length Fin w), <- Ep, <- Eq.
  assert (S : same_shape p q) by (unfold same_shape in *; congruence). clear -S.
  unfold entries, same_shape in *. revert q S; induction p as [|[k a] p IH]; intros [|[k' b] q] S; try discriminate; auto.
  cbn in *. injection S as _ L S. rewrite !app_length, L, (IH q S). reflexivity.
Qed.

Lemma map2_nth0 v d i : length v = length d -> nth i (map2 Rplus v d) 0 = nth i v 0 + nth i d 0.
Proof.
  revert d i; induction v as [|x v IH]; intros [|y d] i H; try discriminate; destruct i; simpl; try lra; auto.
Qed.

Lemma sum_n_ext' n f g : (forall k, (k < n)%nat -> f k = g k) -> sum_n n f = sum_n n g.
Proof. induction n as [|n IH]; simpl; intros H; auto. rewrite IH, H; auto. Qed.
Lemma sum_n_plus' n f g : sum_n n (fun k => f k + g k) = sum_n n f + sum_n n g.
Proof. induction n as [|n IH]; simpl; [lra|]. rewrite IH; lra. Qed.
Lemma sum_n_scal' n c f : sum_n n (fun k => c * f k) = c * sum_n n f.
Proof. induction n as [|n IH]; simpl; [lra|]. rewrite IH; lra. Qed.

Lemma sq_dist_step lr v g z : length v = length g ->
  sq_dist (map2 Rplus v (map (Rmult (- lr)) g)) z = sq_dist v z - 2 * lr * inner_diff g v z + lr ^ 2 * sq_norm g.
Proof.
  intros L. assert (Ld : length v = length (map (Rmult (- lr)) g)) by (rewrite map_length; auto).
  unfold sq_dist, inner_diff, sq_norm. rewrite map2_len by auto. rewrite <- L.
  rewrite (sum_n_ext' _ _ (fun i => (nth i v 0 - nth i z 0) ^ 2 + ((- 2 * lr) * (nth i g 0 * (nth i v 0 - nth i z 0)) + lr ^ 2 * nth i g 0 ^ 2))).
  - rewrite !sum_n_plus', !sum_n_scal'. ring.
  - intros k Hk. rewrite map2_nth0 by auto.
    replace (nth k (map (Rmult (- lr)) g) 0) with (- lr * nth k g 0); [ring|].
    rewrite <- (map_nth (Rmult (- lr))). f_equal. rewrite Rmult_0_r. reflexivity.
Qed.

Lemma made_finite_id fm v : map (made_finite fm) (map Fin v) = map Fin v.
Proof. rewrite map_map. apply map_ext. reflexivity. Qed.

Section Regret.
  Context {K S X Info OS : Type} (split : K -> K * K).
  Variables (fm : R) (model : transformed K (pmap array) S X (fl * Info))
    (opt : gradient_transformation OS array)
    (project_params : option (pmap array -> pmap array))
    (regularize_loss : option (pmap array -> fl))
    (pred : pkey -> array -> bool) (return_params : bool)
    (grad : (pmap array -> fl) -> pmap array -> pmap array).

  Lemma ogd_regret lr G2 k x0 xs p0 s0 v0 (z : list R) (zp : pmap array) :
    0 < lr -> is_sgd lr opt ->
    t_init model (Some (snd (split k))) x0 = (p0, s0) -> NoDup (map fst p0) ->
    let tp0 := fst (partition pred p0) in
    let total_loss := fun (s : S) (x : X) (q : pmap array) =>
      let lq := fst (fst (t_apply model (merge q (snd (partition pred p0))) s None x)) in
      match regularize_loss with Some reg => fadd lq (reg q) | None => lq end in
    at_point tp0 tp0 v0 -> at_point tp0 zp z ->
    (forall s x p v, In x (x0 :: xs) -> at_point tp0 p v ->
       exists g lp lz, at_point tp0 (grad (total_loss s x) p) g /\ sq_norm g <= G2 /\
         total_loss s x p = Fin lp /\ total_loss s x zp = Fin lz /\ lp - lz <= inner_diff g v z) ->
    (forall proj p v, project_params = Some proj -> at_point tp0 p v ->
       exists v', at_point tp0 (proj p) v' /\ sq_dist v' z <= sq_dist v z) ->
    exists outs sF ls cs (ms : nat -> S),
      unroll split (OnlineOptimizer split fm model opt project_params regularize_loss pred return_params grad)
        false (Some k) None None (x0 :: xs) = Some (outs, sF) /\
      map loss outs = map Fin ls /\ length cs = length ls /\ ms 0%nat = s0 /\
      (forall t x, nth_error (x0 :: xs) t = Some x ->
         option_map Fin (nth_error cs t) = Some (total_loss (ms t) x zp)) /\
      sum_n (length ls) (fun t => nth t ls 0 - nth t cs 0) <=
        sq_dist v0 z / (2 * lr) + lr * G2 / 2 * INR (length ls).
  Proof.
    intros Hlr Hsgd Hi Hnd tp0 total Hv0 Hz Hgrad Hproj.
    destruct (oo_run split fm model opt project_params regularize_loss pred return_params grad k x0 xs p0 s0 Hi)
      as (outs & sF & Hr & Hlo & _ & tp & ms & os & Htp0 & Hms0 & _ & _ & _ & _ & _ & Hstep).
    set (N := length (x0 :: xs)) in *.
    assert (Hnd0 : NoDup (map fst tp0)) by (apply filter_nodup; auto).
    (* invariant along the run *)
    assert (Inv : forall T, (T <= N)%nat -> exists vT ls cs, at_point tp0 (tp T) vT /\ length ls = T /\ length cs = T /\
       map loss (firstn T outs) = map Fin ls /\
       (forall t x, (t < T)%nat -> nth_error (x0 :: xs) t = Some x -> option_map Fin (nth_error cs t) = Some (total (ms t) x zp)) /\
       sq_dist vT z + 2 * lr * sum_n T (fun t => nth t ls 0 - nth t cs 0) <= sq_dist v0 z + INR T * (lr ^ 2 * G2)).
    { induction T as [|T IH]; intros HT.
      - exists v0, [], []. rewrite Htp0. split; [exact Hv0|]. split; [auto|]. split; [auto|]. split; [reflexivity|].
        split; [intros; lia|]. simpl. lra.
      - destruct IH as (vT & ls & cs & HpT & Lls & Lcs & Els & Ecs & Hbd); [lia|].
        destruct (nth_error (x0 :: xs) T) as [x|] eqn:Ex; [|apply nth_error_None in Ex; unfold N in HT; lia].
        destruct (Hstep T x Ex) as (l & info & Ha & Hout & u & q & Hup & Hmv & Htp1).
        change (opt_update opt (each_entry (made_finite fm) (grad (total (ms T) x) (tp T))) (os T) = (u, os (1 + T)%nat)) in Hup.
        destruct (Hgrad (ms T) x (tp T) vT (nth_error_In _ _ Ex) HpT) as (g & lp & lz & Hg & HgG & Elp & Elz & Hsub).
        assert (Hu : at_point tp0 u (map (Rmult (- lr)) g)).
        { pose proof (Hsgd (each_entry (made_finite fm) (grad (total (ms T) x) (tp T))) (os T)) as Hs.
          rewrite Hup in Hs. cbn [fst] in Hs. subst u. destruct Hg as [Sg Eg]. split.
          - eapply same_shape_trans; [apply shape_map|]. eapply same_shape_trans; [apply shape_map|exact Sg].
          - rewrite entries_map. unfold each_entry. rewrite entries_map, Eg, made_finite_id, !map_map. reflexivity. }
        pose proof (moved_point tp0 (tp T) u q vT _ Hnd0 HpT Hu Hmv) as Hq.
        assert (Lg : length vT = length g) by (eapply point_length; eauto).
        assert (Hnext : exists v', at_point tp0 (tp (1 + T)%nat) v' /\ sq_dist v' z <= sq_dist (map2 Rplus vT (map (Rmult (- lr)) g)) z).
        { rewrite Htp1. destruct project_params as [proj|] eqn:Ep.
          - apply (Hproj proj q _ eq_refl Hq).
          - eexists; split; [exact Hq|lra]. }
        destruct Hnext as (v' & Hv' & Hd'). rewrite sq_dist_step in Hd' by auto.
        assert (Eloss : match regularize_loss with Some reg => fadd l (reg (tp T)) | None => l end = Fin lp).
        { rewrite <- Elp. unfold total. rewrite Ha. reflexivity. }
        exists v', (ls ++ [lp]), (cs ++ [lz]). split; [exact Hv'|]. rewrite !app_length, Lls, Lcs. cbn [length].
        split; [lia|]. split; [lia|]. split.
        { rewrite (firstn_snoc _ _ _ Hout), !map_app, Els. cbn [map loss]. rewrite Eloss. reflexivity. }
        split.
        { intros t x' Ht Hx'. destruct (Nat.eq_dec t T) as [->|Hne].
          - rewrite nth_error_app2, Lcs, Nat.sub_diag by lia. cbn. assert (x' = x) by congruence. subst x'. rewrite Elz. reflexivity.
          - rewrite nth_error_app1 by lia. apply Ecs; auto. lia. }
        cbn [sum_n]. rewrite !app_nth2, Lls, Lcs, Nat.sub_diag by lia. cbn [nth].
        rewrite (sum_n_ext' T _ (fun t => nth t ls 0 - nth t cs 0)).
        2:{ intros j Hj. rewrite !app_nth1 by lia. reflexivity. }
        rewrite S_INR. change (Datatypes.S T) with (1 + T)%nat.
        assert (lr ^ 2 * sq_norm g <= lr ^ 2 * G2) by (apply Rmult_le_compat_l; [apply pow2_ge_0|auto]).
        assert (2 * lr * (lp - lz) <= 2 * lr * inner_diff g vT z) by (apply Rmult_le_compat_l; [lra|auto]).
        lra. }
    destruct (Inv N (Nat.le_refl N)) as (vN & ls & cs & HpN & Lls & Lcs & Els & Ecs & Hbd).
    exists outs, sF, ls, cs, ms. split; [exact Hr|]. rewrite firstn_all2 in Els by (unfold N in *; lia).
    split; [exact Els|]. split; [congruence|]. split; [auto|]. split.
    { intros t x Hx. apply Ecs; auto. assert (t < length (x0 :: xs))%nat by (apply nth_error_Some; congruence). exact H. }
    rewrite Lls in *. assert (0 <= sq_dist vN z).
    { unfold sq_dist. generalize (length vN). intros n. induction n as [|n IH]; cbn [sum_n]; [lra|].
      pose proof (pow2_ge_0 (nth n vN 0 - nth n z 0)). lra. }
    apply Rmult_le_reg_l with (2 * lr); [lra|].
    replace (2 * lr * (sq_dist v0 z / (2 * lr) + lr * G2 / 2 * INR N)) with (sq_dist v0 z + INR N * (lr ^ 2 * G2)) by (field; lra).
    lra.
  Qed.
End Regret.
