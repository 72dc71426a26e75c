From Coq Require Import ZArith List Bool Arith Reals Lra Lia.
From Verif Require Import Model.Unroll Model.Float Model.Modules Model.Ewm Spec.SeriesSpec Spec.EwmSpec Spec.CovSpec Spec.PortfolioSpec Proofs.ListFacts Proofs.FloatFacts Proofs.RunFacts Proofs.EwmFacts Proofs.EwmProofs Proofs.EwmExtra Proofs.EwmcovProofs Proofs.EwmcovExtra Proofs.AnalysisProofs Proofs.EwmExamples.
Import ListNotations.
Local Open Scope R_scope.

Definition vget (g : (nat -> R) * (nat -> R) -> R) (o : option ((nat -> R) * (nat -> R))) : R :=
  match o with Some v => g v | None => 0 end.
Definition seen_pat {A} (vs : list (option A)) : list bool := map (fun o => match o with Some _ => true | None => false end) vs.

Lemma nth_pat {A} (vs : list (option A)) n : existsb (fun b => b) (firstn n (seen_pat vs)) = false -> 
  forall k, (k < n)%nat -> nth k vs None = None.
Proof.
  revert n. induction vs as [|o vs IH]; intros n H k Hk; [destruct k; reflexivity|].
  destruct n as [|n]; [lia|]. cbn in H. apply orb_false_iff in H as [H1 H2].
  destruct k as [|k]; [destruct o; [discriminate|reflexivity]|]. cbn. apply (IH n); [exact H2|lia].
Qed.
Lemma count_pat (os os' : list (option R)) : map isobs os = map isobs os' -> count_obs os = count_obs os'.
Proof.
  revert os'. induction os as [|o os IH]; intros [|o' os'] H; try discriminate; [reflexivity|].
  cbn in H. injection H as H1 H2. specialize (IH os' H2). destruct o, o'; cbn in *; congruence.
Qed.

(** Every entry of the matrix through one system of weights. *)
Lemma cov_functional fm cfg (pat : list bool) t :
  0 <= com cfg -> initial_value cfg = NaN -> (t < length pat)%nat ->
  exists (w : nat -> R) (ok : bool), (forall k, 0 <= w k) /\ (forall k, nth k pat false = false -> w k = 0) /\ (ok = true -> sum_n (t + 1) w = 1) /\
    forall p q (vs : list (option ((nat -> R) * (nat -> R)))) Ms sF M, seen_pat vs = pat ->
      run (EWMCov fm cfg false) (map (pair_row p q) vs) = Some (Ms, sF) -> nth_error Ms t = Some M ->
      entries p q M (fun i j => if ok then
        Fin (sum_n (t + 1) (fun k => w k * vget (fun v => fst v i * snd v j) (nth k vs None)) -
             sum_n (t + 1) (fun k => w k * vget (fun v => fst v i) (nth k vs None)) *
             sum_n (t + 1) (fun k => w k * vget (fun v => snd v j) (nth k vs None))) else NaN).
Proof.
  intros Hc Hi Ht. destruct (ewma_functional fm cfg pat t Hc Hi Ht) as (w & Hw & Hz & Hs & Hf).
  set (os0 := map (fun b : bool => if b then Some 0 else None) pat).
  assert (E0 : map isobs os0 = pat).
  { unfold os0. rewrite map_map. rewrite <- map_id. apply map_ext. intros []; auto. }
  exists w, (existsb (fun b => b) (firstn (t + 1) pat) && negb (Z.of_nat (count_obs (firstn (t + 1) os0)) <? min_periods cfg)%Z).
  split; [exact Hw|]. split; [exact Hz|]. split; [intros H; apply andb_prop in H as [H _]; auto|].
  intros p q vs Ms sF M Hp Hr HM i j Hip Hjq.
  set (xs := map (pair_row p q) vs) in *.
  assert (Hsh : Forall (shaped p q) xs).
  { apply Forall_forall. intros v Hv. apply in_map_iff in Hv as (o & <- & _). split; apply length_row_of. }
  destruct (cov_run fm cfg p q xs Ms sF Hsh Hr) as [Hl H].
  destruct vs as [|v0 vr]; [exfalso; rewrite <- Hp in Ht; cbn in Ht; lia|]. set (vs := v0 :: vr) in *.
  assert (Hx : forall g e s, run (EWMA fm cfg) (map (fun o => of_option (option_map g o)) vs) = Some (e, s) ->
     nth_error e t = Some (if existsb (fun b => b) (firstn (t + 1) pat) && negb (Z.of_nat (count_obs (firstn (t + 1) os0)) <? min_periods cfg)%Z
       then Fin (sum_n (t + 1) (fun k => w k * vget g (nth k vs None))) else NaN)).
  { intros g e s He. rewrite <- (map_map (option_map g) of_option) in He.
    assert (Eo : map isobs (map (option_map g) vs) = pat).
    { rewrite <- Hp. unfold seen_pat. rewrite map_map. apply map_ext. intros []; reflexivity. }
    rewrite (Hf _ _ _ Eo He). f_equal. unfold when_enough.
    assert (Ec : count_obs (firstn (t + 1) (map (option_map g) vs)) = count_obs (firstn (t + 1) os0)).
    { apply count_pat. rewrite <- !firstn_map, Eo, E0. reflexivity. }
    rewrite Ec.
    destruct (existsb _ _); cbn [andb]; [|reflexivity].
    destruct (Z.of_nat (count_obs (firstn (t + 1) os0)) <? min_periods cfg)%Z; cbn [negb]; [reflexivity|]. f_equal. apply sum_n_ext. intros k _. f_equal.
    change None with (option_map g None) at 1. rewrite map_nth. destruct (nth k vs None); reflexivity. }
  assert (G : forall (f : list fl * list fl -> fl) g, (forall o, f (pair_row p q o) = of_option (option_map g o)) -> 
     exists e s, run (EWMA fm cfg) (map f xs) = Some (e, s) /\ run (EWMA fm cfg) (map (fun o => of_option (option_map g o)) vs) = Some (e, s)).
  { intros f g E. destruct (ewma_total fm cfg (fun o => of_option (option_map g o)) v0 vr) as (e & s & He).
    exists e, s. split; [|exact He]. unfold xs. rewrite map_map. rewrite <- He. f_equal. apply map_ext. exact E. }
  destruct (G (comp_x i) (fun v => fst v i)) as (e1 & s1 & A1 & B1).
  { intros [v|]; unfold comp_x; cbn [pair_row fst]; rewrite nth_row_of by exact Hip; reflexivity. }
  destruct (G (comp_y j) (fun v => snd v j)) as (e2 & s2 & A2 & B2).
  { intros [v|]; unfold comp_y; cbn [pair_row snd]; rewrite nth_row_of by exact Hjq; reflexivity. }
  destruct (G (comp_xy i j) (fun v => fst v i * snd v j)) as (e3 & s3 & A3 & B3).
  { intros [v|]; unfold comp_xy, comp_x, comp_y; cbn [pair_row fst snd]; rewrite !nth_row_of by assumption; reflexivity. }
  destruct (H i j Hip Hjq _ _ _ _ _ _ A3 A1 A2 t) as (M' & a & b & c & HM' & Ha & Hb & Hc' & Hv).
  { rewrite <- Hl. eapply nth_lt; eauto. }
  assert (M' = M) by congruence. subst M'. rewrite Hv. f_equal.
  rewrite (Hx _ _ _ B3) in Ha. rewrite (Hx _ _ _ B1) in Hb. rewrite (Hx _ _ _ B2) in Hc'.
  injection Ha as <-. injection Hb as <-. injection Hc' as <-.
  destruct (_ && _); reflexivity.
Qed.

(** Bilinear algebra of weighted covariances. *)
Section Weighted.
  Variables (n : nat) (w : nat -> R) (vs : list (option ((nat -> R) * (nat -> R)))).
  Notation fn := ((nat -> R) * (nat -> R) -> R).
  Definition E (f : fn) : R := sum_n n (fun k => w k * vget f (nth k vs None)).
  Definition cov (f g : fn) : R := E (fun v => f v * g v) - E f * E g.
  Lemma E_ext f g : (forall v, f v = g v) -> E f = E g.
  Proof. intros H. unfold E. apply sum_n_ext. intros k _. f_equal. unfold vget. destruct (nth k vs None); auto. Qed.
  Lemma E_plus f g : E (fun v => f v + g v) = E f + E g.
  Proof. unfold E. rewrite <- sum_n_plus. apply sum_n_ext. intros k _. unfold vget. destruct (nth k vs None); ring. Qed.
  Lemma E_scal c f : E (fun v => c * f v) = c * E f.
  Proof. unfold E. rewrite <- sum_n_scal. apply sum_n_ext. intros k _. unfold vget. destruct (nth k vs None); ring. Qed.
  Lemma E_const c : (forall k, (k < n)%nat -> nth k vs None = None -> w k = 0) -> sum_n n w = 1 -> E (fun _ => c) = c.
  Proof.
    intros Hz Hs. unfold E. rewrite (sum_n_ext n _ (fun k => c * w k)); [rewrite sum_n_scal, Hs; ring|].
    intros k Hk. unfold vget. destruct (nth k vs None) eqn:Ek; [ring|]. rewrite (Hz k Hk Ek). ring.
  Qed.
  Lemma cov_ext f f' g g' : (forall v, f v = f' v) -> (forall v, g v = g' v) -> cov f g = cov f' g'.
  Proof. intros H H'. unfold cov. rewrite (E_ext f f' H), (E_ext g g' H'). f_equal. apply E_ext. intros v. rewrite H, H'. reflexivity. Qed.
  Lemma cov_sym f g : cov f g = cov g f.
  Proof. unfold cov. rewrite (E_ext (fun v => f v * g v) (fun v => g v * f v)) by (intros; ring). ring. Qed.
  Lemma cov_plus f f' g : cov (fun v => f v + f' v) g = cov f g + cov f' g.
  Proof.
    unfold cov. rewrite (E_ext (fun v => (f v + f' v) * g v) (fun v => f v * g v + f' v * g v)) by (intros; ring).
    rewrite !E_plus. ring.
  Qed.
  Lemma cov_scal c f g : cov (fun v => c * f v) g = c * cov f g.
  Proof.
    unfold cov. rewrite (E_ext (fun v => c * f v * g v) (fun v => c * (f v * g v))) by (intros; ring).
    rewrite !E_scal. ring.
  Qed.
  Lemma cov_const c g : (forall k, (k < n)%nat -> nth k vs None = None -> w k = 0) -> sum_n n w = 1 -> cov (fun _ => c) g = 0.
  Proof. intros H1 H2. unfold cov. rewrite E_scal, E_const by assumption. ring. Qed.
  Lemma cov_zero g : cov (fun _ => 0) g = 0.
  Proof. rewrite (cov_ext _ (fun v => 0 * 0) g g) by (intros; ring). rewrite cov_scal. ring. Qed.
  Lemma cov_sum p (a : nat -> R) (f : nat -> fn) g : cov (fun v => sum_n p (fun i => a i * f i v)) g = sum_n p (fun i => a i * cov (f i) g).
  Proof. induction p as [|p IH]; cbn [sum_n]; [apply cov_zero|]. rewrite cov_plus, IH, cov_scal. reflexivity. Qed.
  Lemma cov_affine_l p A a k g : (forall k, (k < n)%nat -> nth k vs None = None -> w k = 0) -> sum_n n w = 1 -> 
    forall f : nat -> fn, cov (fun v => affine p A a (fun i => f i v) k) g = sum_n p (fun i => A k i * cov (f i) g).
  Proof. intros H1 H2 f. unfold affine. rewrite cov_plus, cov_const, cov_sum by assumption. ring. Qed.
  Lemma cov_bilinear p q A a B b k l : (forall k, (k < n)%nat -> nth k vs None = None -> w k = 0) -> sum_n n w = 1 -> 
    cov (fun v => affine p A a (fst v) k) (fun v => affine q B b (snd v) l) =
    sum_n p (fun i => sum_n q (fun j => A k i * B l j * cov (fun v => fst v i) (fun v => snd v j))).
  Proof.
    intros H1 H2. rewrite (cov_affine_l p A a k _ H1 H2 (fun i v => fst v i)). apply sum_n_ext. intros i _.
    rewrite cov_sym, (cov_affine_l q B b l _ H1 H2 (fun j v => snd v j)), <- sum_n_scal. apply sum_n_ext. intros j _.
    rewrite cov_sym. ring.
  Qed.
End Weighted.

Lemma E_map n w vs (h : (nat -> R) * (nat -> R) -> (nat -> R) * (nat -> R)) f : 
  E n w (map (option_map h) vs) f = E n w vs (fun v => f (h v)).
Proof.
  unfold E. apply sum_n_ext. intros k _. f_equal. change None with (option_map h None) at 1. rewrite map_nth.
  destruct (nth k vs None); reflexivity.
Qed.
Lemma cov_map n w vs h f g : cov n w (map (option_map h) vs) f g = cov n w vs (fun v => f (h v)) (fun v => g (h v)).
Proof. unfold cov. rewrite !E_map. reflexivity. Qed.

Lemma seen_pat_map {A B} (h : A -> B) vs : seen_pat (map (option_map h) vs) = seen_pat vs.
Proof. unfold seen_pat. rewrite map_map. apply map_ext. intros []; reflexivity. Qed.
Lemma seen_pat_none {A} (vs : list (option A)) k : nth k vs None = None -> nth k (seen_pat vs) false = false.
Proof.
  intros H. transitivity ((fun o : option A => match o with Some _ => true | None => false end) (nth k vs None)).
  - exact (map_nth (fun o : option A => match o with Some _ => true | None => false end) vs None k).
  - rewrite H. reflexivity.
Qed.

Lemma ewmcov_affine fm cfg p q p' q' A a B b vs Ms sF Ms' sF' :
  0 <= com cfg -> initial_value cfg = NaN ->
  run (EWMCov fm cfg false) (map (pair_row p q) vs) = Some (Ms, sF) ->
  run (EWMCov fm cfg false) (map (pair_row p' q') (map (option_map (fun v => (affine p A a (fst v), affine q B b (snd v)))) vs)) = Some (Ms', sF') ->
  forall t M M', nth_error Ms t = Some M -> nth_error Ms' t = Some M' ->
  (entries p q M (fun _ _ => NaN) /\ entries p' q' M' (fun _ _ => NaN)) \/
  exists C, entries p q M (fun i j => Fin (C i j)) /\
    entries p' q' M' (fun k l => Fin (sum_n p (fun i => sum_n q (fun j => A k i * B l j * C i j)))).
Proof.
  intros Hc Hi Hr Hr' t M M' HM HM'.
  set (h := fun v : (nat -> R) * (nat -> R) => (affine p A a (fst v), affine q B b (snd v))) in *.
  assert (Ht : (t < length (seen_pat vs))%nat).
  { unfold seen_pat. rewrite map_length, <- (map_length (pair_row p q)).
    assert (Hsh : Forall (shaped p q) (map (pair_row p q) vs)).
    { apply Forall_forall. intros v Hv. apply in_map_iff in Hv as (o & <- & _). split; apply length_row_of. }
    destruct (cov_run fm cfg p q _ Ms sF Hsh Hr) as [Hl _]. rewrite <- Hl. eapply nth_lt; eauto. }
  destruct (cov_functional fm cfg (seen_pat vs) t Hc Hi Ht) as (w & ok & Hw & Hz & Hs & Hf).
  pose proof (Hf p q vs Ms sF M eq_refl Hr HM) as H1.
  pose proof (Hf p' q' (map (option_map h) vs) Ms' sF' M' (seen_pat_map h vs) Hr' HM') as H2.
  destruct ok; [right|left; split; assumption].
  exists (fun i j => cov (t + 1) w vs (fun v => fst v i) (fun v => snd v j)).
  split; [exact H1|]. intros k l Hk Hl. rewrite (H2 k l Hk Hl). do 2 f_equal.
  change (cov (t + 1) w (map (option_map h) vs) (fun v => fst v k) (fun v => snd v l) =
    sum_n p (fun i => sum_n q (fun j => A k i * B l j * cov (t + 1) w vs (fun v => fst v i) (fun v => snd v j)))).
  rewrite cov_map. unfold h. cbn [fst snd]. apply cov_bilinear; [|auto].
  intros k' _ Hk'. apply Hz, seen_pat_none, Hk'.
Qed.

(** |C_ij|^2 <= C_ii C_jj *)
Lemma disc a b c : (forall x y, 0 <= x * x * a + 2 * x * y * b + y * y * c) -> b * b <= a * c.
Proof.
  intros H. pose proof (H 1 0). pose proof (H 0 1).
  destruct (Req_dec c 0) as [->|Hc].
  - destruct (Req_dec b 0) as [->|Hb]; [lra|]. exfalso.
    pose proof (H 1 (- (a + 1) / (2 * b))) as H9.
    assert (E1 : 1 * 1 * a + 2 * 1 * (- (a + 1) / (2 * b)) * b + - (a + 1) / (2 * b) * (- (a + 1) / (2 * b)) * 0 = -1) by (field; lra).
    lra.
  - pose proof (H c (- b)) as H9. assert (0 < c) by lra.
    assert (E1 : c * c * a + 2 * c * - b * b + - b * - b * c = c * (a * c - b * b)) by ring.
    rewrite E1 in H9. destruct (Rle_lt_dec (b * b) (a * c)) as [|L]; [assumption|].
    exfalso. assert (c * (a * c - b * b) < 0) by nra. lra.
Qed.

Lemma sum_n_pick n i f : (i < n)%nat -> (forall k, (k < n)%nat -> k <> i -> f k = 0) -> sum_n n f = f i.
Proof.
  induction n as [|n IH]; intros Hi H; [lia|]. cbn [sum_n]. destruct (Nat.eq_dec i n) as [->|Hn].
  - rewrite sum_n_zero; [ring|]. intros k Hk. apply H; lia.
  - rewrite IH by (try lia; intros; apply H; lia). rewrite (H n) by lia. ring.
Qed.

Lemma ewmcov_cauchy_schwarz fm cfg p (vs : list (option (nat -> R))) Ms sF :
  0 <= com cfg -> initial_value cfg = NaN ->
  run (EWMCov fm cfg false) (map (fun o => (row_of p o, row_of p o)) vs) = Some (Ms, sF) ->
  forall t M C, nth_error Ms t = Some M -> entries p p M (fun i j => Fin (C i j)) ->
  forall i j, (i < p)%nat -> (j < p)%nat -> C i j * C i j <= C i i * C j j.
Proof.
  intros Hc Hi Hr t M C HM HC i j Hip Hjp.
  destruct (Nat.eq_dec i j) as [->|Hij]; [lra|].
  assert (Sy : C i j = C j i).
  { assert (Hsh : Forall (shaped p p) (map (fun o => (row_of p o, row_of p o)) vs)).
    { apply Forall_forall. intros v Hv. apply in_map_iff in Hv as (o & <- & _). split; apply length_row_of. }
    assert (Hr' : run (EWMCov fm cfg false) (map (fun xy => (snd xy, fst xy)) (map (fun o => (row_of p o, row_of p o)) vs)) = Some (Ms, sF)).
    { rewrite map_map. exact Hr. }
    destruct (cov_transpose fm cfg p p _ Ms sF Ms sF Hsh Hr Hr' t M M HM HM i j Hip Hjp) as (v & E1 & E2).
    rewrite (HC i j Hip Hjp) in E1. rewrite (HC j i Hjp Hip) in E2. congruence. }
  apply disc. intros x y.
  pose proof (cov_psd fm cfg p vs Ms sF Hc Hi Hr t M (fun k => if (k =? i)%nat then x else if (k =? j)%nat then y else 0) C HM HC) as P.
  set (c := fun k => if (k =? i)%nat then x else if (k =? j)%nat then y else 0) in P.
  assert (Q : forall f : nat -> R, sum_n p (fun k => c k * f k) = x * f i + y * f j).
  { intros f. rewrite (sum_n_ext p _ (fun k => (if (k =? i)%nat then x * f k else 0) + (if (k =? j)%nat then y * f k else 0))).
    - rewrite sum_n_plus. f_equal.
      + rewrite (sum_n_pick p i); [rewrite Nat.eqb_refl; reflexivity|exact Hip|]. intros k _ Hk. apply Nat.eqb_neq in Hk. rewrite Hk. reflexivity.
      + rewrite (sum_n_pick p j); [rewrite Nat.eqb_refl; reflexivity|exact Hjp|]. intros k _ Hk. apply Nat.eqb_neq in Hk. rewrite Hk. reflexivity.
    - intros k _. unfold c. destruct (Nat.eqb_spec k i), (Nat.eqb_spec k j); subst; try contradiction; ring. }
  unfold quad in P.
  rewrite (sum_n_ext p _ (fun k => c k * (x * C k i + y * C k j))) in P.
  2:{ intros k _. rewrite <- (Q (fun l => C k l)), <- sum_n_scal. apply sum_n_ext. intros; ring. }
  rewrite Q in P. rewrite <- Sy in P.
  replace (x * x * C i i + 2 * x * y * C i j + y * y * C j j) with (x * (x * C i i + y * C i j) + y * (x * C i j + y * C j j)) by ring.
  exact P.
Qed.

Lemma ewmcov_portfolio fm cfg p c (vs : list (option (nat -> R))) Ms sF ws sV :
  0 <= com cfg -> initial_value cfg = NaN -> (0 < p)%nat ->
  run (EWMCov fm cfg false) (map (fun o => (row_of p o, row_of p o)) vs) = Some (Ms, sF) ->
  run (EWMVar (com cfg) (adjust cfg)) (map (fun o => of_option (option_map (portfolio p c) o)) vs) = Some (ws, sV) ->
  forall t M C, nth_error Ms t = Some M ->
  ignore_na cfg = true \/ complete_from_first (map (option_map (portfolio p c)) (firstn (t + 1) vs)) ->
  entries p p M (fun i j => Fin (C i j)) -> nth_error ws t = Some (Fin (quad p c C)).
Proof.
  intros Hc Hi Hp Hr Hv t M C HM Hcmp HC.
  set (us := map (option_map (fun v : nat -> R => (v, v))) vs).
  assert (Er : map (fun o => (row_of p o, row_of p o)) vs = map (pair_row p p) us).
  { unfold us. rewrite map_map. apply map_ext. intros [v|]; reflexivity. }
  rewrite Er in Hr.
  set (h := fun v : (nat -> R) * (nat -> R) => (affine p (fun _ => c) (fun _ => 0) (fst v), affine p (fun _ => c) (fun _ => 0) (snd v))).
  set (xs := map (fun o => [option_map (portfolio p c) o]) vs).
  assert (Ex : map (pair_row 1 1) (map (option_map h) us) = map (fun x => (map of_option x, map of_option x)) xs).
  { unfold us, xs. rewrite !map_map. apply map_ext. intros [v|]; [|reflexivity].
    assert (Ev : affine p (fun _ => c) (fun _ => 0) v 0%nat = portfolio p c v) by (unfold affine, portfolio; ring).
    change (([Fin (affine p (fun _ => c) (fun _ => 0) v 0%nat)], [Fin (affine p (fun _ => c) (fun _ => 0) v 0%nat)]) = ([Fin (portfolio p c v)], [Fin (portfolio p c v)])).
    rewrite Ev. reflexivity. }
  destruct vs as [|v0 vr]; [discriminate|].
  assert (T : exists Ms' sF', run (EWMCov fm cfg false) (map (fun x => (map of_option x, map of_option x)) xs) = Some (Ms', sF')).
  { unfold xs. cbn [map]. apply run_total. }
  destruct T as (Ms' & sF' & Hr').
  assert (Hl : length Ms' = length Ms).
  { assert (L1 : Forall (shaped p p) (map (pair_row p p) us)).
    { apply Forall_forall. intros v Hv'. apply in_map_iff in Hv' as (o & <- & _). split; apply length_row_of. }
    assert (L2 : Forall (shaped 1 1) (map (fun x => (map of_option x, map of_option x)) xs)).
    { rewrite <- Ex. apply Forall_forall. intros v Hv'. apply in_map_iff in Hv' as (o & <- & _). split; apply length_row_of. }
    destruct (cov_run fm cfg p p _ Ms sF L1 Hr) as [L _]. destruct (cov_run fm cfg 1 1 _ Ms' sF' L2 Hr') as [L' _].
    rewrite L, L'. unfold us, xs. rewrite !map_length. reflexivity. }
  destruct (nth_error Ms' t) as [M'|] eqn:HM'.
  2:{ apply nth_error_None in HM'. apply nth_lt in HM. lia. }
  assert (D : nth2 M' 0 0 = Some (Fin (quad p c C))).
  { rewrite <- Ex in Hr'.
    destruct (ewmcov_affine fm cfg p p 1 1 _ _ _ _ us Ms sF Ms' sF' Hc Hi Hr Hr' t M M' HM HM') as [[N _]|(C' & H1 & H2)].
    - specialize (N 0%nat 0%nat Hp Hp). rewrite (HC 0%nat 0%nat Hp Hp) in N. discriminate.
    - rewrite (H2 0%nat 0%nat) by lia. do 2 f_equal. unfold quad. apply sum_n_ext. intros i Hip. apply sum_n_ext. intros j Hjp.
      specialize (H1 i j Hip Hjp). rewrite (HC i j Hip Hjp) in H1. injection H1 as ->. reflexivity. }
  assert (Hv' : run (EWMVar (com cfg) (adjust cfg)) (map (fun x => of_option (nth 0 x None)) xs) = Some (ws, sV)).
  { unfold xs. rewrite map_map. exact Hv. }
  assert (Es : map (fun x => nth 0 x None) (firstn (t + 1) xs) = map (option_map (portfolio p c)) (firstn (t + 1) (v0 :: vr))).
  { unfold xs. rewrite firstn_map, map_map. reflexivity. }
  assert (Hx : Forall (fun x => length x = 1%nat) xs).
  { unfold xs. apply Forall_forall. intros x H. apply in_map_iff in H as (o & <- & _). reflexivity. }
  destruct (ewmvar_ewmcov fm cfg 1 xs Ms' sF' 0 ws sV Hc Hi Hx ltac:(lia) Hr' Hv' t M' HM') as [P1 P2].
  { rewrite Es. exact Hcmp. }
  destruct (Classical_Prop.classic (valid_obs (map (fun x => nth 0 x None) (firstn (t + 1) xs)) <> [] /\
    (min_periods cfg <= Z.of_nat (length (valid_obs (map (fun x => nth 0 x None) (firstn (t + 1) xs)))))%Z)) as [Y|N].
  - rewrite <- (P1 Y). exact D.
  - rewrite (P2 N) in D. discriminate.
Qed.

Lemma ewmcov_pairwise : exists sF,
  run (EWMCov 1000 (EwmaCfg 1 0 AdjFalse false NaN) false) [([Fin 1; Fin 1], [Fin 1; Fin 1]); ([NaN; Fin 3], [NaN; Fin 3])] =
  Some ([ [[Fin 0; Fin 0]; [Fin 0; Fin 0]]; [[Fin 0; Fin (-1)]; [Fin (-1); Fin 1]] ], sF).
Proof.
  eexists. unfold EWMCov. rewrite run_eq. unfold stepf, ewmcov_step, ewma_mat, ewma_vec, ewma_step.
  fl_eval.
  match goal with |- Some (?a, ?b) = Some (?c, _) => replace a with c; [reflexivity|] end. fin_eq.
Qed.
