(** Histograms, the performance and correlation panels, the interactive pipeline graph. *)
From Coq Require Import Reals Lra Lia.
From Coq Require Import String Ascii List Bool Arith ZArith.
From Verif Require Import Model.FlaxOptim Model.Graph Model.Float Model.Viz Model.Panels.
From Verif Require Import Spec.StreamSpec Spec.VizSpec Spec.PanelSpec.
From Verif Require Proofs.EventNamesProofs Proofs.GraphProofs Spec.GraphSpec.
From Verif Require Import Proofs.StreamProofs Proofs.VizProofs Proofs.PanelProofs.
Import ListNotations.
Local Open Scope list_scope.

(** * histograms *)
Definition extreme_of (f : R -> R -> R) (le : R -> R -> Prop) : Prop :=
  forall a b, (f a b = a \/ f a b = b) /\ le (f a b) a /\ le (f a b) b.
Lemma fold_best (f : R -> R -> R) (le : R -> R -> Prop) : (forall a, le a a) -> (forall a b c, le a b -> le b c -> le a c) -> extreme_of f le ->
  forall l a, In (fold_left f l a) (a :: l) /\ forall v, In v (a :: l) -> le (fold_left f l a) v.
Proof.
  intros Rf Tr E. induction l as [|b l IH]; intros a.
  - cbn. split; [auto|]. intros v [<-|[]]. apply Rf.
  - cbn [fold_left]. destruct (E a b) as (C & La & Lb). destruct (IH (f a b)) as (I & L). split.
    + destruct I as [I|I]; [|right; right; exact I]. rewrite <- I. destruct C as [->| ->]; [left|right; left]; reflexivity.
    + intros v [<-|[<-|I']].
      * exact (Tr _ _ _ (L _ (or_introl eq_refl)) La).
      * exact (Tr _ _ _ (L _ (or_introl eq_refl)) Lb).
      * apply L. right. exact I'.
Qed.
Lemma rmin_best : extreme_of Rmin Rle.
Proof. intros a b. split; [|split; [apply Rmin_l|apply Rmin_r]]. unfold Rmin. destruct (Rle_dec a b); auto. Qed.
Lemma rmax_best : extreme_of Rmax (fun x y => (y <= x)%R).
Proof. intros a b. split; [|split; [apply Rmax_l|apply Rmax_r]]. unfold Rmax. destruct (Rle_dec a b); auto. Qed.

Lemma bin_spec n q i : (0 < n)%nat -> (i < n)%nat -> (0 <= q <= INR n)%R ->
  (Nat.min (Z.to_nat (Int_part q)) (n - 1) = i <-> (INR i <= q)%R /\ ((q < INR (i + 1))%R \/ ((i + 1)%nat = n /\ q = INR n))).
Proof.
  intros N I (Q0 & Qn).
  destruct (base_Int_part q) as (B1 & B2).
  assert (Z0 : (0 <= Int_part q)%Z).
  { apply Z.lt_succ_r. apply lt_IZR. rewrite succ_IZR. lra. }
  remember (Int_part q) as z. clear Heqz.
  assert (Hz : IZR z = INR (Z.to_nat z)) by (rewrite INR_IZR_INZ, Z2Nat.id; auto).
  remember (Z.to_nat z) as k. rewrite Hz in *. clear Heqk Hz Z0 z.
  assert (K : (k <= n)%nat). { apply INR_le. lra. }
  split.
  - intros E. destruct (Nat.eq_dec k n) as [->|Nk].
    + replace (Nat.min n (n - 1)) with (n - 1) in E by lia. subst i. split.
      * rewrite minus_INR by lia. cbn. lra.
      * right. split; [lia|]. lra.
    + replace (Nat.min k (n - 1)) with k in E by lia. subst k. split; [exact B1|]. left. rewrite plus_INR. cbn. lra.
  - intros (L & [U|(E & Eq)]).
    + assert (k = i); [|subst; lia]. assert (k < i + 1)%nat by (apply INR_lt; lra).
      assert (i < k + 1)%nat by (apply INR_lt; rewrite plus_INR; cbn; lra). lia.
    + assert (n < k + 1)%nat by (apply INR_lt; rewrite plus_INR; cbn; lra). lia.
Qed.

Lemma range_spec vs : match hist_range vs with
  | None => vs = []
  | Some (lo, hi) => (lo < hi)%R /\ (forall v, In v vs -> lo <= v <= hi)%R /\
                     ((exists a b, In a vs /\ In b vs /\ a <> b) -> In lo vs /\ In hi vs) /\
                     (forall c, (forall v, In v vs -> v = c) -> lo = c - / 2 /\ hi = c + / 2)%R
  end.
Proof.
  destruct vs as [|v r]; [reflexivity|]. unfold hist_range.
  destruct (fold_best Rmin Rle Rle_refl Rle_trans rmin_best r v) as (I1 & L1).
  destruct (fold_best Rmax (fun x y => (y <= x)%R) Rle_refl (fun a b c h1 h2 => Rle_trans c b a h2 h1) rmax_best r v) as (I2 & L2).
  set (lo := fold_left Rmin r v) in *. set (hi := fold_left Rmax r v) in *. clearbody lo hi.
  destruct (Req_EM_T lo hi) as [E|E].
  - split; [lra|]. split; [|split].
    + intros x I. specialize (L1 x I). specialize (L2 x I). lra.
    + intros (a & b & Ia & Ib & D). exfalso. pose proof (L1 a Ia). pose proof (L2 a Ia). pose proof (L1 b Ib). pose proof (L2 b Ib). lra.
    + intros c H. pose proof (H lo I1). split; lra.
  - split; [pose proof (L1 hi I2); lra|]. split; [|split].
    + intros x I. split; [exact (L1 x I)|exact (L2 x I)].
    + auto.
    + intros c H. exfalso. apply E. rewrite (H lo I1), (H hi I2). reflexivity.
Qed.

Lemma cell_bin n lo hi v i : (0 < n)%nat -> (i < n)%nat -> (lo < hi)%R -> (lo <= v <= hi)%R ->
  Nat.eqb (bin_of n lo hi v) i =
  in_cell (Nat.eqb (i + 1) n) (lo + INR i * ((hi - lo) / INR n)) (lo + INR (i + 1) * ((hi - lo) / INR n)) v.
Proof.
  intros N I L V. unfold bin_of.
  assert (Np : (0 < INR n)%R) by (apply lt_0_INR; exact N).
  set (q := ((v - lo) * INR n / (hi - lo))%R). set (w := ((hi - lo) / INR n)%R).
  assert (W : (0 < w)%R) by (unfold w; apply Rdiv_lt_0_compat; lra).
  assert (Vq : v = (lo + q * w)%R) by (unfold q, w; field; lra).
  assert (Hn : hi = (lo + INR n * w)%R) by (unfold w; field; lra).
  assert (Q : (0 <= q <= INR n)%R).
  { split; apply Rmult_le_reg_r with w; auto; lra. }
  clearbody q w. clear L.
  pose proof (bin_spec n q i N I Q) as B.
  apply Bool.eq_iff_eq_true. rewrite Nat.eqb_eq, B. clear B. unfold in_cell. subst v hi.
  assert (Le : forall a b : R, (lo + a * w <= lo + b * w <-> a <= b)%R).
  { intros a b. split; intros H.
    - apply Rmult_le_reg_r with w; auto. lra.
    - apply Rplus_le_compat_l. apply Rmult_le_compat_r; lra. }
  assert (Lt : forall a b : R, (lo + a * w < lo + b * w <-> a < b)%R).
  { intros a b. split; intros H.
    - apply Rmult_lt_reg_r with w; auto. lra.
    - apply Rplus_lt_compat_l. apply Rmult_lt_compat_r; lra. }
  destruct (Rle_dec (lo + INR i * w) (lo + q * w)) as [A|A]; rewrite Le in A.
  2:{ split; [intros (X & _); lra|discriminate]. }
  destruct (Rlt_dec (lo + q * w) (lo + INR (i + 1) * w)) as [C|C]; rewrite Lt in C.
  { split; auto. }
  destruct (Nat.eqb_spec (i + 1) n) as [E|E].
  - destruct (Req_EM_T (lo + q * w) (lo + INR (i + 1) * w)) as [D|D].
    + split; [reflexivity|]. intros _. split; [exact A|]. right. split; [exact E|]. rewrite E in D, C.
      assert (H : (lo + q * w <= lo + INR n * w)%R) by lra. assert (H' : (lo + INR n * w <= lo + q * w)%R) by lra.
      apply Le in H. apply Le in H'. lra.
    + split; [|discriminate]. intros (_ & [X|(_ & X)]); [lra|]. exfalso. apply D. rewrite E, X. reflexivity.
  - split; [|discriminate]. intros (_ & [X|(X & _)]); [lra|contradiction].
Qed.

Lemma count_all {A} (f : A -> nat) n (l : list A) : (forall x, In x l -> f x < n) ->
  list_sum (map (fun i => length (filter (fun x => Nat.eqb (f x) i) l)) (seq 0 n)) = length l.
Proof.
  induction l as [|x l IH]; intros H.
  - clear. assert (Z : forall s, list_sum (map (fun i => length (filter (fun x : A => Nat.eqb (f x) i) [])) (seq s n)) = 0); [|exact (Z 0)].
    induction n as [|n IHn]; intros s; [reflexivity|]. exact (IHn (S s)).
  - cbn [length]. rewrite <- IH by (intros y I; apply H; right; exact I). clear IH.
    assert (L : f x < n) by (apply H; left; reflexivity). clear H.
    assert (G : forall s m, list_sum (map (fun i => length (filter (fun y => Nat.eqb (f y) i) (x :: l))) (seq s m)) =
      (if (s <=? f x) && (f x <? s + m) then 1 else 0) + list_sum (map (fun i => length (filter (fun y => Nat.eqb (f y) i) l)) (seq s m))).
    { intros s m. revert s. induction m as [|m IHm]; intros s.
      - destruct (Nat.leb_spec s (f x)), (Nat.ltb_spec (f x) (s + 0)); cbn [andb]; try reflexivity; exfalso; lia.
      - cbn [seq map list_sum fold_right]. fold (list_sum (map (fun i => length (filter (fun y => Nat.eqb (f y) i) (x :: l))) (seq (S s) m))).
        fold (list_sum (map (fun i => length (filter (fun y => Nat.eqb (f y) i) l)) (seq (S s) m))).
        rewrite IHm. cbn [filter].
        destruct (Nat.eqb_spec (f x) s), (Nat.leb_spec s (f x)), (Nat.ltb_spec (f x) (s + S m)), (Nat.leb_spec (S s) (f x)), (Nat.ltb_spec (f x) (S s + m)); cbn [length andb]; lia. }
    rewrite G. cbn [Nat.leb Nat.add]. apply Nat.ltb_lt in L. rewrite L. reflexivity.
Qed.

Lemma histogram_none n vs : np_histogram n vs = None <-> vs = [].
Proof.
  unfold np_histogram. destruct vs as [|v r]; [cbn; tauto|].
  split; [|discriminate]. destruct (hist_range (v :: r)) as [[lo hi]|] eqn:E; [discriminate|]. cbn in E. discriminate E.
Qed.
Lemma nth_map_seq {A} (f : nat -> A) n i d : i < n -> nth i (map f (seq 0 n)) d = f i.
Proof.
  intros H. apply nth_error_nth. rewrite nth_error_map, (nth_error_nth' _ 0) by (rewrite seq_length; exact H).
  rewrite seq_nth by exact H. reflexivity.
Qed.
Lemma histogram_spec n vs counts edges : 0 < n -> np_histogram n vs = Some (counts, edges) ->
  regular_cells n edges vs /\ length counts = n /\ list_sum counts = length vs /\
  forall i, i < n -> nth i counts 0 = length (filter (in_cell (Nat.eqb (i + 1) n) (nth i edges 0%R) (nth (i + 1) edges 0%R)) vs).
Proof.
  intros N. unfold np_histogram. pose proof (range_spec vs) as RS.
  destruct (hist_range vs) as [[lo hi]|]; [|discriminate]. destruct RS as (L & V & Two & Same).
  intros H. injection H as <- <-.
  assert (Np : (0 < INR n)%R) by (apply lt_0_INR; exact N).
  assert (E : forall i, i <= n -> nth i (map (fun i : nat => (lo + INR i * ((hi - lo) / INR n))%R) (seq 0 (n + 1))) 0%R = (lo + INR i * ((hi - lo) / INR n))%R).
  { intros i Hi. rewrite (nth_map_seq (fun i : nat => (lo + INR i * ((hi - lo) / INR n))%R)) by lia. reflexivity. }
  assert (E0 : (lo + INR 0 * ((hi - lo) / INR n))%R = lo) by (cbn; lra).
  assert (En : (lo + INR n * ((hi - lo) / INR n))%R = hi) by (field; lra).
  split; [|split; [|split]].
  - unfold regular_cells. rewrite !(E 0), !(E n), E0, En by lia. split; [rewrite map_length; apply seq_length|].
    split; [exact L|]. split; [exact E|]. split; [exact V|]. split; [exact Two|exact Same].
  - rewrite map_length. apply seq_length.
  - apply count_all. intros v _. unfold bin_of. lia.
  - intros i I. rewrite (nth_map_seq (fun i => length (filter (fun v => Nat.eqb (bin_of n lo hi v) i) vs))) by exact I. rewrite !E by lia. f_equal. apply filter_ext_in. intros v Iv. apply cell_bin; auto.
Qed.

Lemma values_flat l : flat_map (fun p => match number_of p with Some x => [x] | None => [] end) l = map snd (numbers l).
Proof.
  induction l as [|p l IH]; [reflexivity|]. cbn [flat_map numbers]. rewrite IH. unfold number_of. destruct (pt_value p); reflexivity.
Qed.
Lemma quads_nth (counts : list nat) (edges : list R) i : length edges = length counts + 1 -> i < length counts ->
  nth_error (combine counts (combine (removelast edges) (tl edges))) i = Some (nth i counts 0, (nth i edges 0%R, nth (i + 1) edges 0%R)).
Proof.
  intros L I. apply nth_error_combine; [apply nth_error_nth'; exact I|]. apply nth_error_combine.
  - assert (Hne : edges <> []) by (intros ->; cbn in L; lia).
    rewrite (app_removelast_last 0%R Hne) at 2. 
    assert (LR : length (removelast edges) = length counts).
    { pose proof (f_equal (@length R) (app_removelast_last 0%R Hne)) as X. rewrite app_length in X. cbn in X. lia. }
    rewrite app_nth1 by lia. apply nth_error_nth'. lia.
  - destruct edges as [|e edges]; [cbn in L; lia|]. cbn [tl]. rewrite Nat.add_1_r. cbn [nth]. apply nth_error_nth'. cbn in L. lia.
Qed.
Lemma distribution_spec max i o s start ops : no_clear ops ->
  let values := map snd (numbers (lastn (Nat.min 500 max) (recorded start 0 ops))) in
  let quads := distribution (tracker_run (new_tracker max i o s start) ops) in
  (values = [] -> quads = []) /\
  (values <> [] -> exists edges, regular_cells 30 edges values /\ length quads = 30 /\ list_sum (map fst quads) = length values /\
     forall j, j < 30 -> nth_error quads j = Some (length (filter (in_cell (Nat.eqb j 29) (nth j edges 0%R) (nth (j + 1) edges 0%R)) values),
                                                  (nth j edges 0%R, nth (j + 1) edges 0%R))).
Proof.
  intros NC values quads. unfold quads, distribution. rewrite (recent_spec max i o s start ops 500 NC) by lia.
  change (Z.to_nat 500) with 500. rewrite values_flat. fold values. clearbody values. clear quads NC. split.
  - intros ->. reflexivity.
  - intros NE. destruct (np_histogram 30 values) as [[counts edges]|] eqn:E; [|apply histogram_none in E; contradiction].
    destruct (histogram_spec 30 values counts edges) as (RC & LC & SC & C); [lia|exact E|]. exists edges. split; [exact RC|].
    assert (LE : length edges = length counts + 1) by (rewrite LC; exact (proj1 RC)).
    assert (Q : forall j, j < 30 -> nth_error (combine counts (combine (removelast edges) (tl edges))) j = Some (nth j counts 0, (nth j edges 0%R, nth (j + 1) edges 0%R)))
      by (intros j J; apply quads_nth; [exact LE|lia]).
    assert (LQ : length (combine counts (combine (removelast edges) (tl edges))) = 30).
    { assert (Hne : edges <> []) by (intros ->; cbn in LE; lia).
      pose proof (f_equal (@length R) (app_removelast_last 0%R Hne)) as X. rewrite app_length in X. cbn in X.
      rewrite !combine_length. destruct edges as [|e edges]; [contradiction|]. cbn [tl length] in *. lia. }
    split; [exact LQ|]. split.
    + rewrite <- SC. f_equal. apply nth_ext with (d := 0) (d' := 0); [rewrite map_length, LQ, LC; reflexivity|].
      intros j J. rewrite map_length, LQ in J. apply nth_error_nth. rewrite nth_error_map, (Q j J). reflexivity.
    + intros j J. rewrite (Q j J), (C j J). do 4 f_equal. destruct (Nat.eqb_spec (j + 1) 30), (Nat.eqb_spec j 29); try reflexivity; lia.
Qed.

(** * performance *)
Lemma skipn_seq n : forall s k, skipn k (seq s n) = seq (s + k) (n - k).
Proof.
  induction n as [|n IH]; intros s [|k]; cbn; try reflexivity.
  - rewrite Nat.add_0_r. reflexivity.
  - rewrite IH. f_equal. lia.
Qed.
Lemma steps_count max i o s start ops : no_clear ops -> tk_steps (tracker_run (new_tracker max i o s start) ops) = steps_made ops.
Proof.
  intros NC. exact (proj2 (history_spec max i o s start ops NC)).
Qed.
Lemma performance_spec max i o s start ops noise : no_clear ops ->
  performance noise (tracker_run (new_tracker max i o s start) ops) =
  map (fun '(i, s) => (s, (1 + noise i)%R)) (combine (seq 0 51) (lastn 51 (seq 1 (steps_made ops)))).
Proof.
  intros NC. unfold performance. rewrite (steps_count max i o s start ops NC). set (n := steps_made ops). clearbody n. clear.
  unfold lastn. rewrite seq_length, skipn_seq. set (f := Nat.max 1 (n - 50)).
  replace (1 + (n - 51)) with f by (unfold f; lia). replace (n - (n - 51)) with (n + 1 - f) by (unfold f; lia).
  assert (M : n + 1 - f <= 51) by (unfold f; lia). set (m := n + 1 - f) in *. clearbody m. clearbody f. clear n.
  revert M. generalize 51 as b. intros b M.
  assert (G : forall k m b, m <= b -> map (fun s => (s, (noise (s - f)%nat + 1)%R)) (seq (f + k) m) =
     map (fun '(i, s) => (s, (1 + noise i)%R)) (combine (seq k b) (seq (f + k) m))).
  { intros k m0. revert k. induction m0 as [|m0 IH]; intros k [|b0] L; try lia; [reflexivity|reflexivity|].
    cbn [seq map combine]. replace (f + k - f) with k by lia. rewrite (Rplus_comm (noise k) 1). f_equal.
    replace (S (f + k)) with (f + S k) by lia. apply IH. lia. }
  specialize (G 0 m b M). rewrite Nat.add_0_r in G. exact G.
Qed.

(** * correlation *)
Lemma correlation_spec rand k : (forall i j, (0 <= rand i j < 1)%R) ->
  forall i j, correlation rand k i i = 1%R /\ correlation rand k i j = correlation rand k j i /\ (0 <= correlation rand k i j <= 1)%R /\
              (i <> j -> (correlation rand k i j < 1)%R).
Proof.
  intros H i j. unfold correlation. rewrite Nat.eqb_refl, (Nat.eqb_sym j i). pose proof (H i j). pose proof (H j i).
  split; [reflexivity|]. destruct (Nat.eqb_spec i j) as [->|N]; (split; [try reflexivity; lra|split; [lra|]]); intros; [contradiction|lra].
Qed.

(** * the pipeline graph *)
Lemma successors_snoc es e id : successors (es ++ [e]) id =
  if String.eqb (e_source e) id
  then (if existsb (String.eqb (e_target e)) (successors es id) then successors es id else successors es id ++ [e_target e])
  else successors es id.
Proof. unfold successors. rewrite fold_left_app. reflexivity. Qed.
Lemma successors_spec es id : NoDup (successors es id) /\
  forall t, In t (successors es id) <-> exists e, In e es /\ e_source e = id /\ e_target e = t.
Proof.
  induction es as [|e es (ND & IH)] using rev_ind.
  - split; [apply NoDup_nil|]. intros t. cbn. split; [intros []|intros (e & [] & _)].
  - rewrite successors_snoc. 
    assert (Split : forall t, (exists e0, In e0 (es ++ [e]) /\ e_source e0 = id /\ e_target e0 = t) <->
                              (In t (successors es id) \/ (e_source e = id /\ e_target e = t))).
    { intros t. rewrite IH. split.
      - intros (e0 & I & E). apply in_app_or in I as [I|[->|[]]]; [left; exists e0; auto|right; exact E].
      - intros [(e0 & I & E)|E]; [exists e0|exists e]; (split; [apply in_or_app; cbn; auto|exact E]). }
    destruct (String.eqb_spec (e_source e) id) as [S|S].
    + destruct (existsb (String.eqb (e_target e)) (successors es id)) eqn:X.
      * split; [exact ND|]. intros t. rewrite Split. split; [auto|]. intros [I|(_ & <-)]; [exact I|].
        apply existsb_exists in X as (y & I & E). apply String.eqb_eq in E. rewrite E. exact I.
      * split.
        { apply NoDup_rev in ND. rewrite <- (rev_involutive (successors es id ++ [e_target e])). apply NoDup_rev. rewrite rev_app_distr. cbn.
          constructor; [|exact ND]. rewrite <- in_rev. intros I. apply Bool.not_true_iff_false in X. apply X. apply existsb_exists.
          exists (e_target e). split; [exact I|apply String.eqb_refl]. }
        intros t. rewrite Split, in_app_iff. cbn. split; [intros [I|[I|[]]]; auto|intros [I|(_ & I)]; auto].
    + split; [exact ND|]. intros t. rewrite Split. split; [auto|]. intros [I|(C & _)]; [exact I|contradiction].
Qed.
Lemma mem_in {A} k (d : list (string * A)) : mem_key k d = true <-> In k (map fst d).
Proof.
  unfold mem_key. destruct (sget k d) eqn:E.
  - split; [|reflexivity]. intros _. destruct (in_dec string_dec k (map fst d)) as [I|N]; [exact I|].
    apply FlaxOptimProofs.sget_none in N. congruence.
  - split; [discriminate|]. intros I. apply FlaxOptimProofs.sget_none in E. contradiction.
Qed.
Lemma figure_defined pos g : pipeline_figure pos g = None <->
  exists a b, linked g a b /\ ~ (In a (map fst (g_nodes g)) /\ In b (map fst (g_nodes g))).
Proof.
  unfold pipeline_figure. destruct (forallb _ (g_edges g)) eqn:E.
  - split; [discriminate|]. intros (a & b & (e & I & <- & <-) & N). exfalso. apply N. rewrite forallb_forall in E. specialize (E e I).
    apply Bool.andb_true_iff in E as (E1 & E2). split; apply mem_in; assumption.
  - split; [intros _|reflexivity]. apply Bool.not_true_iff_false in E.
    destruct (existsb (fun e => negb (mem_key (e_source e) (g_nodes g) && mem_key (e_target e) (g_nodes g))) (g_edges g)) eqn:X.
    + apply existsb_exists in X as (e & I & X). exists (e_source e), (e_target e). split; [exists e; auto|].
      rewrite <- !mem_in. intros (M1 & M2). rewrite M1, M2 in X. discriminate X.
    + exfalso. apply E. apply forallb_forall. intros e I. destruct (mem_key (e_source e) (g_nodes g) && mem_key (e_target e) (g_nodes g)) eqn:M; [reflexivity|].
      apply Bool.not_true_iff_false in X. exfalso. apply X. apply existsb_exists. exists e. rewrite M. auto.
Qed.
Lemma figure_nodes pos g f : pipeline_figure pos g = Some f -> forall i nm p c, nth_error (fg_nodes f) i = Some (nm, p, c) <->
  exists id n, nth_error (g_nodes g) i = Some (id, n) /\ nm = n_name n /\ p = pos id /\
               exists ts, NoDup ts /\ (forall t, In t ts <-> linked g id t) /\ c = length ts.
Proof.
  unfold pipeline_figure. destruct (forallb _ _); [|discriminate]. intros H. injection H as <-. intros i nm p c. cbn [fg_nodes].
  rewrite nth_error_map. split.
  - destruct (nth_error (g_nodes g) i) as [[id n]|]; [|discriminate]. cbn. intros H. injection H as <- <- <-. exists id, n.
    split; [reflexivity|]. split; [reflexivity|]. split; [reflexivity|]. exists (successors (g_edges g) id).
    destruct (successors_spec (g_edges g) id) as (ND & S). split; [exact ND|]. split; [exact S|reflexivity].
  - intros (id & n & -> & -> & -> & ts & ND & T & ->). cbn. do 2 f_equal.
    destruct (successors_spec (g_edges g) id) as (ND' & S). apply Nat.le_antisymm; apply NoDup_incl_length; auto; intros t I.
    + apply T. apply S. exact I.
    + apply S. apply T. exact I.
Qed.
Lemma figure_lines pos g f : NoDup (map fst (g_nodes g)) -> pipeline_figure pos g = Some f ->
  exists pairs, NoDup pairs /\ (forall a b, In (a, b) pairs <-> linked g a b) /\
    fg_lines f = flat_map (fun '(a, b) => [Some (pos a); Some (pos b); None]) pairs.
Proof.
  intros NN. unfold pipeline_figure. destruct (forallb _ _) eqn:F; [|discriminate]. intros H. injection H as <-. cbn [fg_lines].
  exists (flat_map (fun kv => map (fun t => (fst kv, t)) (successors (g_edges g) (fst kv))) (g_nodes g)). split; [|split].
  - clear F. induction (g_nodes g) as [|[id n] l IH]; [apply NoDup_nil|]. cbn [flat_map fst map] in *.
    apply NoDup_cons_iff in NN as (NI & NN). apply EventNamesProofs.NoDup_app'.
    + apply FinFun.Injective_map_NoDup; [intros x y E; congruence|]. exact (proj1 (successors_spec (g_edges g) id)).
    + exact (IH NN).
    + intros (a, b) I1 I2. apply in_map_iff in I1 as (t & E & _). injection E as <- <-. apply NI.
      apply in_flat_map in I2 as ((id', n') & I & I2). apply in_map_iff in I2 as (t' & E & _). cbn in E. injection E as E _. rewrite <- E.
      exact (in_map fst _ _ I).
  - intros a b. rewrite in_flat_map. split.
    + intros ((id & n) & I & J). apply in_map_iff in J as (t & E & J). injection E as <- <-.
      apply (proj2 (successors_spec (g_edges g) id)). exact J.
    + intros L. assert (I : In a (map fst (g_nodes g))).
      { destruct L as (e & I & <- & <-). rewrite forallb_forall in F. specialize (F e I). apply Bool.andb_true_iff in F as (F & _).
        apply mem_in. exact F. }
      apply in_map_iff in I as ((id & n) & E & I). cbn in E. subst id. exists (a, n). split; [exact I|]. cbn. apply in_map.
      apply (proj2 (successors_spec (g_edges g) a)). exact L.
  - clear. induction (g_nodes g) as [|[id n] l IH]; [reflexivity|]. cbn [flat_map fst]. rewrite flat_map_app, IH. f_equal.
    induction (successors (g_edges g) id) as [|t ts IHt]; [reflexivity|]. cbn. do 3 f_equal. exact IHt.
Qed.

Lemma unlinked_figure pos g : g_edges g = [] -> pipeline_figure pos g =
  Some (Figure (map (fun kv => (n_name (snd kv), pos (fst kv), 0)) (g_nodes g)) []).
Proof.
  intros E. unfold pipeline_figure. rewrite E. cbn [forallb]. do 2 f_equal.
  induction (g_nodes g) as [|kv l IH]; [reflexivity|]. exact IH.
Qed.
Lemma graph_unlinked pos name ps : GraphSpec.well_named (PSub ps) ->
  create_pipeline_graph pos (Transformed name ps) =
  Some (Figure (map (fun kv => (n_name (snd kv), pos (fst kv), 0)) (g_nodes (analyze (Transformed name ps) empty_graph))) []).
Proof. intros W. apply unlinked_figure. apply GraphProofs.graph_no_edges. exact W. Qed.

(** a chain *)
Lemma chain_linked ids ns : forall a b, linked (Graph ns (map (fun '(a, b) => Edge a b "") (combine ids (tl ids)))) a b <->
  exists i, nth_error ids i = Some a /\ nth_error ids (i + 1) = Some b.
Proof.
  intros a b. unfold linked. cbn [g_edges]. split.
  - intros (e & I & <- & <-). apply in_map_iff in I as ((x & y) & <- & I). cbn. apply In_nth_error in I as (i & I). exists i.
    revert i I. induction ids as [|z ids IH]; intros i I; [destruct i; discriminate I|].
    destruct ids as [|z' ids]; [destruct i; discriminate I|].
    destruct i as [|i]; [cbn in *; injection I as <- <-; auto|]. cbn [tl combine nth_error] in I. exact (IH i I).
  - intros (i & A & B). exists (Edge a b ""). split; [|auto]. apply in_map_iff. exists (a, b). split; [reflexivity|].
    apply nth_error_In with i. apply nth_error_combine; [exact A|]. destruct ids as [|z ids]; [destruct i; discriminate A|].
    rewrite Nat.add_1_r in B. exact B.
Qed.
Lemma chain_colors pos ids n f : NoDup ids ->
  pipeline_figure pos (Graph (map (fun id => (id, n)) ids) (map (fun '(a, b) => Edge a b "") (combine ids (tl ids)))) = Some f ->
  forall i nm p c, nth_error (fg_nodes f) i = Some (nm, p, c) -> c = (if Nat.ltb (i + 1) (length ids) then 1 else 0).
Proof.
  intros ND F i nm p c H. apply (figure_nodes _ _ _ F) in H as (id & n' & H & _ & _ & ts & NT & T & ->). cbn [g_nodes] in H.
  rewrite nth_error_map in H. destruct (nth_error ids i) as [x|] eqn:E; [|discriminate H]. cbn in H. injection H as -> _.
  assert (U : forall t, In t ts <-> nth_error ids (i + 1) = Some t).
  { intros t. rewrite T, chain_linked. split; [|intros B; exists i; auto]. intros (j & A & B).
    assert (j = i); [|subst; exact B]. apply (proj1 (NoDup_nth_error ids) ND); [apply nth_error_Some; congruence|congruence]. }
  destruct (Nat.ltb_spec (i + 1) (length ids)) as [L|L].
  - destruct (nth_error ids (i + 1)) as [y|] eqn:Y; [|apply nth_error_None in Y; lia].
    destruct ts as [|t [|t' ts]].
    + exfalso. apply (proj2 (U y) eq_refl).
    + reflexivity.
    + exfalso. pose proof (proj1 (U t) (or_introl eq_refl)) as A. pose proof (proj1 (U t') (or_intror (or_introl eq_refl))) as B.
      apply NoDup_cons_iff in NT as (NI & _). apply NI. left. congruence.
  - destruct ts as [|t ts]; [reflexivity|]. exfalso. pose proof (proj1 (U t) (or_introl eq_refl)) as A.
    apply nth_error_None in L. congruence.
Qed.
Lemma chain_defined pos ids n : pipeline_figure pos (Graph (map (fun id => (id, n)) ids) (map (fun '(a, b) => Edge a b "") (combine ids (tl ids)))) <> None.
Proof.
  intros E. apply figure_defined in E as (a & b & L & N). apply N. apply chain_linked in L as (i & A & B).
  cbn [g_nodes]. rewrite map_map. cbn [fst]. rewrite map_id. split; eapply nth_error_In; eassumption.
Qed.
