(** Proofs about the panels of the dashboards. *)
From Coq Require Import Reals Lra Lia.
From Coq Require Import Decimal DecimalString DecimalNat.
From Coq Require Import String Ascii List Bool Arith ZArith.
From Verif Require Import Model.FlaxOptim Model.Graph Model.Float Model.Viz Model.Panels.
From Verif Require Import Spec.StreamSpec Spec.VizSpec Spec.PanelSpec Spec.DynSpec.
From Verif Require Import Proofs.FlaxOptimProofs Proofs.FloatFacts Proofs.StreamProofs Proofs.VizProofs.
Import ListNotations.
Local Open Scope list_scope.

(** * names of numbers *)
Lemma str_of_nat_inj a b : str_of_nat a = str_of_nat b -> a = b.
Proof.
  unfold str_of_nat. intros H. apply (f_equal NilZero.uint_of_string) in H.
  rewrite !NilZero.usu in H.
  - injection H as H. apply DecimalNat.Unsigned.to_uint_inj. exact H.
  - intros E. pose proof (DecimalNat.Unsigned.of_to b) as O. rewrite E in O. cbn in O. subst b. discriminate E.
  - intros E. pose proof (DecimalNat.Unsigned.of_to a) as O. rewrite E in O. cbn in O. subst a. discriminate E.
Qed.
Lemma plot_inj a b : String.append "plot_" (str_of_nat a) = String.append "plot_" (str_of_nat b) -> a = b.
Proof. cbn [String.append]. intros H. injection H as H. exact (str_of_nat_inj _ _ H). Qed.
Lemma registry {A} (ps : list A) : fold_left register_plot ps [] =
  combine (map (fun i => String.append "plot_" (str_of_nat i)) (seq 0 (length ps))) ps.
Proof.
  induction ps as [|p ps IH] using rev_ind; [reflexivity|].
  rewrite fold_left_app. cbn [fold_left]. rewrite IH. unfold register_plot.
  rewrite combine_length, map_length, seq_length, Nat.min_id.
  rewrite sset_fresh.
  - rewrite app_length. cbn [length]. rewrite Nat.add_1_r, seq_S, map_app. cbn [map].
    assert (L : length (map (fun i => String.append "plot_" (str_of_nat i)) (seq 0 (length ps))) = length ps) by (rewrite map_length; apply seq_length).
    revert L. generalize (map (fun i => String.append "plot_" (str_of_nat i)) (seq 0 (length ps))) as ks.
    clear IH. cbn [Nat.add]. generalize (String.append "plot_" (str_of_nat (length ps))) as k. induction ps as [|q ps IH]; intros k [|x ks] L; try discriminate L; [reflexivity|].
    cbn in *. f_equal. apply IH. lia.
  - intros I. apply in_map_iff in I as ((k, x) & E & I). cbn in E. subst k. apply in_combine_l in I. apply in_map_iff in I as (i & E & I).
    pose proof (plot_inj _ _ E). subst i. apply in_seq in I. lia.
Qed.
Lemma registry_nth {A} (ps : list A) i : nth_error (fold_left register_plot ps []) i =
  option_map (pair (String.append "plot_" (str_of_nat i))) (nth_error ps i).
Proof.
  rewrite registry. destruct (nth_error ps i) as [p|] eqn:E.
  - assert (L : i < length ps) by (apply nth_error_Some; congruence).
    apply nth_error_combine; [|exact E]. rewrite nth_error_map.
    rewrite (nth_error_nth' _ 0) by (rewrite seq_length; exact L). rewrite seq_nth by exact L. reflexivity.
  - apply nth_error_None. rewrite combine_length, map_length, seq_length, Nat.min_id. apply nth_error_None. exact E.
Qed.

(** * heatmaps *)
Lemma concat_nth {A} w (rows : list (list A)) i j row : (forall r, In r rows -> length r = w) -> j < w ->
  nth_error rows i = Some row -> nth_error (concat rows) (i * w + j) = nth_error row j.
Proof.
  revert i. induction rows as [|r rows IH]; intros i W J N; [destruct i; discriminate N|].
  assert (Lr : length r = w) by (apply W; left; reflexivity).
  destruct i as [|i]; cbn [nth_error concat] in *.
  - injection N as <-. rewrite nth_error_app1 by (rewrite Lr; lia). f_equal.
  - rewrite nth_error_app2 by (rewrite Lr; lia). rewrite Lr.
    replace (S i * w + j - w) with (i * w + j) by lia. apply IH; auto. intros q I. apply W. right. exact I.
Qed.
Lemma heat_cells w rows i j row v : (forall r, In r rows -> length r = w) ->
  nth_error rows i = Some row -> nth_error row j = Some v ->
  let '(xs, ys, vs) := heatmap_columns w rows in
  nth_error xs (i * w + j) = Some j /\ nth_error ys (i * w + j) = Some i /\ nth_error vs (i * w + j) = Some v.
Proof.
  intros W Hi Hj. unfold heatmap_columns.
  assert (Li : i < length rows) by (apply nth_error_Some; congruence).
  assert (Lj : j < w) by (rewrite <- (W row) by (eapply nth_error_In; exact Hi); apply nth_error_Some; congruence).
  assert (Si : nth_error (seq 0 (length rows)) i = Some i)
    by (rewrite (nth_error_nth' _ 0) by (rewrite seq_length; exact Li); rewrite seq_nth by exact Li; reflexivity).
  split; [|split].
  - rewrite (concat_nth w _ i j (seq 0 w)); [|intros r I; apply in_map_iff in I as (? & <- & _); apply seq_length|exact Lj|].
    + rewrite (nth_error_nth' _ 0) by (rewrite seq_length; exact Lj). rewrite seq_nth by exact Lj. reflexivity.
    + rewrite nth_error_map, Si. reflexivity.
  - rewrite (concat_nth w _ i j (repeat i w)); [|intros r I; apply in_map_iff in I as (? & <- & _); apply repeat_length|exact Lj|].
    + rewrite (nth_error_nth' _ i) by (rewrite repeat_length; exact Lj). rewrite nth_repeat. reflexivity.
    + rewrite nth_error_map, Si. reflexivity.
  - rewrite (concat_nth w rows i j row W Lj Hi). exact Hj.
Qed.
Lemma concat_len {A} w (ls : list (list A)) : (forall r, In r ls -> length r = w) -> length (concat ls) = length ls * w.
Proof.
  induction ls as [|l ls IH]; intros H; [reflexivity|]. cbn. rewrite app_length, (H l) by (left; reflexivity).
  rewrite IH; [reflexivity|]. intros r I. apply H. right. exact I.
Qed.
Lemma heat_lengths w rows : (forall r, In r rows -> length r = w) ->
  let '(xs, ys, vs) := heatmap_columns w rows in
  length xs = length rows * w /\ length ys = length rows * w /\ length vs = length rows * w.
Proof.
  intros W. unfold heatmap_columns. split; [|split].
  - rewrite (concat_len w), map_length, seq_length; [reflexivity|]. intros r I. apply in_map_iff in I as (? & <- & _). apply seq_length.
  - rewrite (concat_len w), map_length, seq_length; [reflexivity|]. intros r I. apply in_map_iff in I as (? & <- & _). apply repeat_length.
  - apply concat_len. exact W.
Qed.

Lemma fle_refl v : v <> NaN -> fle v v = true.
Proof. destruct v; intros N; unfold fle; cbn; try reflexivity; [congruence|]. rewrite Req_b_refl. destruct (Rlt_b r r); reflexivity. Qed.
Lemma fle_trans a b c : fle a b = true -> fle b c = true -> fle a c = true.
Proof.
  destruct a as [| | |a], b as [| | |b], c as [| | |c]; unfold fle; cbn; try discriminate; auto.
  destruct (Rlt_b_spec a b), (Req_b_spec a b), (Rlt_b_spec b c), (Req_b_spec b c), (Rlt_b_spec a c), (Req_b_spec a c); cbn; auto; try discriminate; lra.
Qed.
Lemma fmax_cases x y : x <> NaN -> y <> NaN ->
  (fmax x y = x \/ fmax x y = y) /\ fle x (fmax x y) = true /\ fle y (fmax x y) = true.
Proof.
  intros Nx Ny. unfold fmax, fle. destruct x as [| | |x], y as [| | |y]; try congruence; cbn; rewrite ?Req_b_refl, ?Bool.orb_true_r; auto.
  destruct (Rlt_b_spec x y); cbn; (split; [auto|]).
  - rewrite Req_b_refl. destruct (Rlt_b_spec x y); [|lra]. cbn. rewrite Bool.orb_true_r. auto.
  - rewrite Req_b_refl, Bool.orb_true_r. split; [reflexivity|]. destruct (Rlt_b_spec y x); [reflexivity|]. destruct (Req_b_spec y x); [reflexivity|lra].
Qed.
Lemma fmin_cases x y : x <> NaN -> y <> NaN ->
  (fmin x y = x \/ fmin x y = y) /\ fle (fmin x y) x = true /\ fle (fmin x y) y = true.
Proof.
  intros Nx Ny. unfold fmin, fle. destruct x as [| | |x], y as [| | |y]; try congruence; cbn; rewrite ?Req_b_refl, ?Bool.orb_true_r; auto.
  destruct (Rlt_b_spec y x); cbn; (split; [auto|]).
  - rewrite Req_b_refl, Bool.orb_true_r. destruct (Rlt_b_spec y x); [|lra]. auto.
  - rewrite Req_b_refl, Bool.orb_true_r. split; [reflexivity|]. destruct (Rlt_b_spec x y); [reflexivity|]. destruct (Req_b_spec x y); [reflexivity|lra].
Qed.
Lemma fold_nan (f : fl -> fl -> fl) l : (forall y, f NaN y = NaN) -> fold_left f l NaN = NaN.
Proof. intros F. induction l as [|v l IH]; [reflexivity|]. cbn. rewrite F. exact IH. Qed.
Lemma fold_nan_in (f : fl -> fl -> fl) l : (forall y, f NaN y = NaN) -> (forall x, f x NaN = NaN) -> In NaN l -> forall a, fold_left f l a = NaN.
Proof.
  intros F G. induction l as [|v l IH]; intros I a; [destruct I|]. cbn. destruct I as [->|I].
  - rewrite G. apply fold_nan. exact F.
  - apply IH. exact I.
Qed.
Lemma fold_extreme (f : fl -> fl -> fl) (le : fl -> fl -> Prop) :
  (forall v, v <> NaN -> le v v) -> (forall a b c, le a b -> le b c -> le a c) ->
  (forall x y, x <> NaN -> y <> NaN -> (f x y = x \/ f x y = y) /\ le (f x y) x /\ le (f x y) y) ->
  forall l a, ~ In NaN (a :: l) -> In (fold_left f l a) (a :: l) /\ forall v, In v (a :: l) -> le (fold_left f l a) v.
Proof.
  intros Refl Tr C. induction l as [|b l IH]; intros a N.
  - cbn. split; [auto|]. intros v [<-|[]]. apply Refl. intros E. apply N. left. exact E.
  - cbn [fold_left]. assert (Na : a <> NaN) by (intros E; apply N; left; exact E).
    assert (Nb : b <> NaN) by (intros E; apply N; right; left; exact E).
    destruct (C a b Na Nb) as (E & La & Lb).
    destruct (IH (f a b)) as (I & L).
    { intros [F|F]; [|apply N; right; right; exact F]. destruct E; congruence. }
    split.
    + destruct I as [I|I]; [|right; right; exact I]. rewrite <- I. destruct E as [->| ->]; [left|right; left]; reflexivity.
    + intros v [<-|[<-|I']].
      * exact (Tr _ _ _ (L _ (or_introl eq_refl)) La).
      * exact (Tr _ _ _ (L _ (or_introl eq_refl)) Lb).
      * apply L. right. exact I'.
Qed.
Lemma heat_limits w rows cols lo hi : heatmap w rows = Some (cols, (lo, hi)) ->
  cols = heatmap_columns w rows /\
  (~ In NaN (concat rows) -> least lo (concat rows) /\ greatest hi (concat rows)) /\
  (In NaN (concat rows) -> lo = NaN /\ hi = NaN).
Proof.
  unfold heatmap, np_extreme, heatmap_columns. destruct (concat rows) as [|a l] eqn:E; [discriminate|].
  intros H. injection H as <- <- <-. split; [reflexivity|]. split.
  - intros N. split.
    + exact (fold_extreme fmin (fun x y => fle x y = true) fle_refl fle_trans fmin_cases l a N).
    + exact (fold_extreme fmax (fun x y => fle y x = true) fle_refl (fun a b c h1 h2 => fle_trans c b a h2 h1) fmax_cases l a N).
  - assert (Fx : forall x, fmin x NaN = NaN) by (intros x; unfold fmin; destruct (isnan x); reflexivity).
    assert (Fy : forall x, fmax x NaN = NaN) by (intros x; unfold fmax; destruct (isnan x); reflexivity).
    intros [->|I].
    + split; apply fold_nan; reflexivity.
    + split; apply fold_nan_in; auto.
Qed.
Lemma heat_defined w rows : heatmap w rows = None <-> concat rows = [].
Proof. unfold heatmap, np_extreme. destruct (concat rows); split; congruence. Qed.
Lemma heat_defined_w w rows : (forall r, In r rows -> length r = w) -> (heatmap w rows = None <-> rows = [] \/ w = 0).
Proof.
  intros W. rewrite heat_defined. destruct rows as [|r rows].
  - split; auto.
  - split.
    + intros E. right. rewrite <- (W r) by (left; reflexivity). apply (f_equal (@length fl)) in E. cbn in E. rewrite app_length in E. lia.
    + intros [E|E]; [discriminate E|]. apply length_zero_iff_nil. rewrite (concat_len w) by exact W. subst w. lia.
Qed.

(** * time series *)
Lemma distinct_in l x : In x (distinct l) <-> In x l.
Proof.
  induction l as [|y l IH]; cbn; [reflexivity|]. rewrite filter_In, IH. split.
  - intros [H|[H _]]; auto.
  - intros [H|H]; [auto|]. destruct (String.eqb_spec y x); [left; assumption|right; split; auto].
Qed.
Lemma distinct_nodup l : NoDup (distinct l).
Proof.
  induction l as [|y l IH]; cbn; constructor.
  - rewrite filter_In, String.eqb_refl. intros [_ H]; discriminate H.
  - apply NoDup_filter. exact IH.
Qed.
Lemma distinct_snoc l x : distinct (l ++ [x]) = distinct l ++ (if existsb (String.eqb x) l then [] else [x]).
Proof.
  induction l as [|y l IH]; cbn; [reflexivity|]. rewrite IH, filter_app.
  destruct (existsb (String.eqb x) l) eqn:E; cbn.
  - rewrite Bool.orb_true_r. reflexivity.
  - rewrite Bool.orb_false_r, (String.eqb_sym x y). destruct (String.eqb y x); reflexivity.
Qed.
Lemma sset_key_list {A} k (v : A) d : map fst (sset k v d) = map fst d ++ (if existsb (String.eqb k) (map fst d) then [] else [k]).
Proof.
  induction d as [|[k0 v0] d IH]; cbn; [reflexivity|].
  destruct (String.eqb_spec k k0) as [->|N]; cbn; [rewrite app_nil_r; reflexivity|]. rewrite IH. reflexivity.
Qed.
Lemma existsb_distinct x l : existsb (String.eqb x) (distinct l) = existsb (String.eqb x) l.
Proof.
  apply Bool.eq_iff_eq_true. rewrite !existsb_exists. split; intros (y & I & E); exists y; (split; [|exact E]); apply distinct_in; exact I.
Qed.
Lemma group_keys {B} (f : point -> option B) l : map fst (group_points f l) =
  distinct (map pt_module (filter (fun p => match f p with Some _ => true | None => false end) l)).
Proof.
  unfold group_points. induction l as [|p l IH] using rev_ind; [reflexivity|].
  rewrite fold_left_app, filter_app, map_app. cbn [fold_left filter]. destruct (f p) as [b|].
  - rewrite sset_key_list, IH. cbn [map]. rewrite distinct_snoc, existsb_distinct. reflexivity.
  - rewrite app_nil_r. exact IH.
Qed.
Definition plot_value (p : point) : option (nat * R) := option_map (pair (pt_step p)) (number_of p).
Lemma plot_has p : match plot_value p with Some _ => true | None => false end = has_number p.
Proof. unfold plot_value, number_of, has_number. destruct (pt_value p); reflexivity. Qed.
Lemma numbers_flat m l : flat_map (fun p => if of_module m p then match plot_value p with Some b => [b] | None => [] end else []) l =
  numbers (filter (of_module m) l).
Proof.
  induction l as [|p l IH]; [reflexivity|]. cbn [flat_map filter]. rewrite IH. destruct (of_module m p); [|reflexivity].
  cbn [numbers]. unfold plot_value, number_of. destruct (pt_value p); reflexivity.
Qed.
Lemma series_eq colors k : time_series colors k =
  map (fun '(i, (name, pts)) => (name, pts, nth (i mod length colors) colors EmptyString))
      (combine (seq 0 (length (group_points plot_value (get_recent 200 k)))) (group_points plot_value (get_recent 200 k))).
Proof. reflexivity. Qed.
Lemma nth_seq_combine {A} (l : list A) : forall i s, nth_error (combine (seq s (length l)) l) i = option_map (pair (s + i)) (nth_error l i).
Proof.
  induction l as [|a l IH]; intros [|i] s; cbn; try reflexivity.
  - rewrite Nat.add_0_r. reflexivity.
  - rewrite IH. replace (s + S i) with (S s + i) by lia. reflexivity.
Qed.
Lemma in_sget' {A} k (v : A) d : NoDup (map fst d) -> In (k, v) d -> sget k d = Some v.
Proof.
  induction d as [|[k0 v0] d IH]; intros ND I; [destruct I|]. destruct I as [E|I]; cbn in *.
  - injection E as -> ->. rewrite String.eqb_refl. reflexivity.
  - apply NoDup_cons_iff in ND as (N & ND). destruct (String.eqb_spec k k0) as [->|_]; [|exact (IH ND I)].
    exfalso. apply N. exact (in_map fst _ _ I).
Qed.
Lemma nth_sget {A} (d : list (string * A)) i k v : NoDup (map fst d) ->
  (nth_error d i = Some (k, v) <-> nth_error (map fst d) i = Some k /\ sget k d = Some v).
Proof.
  intros ND. rewrite nth_error_map. split.
  - intros E. rewrite E. split; [reflexivity|]. apply in_sget'; [exact ND|]. exact (nth_error_In _ _ E).
  - intros (E & G). destruct (nth_error d i) as [[k' v']|] eqn:D; [|discriminate E]. cbn in E. injection E as ->.
    rewrite (in_sget' k v' d ND (nth_error_In _ _ D)) in G. congruence.
Qed.
Lemma series_nth max i o s start ops j m pts c : no_clear ops ->
  let shown := lastn (Nat.min 200 max) (recorded start 0 ops) in
  nth_error (time_series line_colors (tracker_run (new_tracker max i o s start) ops)) j = Some (m, pts, c) <->
  nth_error (distinct (map pt_module (filter has_number shown))) j = Some m /\ pts = numbers (filter (of_module m) shown) /\
  nth_error line_colors (j mod 10) = Some c.
Proof.
  intros NC shown. rewrite series_eq, (recent_spec max i o s start ops 200 NC) by lia.
  change (Z.to_nat 200) with 200. fold shown. clearbody shown. clear -shown.
  set (d := group_points plot_value shown).
  assert (K : map fst d = distinct (map pt_module (filter has_number shown))).
  { unfold d. rewrite group_keys. f_equal. f_equal. apply filter_ext. exact plot_has. }
  assert (ND : NoDup (map fst d)) by (rewrite K; apply distinct_nodup).
  assert (CL : nth_error line_colors (j mod 10) = Some (nth (j mod 10) line_colors EmptyString)).
  { apply nth_error_nth'. change (length line_colors) with 10. apply Nat.mod_upper_bound. lia. }
  rewrite nth_error_map, nth_seq_combine, CL, <- K. cbn [Nat.add].
  assert (G : forall m, sget m d = match numbers (filter (of_module m) shown) with [] => None | x => Some x end).
  { intros m'. unfold d. rewrite group_spec, numbers_flat. reflexivity. }
  split.
  - destruct (nth_error d j) as [[m' pts']|] eqn:E; [|discriminate]. cbn [option_map]. intros H.
    apply (f_equal (fun o => match o with Some x => x | None => (m, pts, c) end)) in H.
    pose proof (f_equal (fun x => fst (fst x)) H) as H1. pose proof (f_equal (fun x => snd (fst x)) H) as H2. pose proof (f_equal snd H) as H3.
    cbn [fst snd] in H1, H2, H3. subst m' pts'. apply (nth_sget d j m pts ND) in E as (E1 & E2). split; [exact E1|]. split; [|exact (f_equal Some H3)].
    rewrite G in E2. destruct (numbers _); [discriminate E2|]. injection E2 as <-. reflexivity.
  - intros (E & P & C).
    assert (X : nth_error d j = Some (m, pts)).
    { apply (nth_sget d j m pts ND). split; [exact E|]. rewrite G, <- P. destruct pts as [|p pts]; [|reflexivity].
      exfalso. assert (S : sget m d <> None).
      { rewrite sget_none. intros F. apply F. exact (nth_error_In _ _ E). }
      apply S. rewrite G, <- P. reflexivity. }
    rewrite X. cbn [option_map]. change (length line_colors) with 10. injection C as <-. reflexivity.
Qed.
Lemma colors_repeat j j' : nth_error line_colors (j mod 10) = nth_error line_colors (j' mod 10) <-> j mod 10 = j' mod 10.
Proof.
  split; [|intros ->; reflexivity]. intros E.
  assert (ND : NoDup line_colors).
  { unfold line_colors. repeat (apply NoDup_cons; [cbn; intuition discriminate|]). apply NoDup_nil. }
  apply (NoDup_nth_error line_colors); auto. change (length line_colors) with 10. apply Nat.mod_upper_bound. lia.
Qed.

(** * only arrays *)
Lemma arrays_points start ops : forall k p, only_arrays ops -> In p (recorded start k ops) -> has_number p = false.
Proof.
  induction ops as [|o ops IH]; intros k p O I; [destruct I|].
  assert (O' : only_arrays ops) by (intros now name ty v md J; apply (O now name ty v md); right; exact J).
  destruct o as [now name ty v md| |now|name ty]; cbn [recorded] in I; try exact (IH _ p O' I).
  destruct I as [<-|I]; [|exact (IH _ p O' I)].
  destruct (O now name ty v md (or_introl eq_refl)) as (sh & d & ->). reflexivity.
Qed.
Lemma no_numbers l : (forall p, In p l -> has_number p = false) ->
  flat_map (fun p => match number_of p with Some x => [x] | None => [] end) l = [] /\ filter has_number l = [].
Proof.
  intros H. split; [|apply filter_none; exact H]. induction l as [|p l IH]; [reflexivity|]. cbn [flat_map].
  rewrite IH by (intros q I; apply H; right; exact I). specialize (H p (or_introl eq_refl)). unfold has_number in H. unfold number_of.
  destruct (pt_value p); try reflexivity. discriminate H.
Qed.
Lemma arrays_missing max i o s start ops : no_clear ops -> only_arrays ops ->
  time_series line_colors (tracker_run (new_tracker max i o s start) ops) = [] /\
  distribution (tracker_run (new_tracker max i o s start) ops) = [].
Proof.
  intros NC OA. split.
  - apply (proj2 (length_zero_iff_nil _)) || apply length_zero_iff_nil. apply Nat.le_0_r. apply Nat.le_ngt. intros L.
    destruct (nth_error (time_series line_colors (tracker_run (new_tracker max i o s start) ops)) 0) as [[[m pts] c]|] eqn:E.
    + apply (series_nth max i o s start ops 0 m pts c NC) in E as (E & _).
      rewrite (proj2 (no_numbers _ (fun p I => arrays_points start ops 0 p OA (in_lastn _ _ _ I)))) in E. discriminate E.
    + apply nth_error_None in E. lia.
  - unfold distribution. rewrite (recent_spec max i o s start ops 500 NC) by lia.
    rewrite (proj1 (no_numbers _ (fun p I => arrays_points start ops 0 p OA (in_lastn _ _ _ I)))). reflexivity.
Qed.
