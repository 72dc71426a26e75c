From Coq Require Import String ZArith List Bool Arith Lia.
From Verif Require Import Model.Tree Model.Unroll Model.Stream Model.Format Model.Accessors
  Spec.FormatSpec Spec.AccessorSpec Proofs.ListFacts Proofs.TreeProofs Proofs.UnrollProofs Proofs.FormatProofs
  Proofs.AccessorProofs.
Import ListNotations.
Local Open Scope list_scope.

Lemma coords_fit {V C} size dims (coords : list (coord C)) (x : ndarray V) :
  coords_of_dims size dims coords -> map size dims = nd_shape x -> fits coords dims x.
Proof.
  intros Hc Hs. split; [rewrite <- Hs, map_length; reflexivity|].
  intros c Hin Hn. destruct (Hc c Hin Hn) as [-> ->]. split; [reflexivity|].
  intros d n [E|[]]. assert (d = c_name c) by congruence. assert (n = size (c_name c)) by congruence. subst.
  apply size_of_axis. rewrite <- Hs. apply size_of_map. auto.
Qed.

Lemma coords_fit_incl {V C} size dims time (coords : list (coord C)) (x : ndarray V) :
  coords_of_dims size dims coords -> In time dims -> nd_shape x = [size time] -> fits coords [time] x.
Proof.
  intros Hc Ht Hs. apply (coords_fit size); [|cbn; auto].
  intros c Hin [E|[]]. apply Hc; auto. congruence.
Qed.

Lemma leaf_not_names {B} (x : B) (l : list string) : ~ same_structure (Leaf x) (names_tree l).
Proof. unfold same_structure, names_tree, tree_def. cbn. discriminate. Qed.

  Lemma unroll_outputs_length {K P S A B C} (split : K -> K * K) (a : array_in A C) (m : transformed K P S (seen A) (list B)) rng params state skip bs sF :
    unroll split m skip rng params state (map SOne (in_rows a)) = Some (bs, sF) ->
    length bs = length (in_rows a) - (if skip then 1 else 0).
  Proof.
    intros Hu. destruct (in_rows a) as [|r0 rs]; [discriminate|].
    cbn [map] in Hu. unfold unroll, unroll_init in Hu. destruct (t_init m rng (SOne r0)) as [p0 s0].
    destruct (unroll_apply _ _ _ _ _ _ _) as [y s] eqn:Ea. assert (y = bs) by congruence. subst y.
    unfold unroll_apply in Ea. destruct (lax_scan _ _ _) as [[s' r'] y'] eqn:Es.
    match type of Es with lax_scan ?f ?c ?l = _ => pose proof (lax_scan_length f c l) as E end.
    rewrite Es in E. cbn [snd] in E. assert (bs = y') by congruence. subst y'. rewrite E.
    destruct skip; cbn; rewrite map_length; lia.
  Qed.

  Lemma frame_format {V C} dim_name (coords : list (coord C)) (x : ndarray V) dims :
    dims <> [] ->
    format_dataframe dim_name coords (Leaf x) (names_tree dims) 1 =
    option_map Leaf (to_dataframe coords x (DArray dims) 1).
  Proof.
    intros Hne. destruct dims as [|d dims]; [tauto|].
    assert (E : whole_dims (Node (map (fun s => Leaf (DName s)) (d :: dims))) = Some (DArray (d :: dims))).
    { cbn [whole_dims]. rewrite names_of_map. reflexivity. }
    change (format_whole (fun a d => to_dataframe coords a d 1) (Leaf x) (Node (map (fun s => Leaf (DName s)) (d :: dims))) =
      option_map Leaf (to_dataframe coords x (DArray (d :: dims)) 1)).
    unfold format_whole. rewrite E. cbn [tree_leaves map_opt].
    destruct (to_dataframe coords x (DArray (d :: dims)) 1); reflexivity.
  Qed.

  Lemma to_dataframe_fits {V C} (coords : list (coord C)) (x : ndarray V) dims n :
    fits coords dims x ->
    to_dataframe coords x (DArray dims) n =
    match dims with
    | [] => None
    | [d] => Some (Series (labelled_by coords dims x) [d])
    | [d; e] => Some (Frame (labelled_by coords dims x) [d] [e])
    | l => Some (if Nat.leb (length l) n then Series (labelled_by coords dims x) l
                 else Frame (labelled_by coords dims x) (firstn n l) (skipn n l))
    end.
  Proof.
    intros F. unfold to_dataframe.
    destruct (to_dataarray_array coords x dims (labelled_by coords dims x)) as [_ G]. rewrite G by auto.
    destruct dims as [|d [|e [|f r]]]; reflexivity.
  Qed.

  Lemma to_dataframe_not {V C} (coords : list (coord C)) (x : ndarray V) dims n :
    length dims <> length (nd_shape x) -> to_dataframe coords x (DArray dims) n = None.
  Proof.
    intros N. unfold to_dataframe, to_dataarray. cbn [dims_names].
    destruct (Nat.eqb_spec (length dims) (length (nd_shape x))); [tauto|]. reflexivity.
  Qed.

  Lemma first_dim_mismatch {V C} (coords : list (coord C)) (x : ndarray V) (time : string) (dims : dims_leaf) c k s more :
    In c coords -> c_name c = time -> c_dims c = [time] -> c_shape c = [k] -> nd_shape x = s :: more -> s <> k ->
    dims = DArray [time] \/ dims = DName time \/ (exists r, dims = DArray (time :: r)) ->
    to_dataarray coords x dims = None.
  Proof.
    intros Hin Hnm Hdm Hsh Hx Hne Hdims. unfold to_dataarray.
    assert (Hfirst : exists r, dims_names dims = time :: r).
    { destruct Hdims as [-> | [-> | [r ->]]]; cbn; eauto. }
    destruct Hfirst as [r Er].
    assert (Hf : In c (filter (fun c => dims_in (c_name c) dims) coords)).
    { apply filter_In. split; [auto|]. rewrite Hnm. destruct Hdims as [-> | [-> | [r' ->]]]; cbn [dims_in].
      - cbn. rewrite String.eqb_refl. reflexivity.
      - apply index_0_refl.
      - cbn. rewrite String.eqb_refl. reflexivity. }
    destruct (forallb (coord_fits (dims_names dims) (nd_shape x)) (filter (fun c => dims_in (c_name c) dims) coords)) eqn:E;
      [|rewrite andb_false_r; reflexivity].
    rewrite forallb_forall in E. specialize (E c Hf). apply coord_fits_iff in E. destruct E as [_ E].
    rewrite Hdm, Hsh in E. specialize (E time k (or_introl eq_refl)). apply size_of_axis in E.
    rewrite Er, Hx in E. cbn in E. rewrite String.eqb_refl in E. congruence.
  Qed.

Section One.
  Context {K P S A B C : Type} (split : K -> K * K) (dt : C -> option (list Z)).
  Variables (cfg : stream_cfg) (a : array_in A C) (m : transformed K P S (seen A) (list B)).
  Variables (time : string) (rest : list string) (ts : list Z).
  Hypothesis Ht : only_time dt (in_coords a) time ts.
  Hypothesis Hl : local_time cfg = ""%string \/ local_time cfg = time.
  Hypothesis Hd : in_dims a = time :: rest.
  Hypothesis Hn : length ts = length (in_rows a).

  Lemma dataarray_same_shape size shape rng params state bs sF :
    coords_of_dims size (in_dims a) (in_coords a) -> map size (in_dims a) = length (in_rows a) :: shape ->
    unroll split m false rng params state (map SOne (in_rows a)) = Some (map (fun b => [b]) bs, sF) ->
    dataarray_apply split dt cfg a m (Leaf shape) false rng params state (in_dims a) =
    Some (Leaf (labelled_by (in_coords a) (in_dims a) (NdArray (length (in_rows a) :: shape) bs)), sF).
  Proof using Ht Hl Hd Hn.
    intros Hc Hs Hu. unfold dataarray_apply.
    rewrite (stream_apply_single split dt cfg a m false rng params state time rest ts Ht Hl Hd Hn), Hu.
    rewrite stack_leaf.
    assert (Eb : length bs = length (in_rows a)).
    { destruct (in_rows a) as [|r0 rs] eqn:Er; [discriminate|].
      cbn [map] in Hu. unfold unroll, unroll_init in Hu. destruct (t_init m rng (SOne r0)) as [p0 s0].
      assert (Hy := f_equal (fun o => match o with Some (y, _) => length y | None => 0 end) Hu). cbn beta iota in Hy.
      destruct (unroll_apply _ _ _ _ _ _ _) as [y s] eqn:Ea. rewrite map_length in Hy. rewrite <- Hy.
      unfold unroll_apply in Ea. destruct (lax_scan _ _ _) as [[s' r'] y'] eqn:Es.
      pose proof (lax_scan_length (scan_f split m (match params with None => p0 | Some p => p end)) (match state with None => s0 | Some s => s end, rng) (SOne r0 :: map SOne rs)) as E.
      rewrite Es in E. cbn [snd] in E. assert (y = y') by congruence. subst y'. rewrite E. cbn. rewrite map_length. reflexivity. }
    rewrite Eb. unfold stream_dataarray_format.
    destruct (format_dataarray_common (in_coords a) (Leaf (NdArray (length (in_rows a) :: shape) bs)) (in_dims a)
      (Leaf (labelled_by (in_coords a) (in_dims a) (NdArray (length (in_rows a) :: shape) bs)))) as [_ H].
    { apply leaf_not_names. }
    rewrite H; [reflexivity|]. split; [|reflexivity].
    intros x [<-|[]]. apply (coords_fit size); auto.
  Qed.

  Lemma dataarray_reduced size shape rng params state bs sF :
    coords_of_dims size (in_dims a) (in_coords a) -> size time = length (in_rows a) -> rest <> [] -> shape = [] ->
    unroll split m false rng params state (map SOne (in_rows a)) = Some (map (fun b => [b]) bs, sF) ->
    dataarray_apply split dt cfg a m (Leaf shape) false rng params state (in_dims a) =
    Some (Leaf (labelled_by (in_coords a) [time] (NdArray [length (in_rows a)] bs)), sF).
  Proof using Ht Hl Hd Hn.
    intros Hc Hs Hr -> Hu. unfold dataarray_apply.
    rewrite (stream_apply_single split dt cfg a m false rng params state time rest ts Ht Hl Hd Hn), Hu.
    rewrite stack_leaf. pose proof (unroll_outputs_length _ _ _ _ _ _ _ _ _ Hu) as Eb. rewrite map_length, Nat.sub_0_r in Eb. rewrite Eb.
    set (x := NdArray [length (in_rows a)] bs).
    destruct (stream_dataarray_format_all (in_coords a) (Leaf x) (in_dims a) (Leaf (labelled_by (in_coords a) [time] x))) as [_ H].
    { apply leaf_not_names. } { apply leaf_not_names. }
    rewrite H; [reflexivity|]. right. split.
    - intros F. destruct (F x (or_introl eq_refl)) as [F1 _]. rewrite Hd in F1. cbn in F1. destruct rest; [tauto|]. discriminate.
    - exists time, rest. split; [auto|]. split; [|reflexivity]. intros y [<-|[]].
      apply (coords_fit_incl size (in_dims a)); auto; [rewrite Hd; left; auto|]. cbn. congruence.
  Qed.

  Lemma dataarray_trees shapes rng params state skip ys sF r sF' dims :
    ~ same_structure shapes (names_tree dims) -> ~ same_structure shapes (names_tree (firstn 1 dims)) ->
    unroll split m skip rng params state (map SOne (in_rows a)) = Some (ys, sF) ->
    Forall (fun y => length y = length (tree_leaves shapes)) ys ->
    dataarray_apply split dt cfg a m shapes skip rng params state dims = Some (r, sF') <->
    sF' = sF /\ exists outputs, stacked shapes ys outputs /\
     (((forall x, In x (tree_leaves outputs) -> fits (in_coords a) dims x) /\
       r = tree_map (labelled_by (in_coords a) dims) outputs) \/
      (~ (forall x, In x (tree_leaves outputs) -> fits (in_coords a) dims x) /\ exists first others, dims = first :: others /\
       (forall x, In x (tree_leaves outputs) -> fits (in_coords a) [first] x) /\
       r = tree_map (labelled_by (in_coords a) [first]) outputs)).
  Proof using Ht Hl Hd Hn.
    intros H1 H2 Hu HF. unfold dataarray_apply.
    rewrite (stream_apply_single split dt cfg a m skip rng params state time rest ts Ht Hl Hd Hn), Hu.
    destruct (stack_outputs_spec shapes ys HF) as (o & Ho & Hst). rewrite Ho.
    assert (N1 : ~ same_structure o (names_tree dims)).
    { intros E. apply H1. destruct Hst as [Hst _]. unfold same_structure in *. congruence. }
    assert (N2 : ~ same_structure o (names_tree (firstn 1 dims))).
    { intros E. apply H2. destruct Hst as [Hst _]. unfold same_structure in *. congruence. }
    assert (Hall := fun r => stream_dataarray_format_all (in_coords a) o dims r N1 N2).
    destruct (stream_dataarray_format (in_coords a) o dims) as [r'|] eqn:E.
    - destruct (Hall r') as [G _]. specialize (G eq_refl). cbn [option_map]. split.
      + intros Hx. assert (r' = r) by congruence. subst r'. split; [congruence|]. exists o. split; [exact Hst|exact G].
      + intros (-> & o' & Ho' & G'). pose proof (stacked_unique _ _ _ _ Hst Ho') as <-.
        destruct (Hall r) as [_ G2]. specialize (G2 G'). congruence.
    - split; [discriminate|]. intros (-> & o' & Ho' & G'). pose proof (stacked_unique _ _ _ _ Hst Ho') as <-.
      destruct (Hall r) as [_ G2]. specialize (G2 G'). congruence.
  Qed.

  Lemma dataframe_same_shape size col dim_name rng params state bs sF :
    rest = [col] ->
    coords_of_dims size (in_dims a) (in_coords a) -> size time = length (in_rows a) ->
    unroll split m false rng params state (map SOne (in_rows a)) = Some (map (fun b => [b]) bs, sF) ->
    dataframe_apply split dt cfg a m (Leaf [size col]) false rng params state dim_name (in_dims a) =
    Some (Leaf (Frame (labelled_by (in_coords a) [time; col] (NdArray [length (in_rows a); size col] bs)) [time] [col]), sF).
  Proof using Ht Hl Hd Hn.
    intros Hr Hc Hs Hu. unfold dataframe_apply.
    rewrite (stream_apply_single split dt cfg a m false rng params state time rest ts Ht Hl Hd Hn), Hu.
    rewrite stack_leaf. pose proof (unroll_outputs_length _ _ _ _ _ _ _ _ _ Hu) as Eb. rewrite map_length, Nat.sub_0_r in Eb. rewrite Eb.
    rewrite Hr in Hd. unfold with_fallback. rewrite Hd, frame_format by discriminate.
    rewrite to_dataframe_fits; [reflexivity|]. apply (coords_fit size).
    - rewrite <- Hd. exact Hc.
    - cbn. congruence.
  Qed.

  Lemma dataframe_reduced size col dim_name rng params state bs sF :
    rest = [col] ->
    coords_of_dims size (in_dims a) (in_coords a) -> size time = length (in_rows a) ->
    unroll split m false rng params state (map SOne (in_rows a)) = Some (map (fun b => [b]) bs, sF) ->
    dataframe_apply split dt cfg a m (Leaf []) false rng params state dim_name (in_dims a) =
    Some (Leaf (Series (labelled_by (in_coords a) [time] (NdArray [length (in_rows a)] bs)) [time]), sF).
  Proof using Ht Hl Hd Hn.
    intros Hr Hc Hs Hu. unfold dataframe_apply.
    rewrite (stream_apply_single split dt cfg a m false rng params state time rest ts Ht Hl Hd Hn), Hu.
    rewrite stack_leaf. pose proof (unroll_outputs_length _ _ _ _ _ _ _ _ _ Hu) as Eb. rewrite map_length, Nat.sub_0_r in Eb. rewrite Eb.
    rewrite Hr in Hd. unfold with_fallback. rewrite Hd, frame_format by discriminate.
    rewrite to_dataframe_not by (cbn; discriminate). cbn [option_map].
    rewrite frame_format by discriminate. rewrite to_dataframe_fits; [reflexivity|].
    apply (coords_fit_incl size (in_dims a)); auto; [rewrite Hd; left; auto|]. cbn. congruence.
  Qed.

  Lemma series_same_shape size rng params state bs sF :
    rest = [] ->
    coords_of_dims size (in_dims a) (in_coords a) -> size time = length (in_rows a) ->
    unroll split m false rng params state (map SOne (in_rows a)) = Some (map (fun b => [b]) bs, sF) ->
    series_apply split dt cfg a m (Leaf []) false rng params state (in_dims a) =
    Some (Leaf (Series (labelled_by (in_coords a) [time] (NdArray [length (in_rows a)] bs)) [time]), sF).
  Proof using Ht Hl Hd Hn.
    intros Hr Hc Hs Hu. unfold series_apply.
    rewrite (stream_apply_single split dt cfg a m false rng params state time rest ts Ht Hl Hd Hn), Hu.
    rewrite stack_leaf. pose proof (unroll_outputs_length _ _ _ _ _ _ _ _ _ Hu) as Eb. rewrite map_length, Nat.sub_0_r in Eb. rewrite Eb.
    rewrite Hr in Hd. unfold with_fallback. rewrite Hd.
    unfold format_series, format_tree. cbn [tree_def tree_map treedef_eqb names_tree].
    unfold format_whole. cbn [tree_leaves map_opt]. unfold names_tree. cbn [map whole_dims names_of].
    unfold to_series.
    destruct (to_dataarray_array (in_coords a) (NdArray [length (in_rows a)] bs) [time]
      (labelled_by (in_coords a) [time] (NdArray [length (in_rows a)] bs))) as [_ G].
    rewrite G; [reflexivity|]. split; [|reflexivity].
    apply (coords_fit_incl size (in_dims a)); auto; [rewrite Hd; left; auto|]. cbn. congruence.
  Qed.

  (** skip_first: the time coordinate has one label more than the outputs *)
  Lemma skip_first_fails size shapes rng params state c ys sF :
    In c (in_coords a) -> c_name c = time ->
    coords_of_dims size (in_dims a) (in_coords a) -> size time = length (in_rows a) ->
    unroll split m true rng params state (map SOne (in_rows a)) = Some (ys, sF) ->
    Forall (fun y => length y = length (tree_leaves shapes)) ys -> tree_leaves shapes <> [] ->
    dataarray_apply split dt cfg a m shapes true rng params state (in_dims a) = None.
  Proof using Ht Hl Hd Hn.
    intros Hin Hnm Hc Hs Hu HF Hne. unfold dataarray_apply.
    rewrite (stream_apply_single split dt cfg a m true rng params state time rest ts Ht Hl Hd Hn), Hu.
    destruct (stack_outputs_spec shapes ys HF) as (o & Ho & Hst). rewrite Ho.
    pose proof (unroll_outputs_length _ _ _ _ _ _ _ _ _ Hu) as Ey.
    assert (Hpos : 0 < length (in_rows a)).
    { destruct (in_rows a); [discriminate|cbn; lia]. }
    destruct Hst as [Hss Hlv]. pose proof (same_structure_len _ _ Hss) as Hlen.
    destruct (tree_leaves o) as [|x0 xs] eqn:Elo. { destruct (tree_leaves shapes); [tauto|discriminate]. }
    destruct (Hlv 0 x0 eq_refl) as [(s & _ & Hsh) _].
    destruct (Hc c Hin) as [Hcd Hcs]. { rewrite Hnm, Hd. left. auto. }
    rewrite Hnm in Hcd, Hcs.
    assert (Hbad : forall dims, dims = DArray [time] \/ dims = DName time \/ (exists r, dims = DArray (time :: r)) ->
      to_dataarray (in_coords a) x0 dims = None).
    { intros dims Hdims. apply (first_dim_mismatch (in_coords a) x0 time dims c (size time) (length ys) s); auto. cbn in Ey. lia. }
    assert (Hfail : forall r, format_dataarray (in_coords a) o (names_tree (time :: r)) = None).
    { intros r. unfold format_dataarray, format_tree. destruct (treedef_eqb _ _).
      - unfold format_zip. rewrite Elo. unfold names_tree. cbn [map tree_leaves flat_map app combine map_opt].
        rewrite Hbad; [reflexivity|]. right. left. reflexivity.
      - unfold format_whole. rewrite Elo. cbn [map_opt]. unfold names_tree. cbn [whole_dims]. rewrite names_of_map.
        rewrite Hbad; [reflexivity|]. right. right. eauto. }
    unfold stream_dataarray_format. rewrite Hd. rewrite !Hfail. reflexivity.
  Qed.
End One.

(** *** errors *)
Lemma no_time_axis {A C} (dt : C -> option (list Z)) cfg (vars : list (dvar A)) (coords : list (coord C)) :
  (forall c, In c coords -> dt (c_val c) = None) -> prepare dt cfg vars coords = None.
Proof.
  intros H. unfold prepare, time_index.
  assert (E : time_coords dt coords = []).
  { unfold time_coords. induction coords as [|c l IH]; [reflexivity|]. cbn. rewrite (H c (or_introl eq_refl)), IH; auto.
    intros c' Hc'. apply H. right. auto. }
  rewrite E. reflexivity.
Qed.
Lemma two_time_axes {A C} (dt : C -> option (list Z)) cfg (vars : list (dvar A)) (coords : list (coord C)) i j c c' ts ts' :
  i <> j -> nth_error coords i = Some c -> nth_error coords j = Some c' ->
  dt (c_val c) = Some ts -> dt (c_val c') = Some ts' -> local_time cfg = ""%string ->
  prepare dt cfg vars coords = None.
Proof.
  intros Hij Hi Hj Hc Hc' Hloc. unfold prepare, time_index.
  assert (E : 2 <= length (time_coords dt coords)).
  { assert (G : forall (l : list (coord C)) i c ts, nth_error l i = Some c -> dt (c_val c) = Some ts -> 1 <= length (time_coords dt l)).
    { induction l as [|x l IH]; intros [|k] c0 t0 Hk H0; cbn in *; try discriminate.
      - assert (x = c0) by congruence. subst. rewrite H0. cbn. lia.
      - unfold time_coords. cbn. rewrite app_length. specialize (IH k c0 t0 Hk H0). unfold time_coords in IH. lia. }
    clear Hloc. revert i j Hij Hi Hj. induction coords as [|x l IH]; intros [|i] [|j] Hij Hi Hj; cbn in *; try discriminate; try lia.
    - assert (x = c) by congruence. subst x. rewrite Hc. cbn. specialize (G l j c' ts' Hj Hc'). unfold time_coords in G. lia.
    - assert (x = c') by congruence. subst x. rewrite Hc'. cbn. specialize (G l i c ts Hi Hc). unfold time_coords in G. lia.
    - rewrite app_length. assert (i <> j) by lia. specialize (IH i j H Hi Hj). unfold time_coords in IH. lia. }
  destruct (time_coords dt coords) as [|p [|q r]]; cbn in E; try lia.
  rewrite Hloc. reflexivity.
Qed.
Lemma time_not_first {A C} (dt : C -> option (list Z)) cfg (a : array_in A C) time ts d rest :
  only_time dt (in_coords a) time ts -> local_time cfg = ""%string \/ local_time cfg = time ->
  in_dims a = d :: rest -> d <> time -> In time rest ->
  prepare dt cfg (as_dataset a) (in_coords a) = None.
Proof.
  intros Ht Hl Hd Hne Hin. unfold prepare. rewrite (time_index_single _ _ _ _ _ Ht Hl).
  cbn [lookup]. rewrite String.eqb_refl. unfold as_dataset. cbn [mapM]. unfold var_index at 1. cbn [dv_dims]. rewrite Hd.
  assert (E : existsb (fun d => mem_str d (map fst [(time, map (fun o => One (real o)) (positions ts))])) (d :: rest) = true).
  { apply existsb_exists. exists time. split; [right; auto|]. cbn. rewrite String.eqb_refl. reflexivity. }
  rewrite E. cbn [lookup]. destruct (String.eqb_spec d time); [tauto|]. reflexivity.
Qed.
