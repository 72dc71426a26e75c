From Coq Require Import String List Bool Arith Lia.
From Verif Require Import Model.Tree Model.Format Spec.FormatSpec Proofs.TreeProofs.
Import ListNotations.
Local Open Scope list_scope.

Lemma mem_str_in s l : mem_str s l = true <-> In s l.
Proof.
  induction l as [|a l IH]; cbn; [intuition discriminate|].
  rewrite orb_true_iff, IH, String.eqb_eq. intuition.
Qed.

Lemma mem_str_dec s l : mem_str s l = if in_dec string_dec s l then true else false.
Proof.
  destruct (in_dec string_dec s l) as [H|H]; [apply mem_str_in; auto|].
  destruct (mem_str s l) eqn:E; auto. apply mem_str_in in E. tauto.
Qed.

Lemma nat_list_eqb_eq a b : nat_list_eqb a b = true <-> a = b.
Proof.
  revert b. induction a as [|x a IH]; intros [|y b]; cbn; try (intuition discriminate).
  rewrite andb_true_iff, IH, Nat.eqb_eq. intuition congruence.
Qed.

Lemma treedef_eqb_eq : forall a b : tree unit, treedef_eqb a b = true <-> a = b.
Proof.
  fix IH 1. intros [[]|x] [[]|y]; cbn; try (intuition discriminate); try tauto.
  revert y. induction x as [|a x IHx]; intros [|b y]; try (intuition discriminate).
  rewrite andb_true_iff, IH, IHx. intuition congruence.
Qed.

Lemma coords_named_filter {C} (l : list string) (cs : list (coord C)) :
  filter (fun c => dims_in (c_name c) (DArray l)) cs = coords_named l cs.
Proof. unfold coords_named. apply filter_ext. intros c. cbn. apply mem_str_dec. Qed.

Lemma size_of_axis d n dims shape : size_of d dims shape = Some n <-> axis_size d n dims shape.
Proof.
  unfold axis_size. revert shape. induction dims as [|e dims IH]; intros [|m shape]; cbn.
  1-3: split; [discriminate|]; intros ([|i] & H1 & H2 & _); discriminate.
  destruct (String.eqb d e) eqn:E.
  - apply String.eqb_eq in E. subst e. split.
    + intros [= ->]. exists 0. split; [auto|]. split; [auto|]. intros j Hj. lia.
    + intros ([|i] & H1 & H2 & H3); [auto|]. exfalso. apply (H3 0); [lia|auto].
  - apply String.eqb_neq in E. rewrite IH. split.
    + intros (i & H1 & H2 & H3). exists (S i). split; [auto|]. split; [auto|].
      intros [|j] Hj; cbn; [congruence|apply H3; lia].
    + intros ([|i] & H1 & H2 & H3); [cbn in H1; congruence|]. exists i. split; [auto|]. split; [auto|].
      intros j Hj. apply (H3 (S j)). lia.
Qed.

Lemma coord_fits_iff {C} dims shape (c : coord C) :
  coord_fits dims shape c = true <->
  length (c_dims c) = length (c_shape c) /\
  forall d n, In (d, n) (combine (c_dims c) (c_shape c)) -> axis_size d n dims shape.
Proof.
  unfold coord_fits. rewrite andb_true_iff, Nat.eqb_eq, forallb_forall. split; intros [H1 H2]; split; auto.
  - intros d n Hin. apply size_of_axis. specialize (H2 _ Hin). cbn in H2. destruct (size_of d dims shape); [|discriminate].
    apply Nat.eqb_eq in H2. congruence.
  - intros [d n] Hin. pose proof (H2 _ _ Hin) as H3. apply size_of_axis in H3. rewrite H3. apply Nat.eqb_refl.
Qed.

(** A list of names labels exactly the arrays it fits. *)
Lemma to_dataarray_array {V C} (cs : list (coord C)) (a : ndarray V) (l : list string) r :
  to_dataarray cs a (DArray l) = Some r <-> fits cs l a /\ r = labelled_by cs l a.
Proof.
  unfold to_dataarray. rewrite coords_named_filter. cbn [dims_names].
  destruct (_ && _) eqn:E.
  - apply andb_true_iff in E. destruct E as [E1 E2]. rewrite Nat.eqb_eq in E1. rewrite forallb_forall in E2.
    split; [intros [= <-]|intros [_ ->]; reflexivity]. split; [|reflexivity].
    split; [exact E1|]. intros c Hc Hn. apply coord_fits_iff, E2. unfold coords_named.
    apply filter_In. split; [exact Hc|]. destruct (in_dec _ _ _); tauto.
  - split; [discriminate|]. intros [[H1 H2] _]. exfalso.
    apply andb_false_iff in E. destruct E as [E|E].
    + rewrite H1, Nat.eqb_refl in E. discriminate.
    + assert (forallb (coord_fits l (nd_shape a)) (coords_named l cs) = true); [|congruence].
      apply forallb_forall. intros c Hc. unfold coords_named in Hc. apply filter_In in Hc. destruct Hc as [Hc Hn].
      apply coord_fits_iff, H2; auto. destruct (in_dec _ _ _); [auto|discriminate].
Qed.

Lemma names_of_map l : names_of (map (fun s => Leaf (DName s)) l) = Some l.
Proof. induction l as [|s l IH]; cbn; [|rewrite IH]; auto. Qed.

Lemma map_opt_Forall2 {A B} (f : A -> option B) l r :
  map_opt f l = Some r <-> Forall2 (fun a b => f a = Some b) l r.
Proof.
  revert r. induction l as [|a l IH]; cbn; intros r.
  - split; [intros [= <-]; constructor|inversion 1; auto].
  - destruct (f a) eqn:E.
    + destruct (map_opt f l) eqn:E2.
      * split; [intros [= <-]; constructor; auto; apply IH; auto|].
        inversion 1 as [|? ? ? ? H1 H2]; subst. apply IH in H2. congruence.
      * split; [discriminate|]. inversion 1 as [|? ? ? ? H1 H2]; subst. apply IH in H2. congruence.
    + split; [discriminate|]. inversion 1; congruence.
Qed.

Lemma F2len {A B} (R : A -> B -> Prop) l m : Forall2 R l m -> length l = length m.
Proof. induction 1; cbn; auto. Qed.

Lemma unflatten_iff {A L} (t : tree A) (ls : list L) r :
  length ls = length (tree_leaves t) ->
  tree_unflatten (tree_def t) ls = Some r <-> same_structure t r /\ tree_leaves r = ls.
Proof.
  intros Hl. destruct (tree_unflatten_total (tree_def t) ls) as [u Hu].
  { rewrite tree_leaves_def_length. auto. }
  destruct Hu as [Hu [Hd Hle]].
  rewrite Hu. split.
  - intros [= <-]. split; auto. unfold same_structure. auto.
  - intros [Hs Hr]. f_equal. apply tree_ext; unfold same_structure in *; congruence.
Qed.

(** format_whole: every leaf gets the same dims. *)
Lemma format_whole_iff {V R} (one : ndarray V -> dims_leaf -> option R) data fd d r :
  whole_dims fd = Some d ->
  format_whole one data fd = Some r <->
  same_structure data r /\ Forall2 (fun a b => one a d = Some b) (tree_leaves data) (tree_leaves r).
Proof.
  intros Hd. unfold format_whole. rewrite Hd. destruct (map_opt _ _) as [l|] eqn:E.
  - apply map_opt_Forall2 in E. rewrite unflatten_iff by (symmetry; eapply F2len; eauto).
    split; intros [H1 H2]; split; auto; [rewrite H2; auto|].
    revert H2. generalize (tree_leaves r). revert E. generalize (tree_leaves data). clear.
    intros l1 E. induction E; inversion 1; subst; auto. f_equal; [congruence|auto].
  - split; [discriminate|]. intros [_ H]. apply map_opt_Forall2 in H. congruence.
Qed.


Lemma zipped_combine {A B R} (f : A -> B -> option R) la lb lr :
  length la = length lb ->
  map_opt (fun '(a, b) => f a b) (combine la lb) = Some lr <-> zipped (fun a b r => f a b = Some r) la lb lr.
Proof.
  intros Hl. rewrite map_opt_Forall2. revert lb lr Hl. induction la as [|a la IH]; intros [|b lb] lr Hl; try discriminate; cbn.
  - split; inversion 1; constructor.
  - injection Hl as Hl. split; inversion 1; subst; constructor; auto; apply IH; auto.
Qed.

Lemma zipped_len {A B R} (Q : A -> B -> R -> Prop) la lb lr : zipped Q la lb lr -> length lr = length la.
Proof. induction 1; cbn; auto. Qed.

Lemma same_structure_len {A B} (t : tree A) (u : tree B) :
  same_structure t u -> length (tree_leaves t) = length (tree_leaves u).
Proof. intros H. rewrite <- tree_leaves_def_length, H, tree_leaves_def_length. reflexivity. Qed.

Lemma format_zip_iff {V R} (one : ndarray V -> dims_leaf -> option R) data fd r :
  same_structure data fd ->
  format_zip one data fd = Some r <->
  same_structure data r /\ zipped (fun a d b => one a d = Some b) (tree_leaves data) (tree_leaves fd) (tree_leaves r).
Proof.
  intros Hs. pose proof (same_structure_len _ _ Hs) as Hl. unfold format_zip.
  destruct (map_opt _ _) as [l|] eqn:E.
  - apply zipped_combine in E; auto. rewrite unflatten_iff by (eapply zipped_len; eauto).
    split; intros [H1 H2]; split; auto; [rewrite H2; auto|].
    revert H2. generalize (tree_leaves r). revert E. clear. induction 1; inversion 1; subst; auto.
    f_equal; [congruence|auto].
  - split; [discriminate|]. intros [_ H]. apply zipped_combine in H; auto. congruence.
Qed.

(** C64 *)
Lemma format_dataarray_common {V C} (cs : list (coord C)) (data : tree (ndarray V)) (dims : list string) r :
  ~ same_structure data (names_tree dims) ->
  format_dataarray cs data (names_tree dims) = Some r <->
  (forall a, In a (tree_leaves data) -> fits cs dims a) /\ r = tree_map (labelled_by cs dims) data.
Proof.
  intros Hn. unfold format_dataarray, format_tree.
  destruct (treedef_eqb _ _) eqn:E; [apply treedef_eqb_eq in E; tauto|].
  rewrite (format_whole_iff _ _ _ (DArray dims)) by (cbn; rewrite names_of_map; auto).
  assert (HF : forall l l', Forall2 (fun a b => to_dataarray cs a (DArray dims) = Some b) l l' <->
     (forall a, In a l -> fits cs dims a) /\ l' = map (labelled_by (V := V) cs dims) l).
  { induction l as [|a l IH]; intros l'.
    - split; [inversion 1; subst; split; [intros a []|reflexivity]|intros [_ ->]; constructor].
    - split.
      + inversion 1 as [|? b ? l2 H1 H2]; subst. apply to_dataarray_array in H1. destruct H1 as [H1 ->].
        apply IH in H2. destruct H2 as [H2 ->]. split; [intros c [<-|Hc]; auto|reflexivity].
      + intros [H1 ->]. cbn. constructor; [apply to_dataarray_array; split; auto; apply H1; left; auto|].
        apply IH. split; auto. intros c Hc. apply H1. right; auto. }
  rewrite HF. split.
  - intros [Hs [H1 H2]]. split; auto. apply tree_ext; [rewrite tree_def_map; auto|rewrite tree_leaves_map; auto].
  - intros [H1 ->]. split; [unfold same_structure; rewrite tree_def_map; auto|].
    rewrite tree_leaves_map. auto.
Qed.
(** one array of names used for all *)
Lemma format_dataarray_one_array {V C} (cs : list (coord C)) (data : tree (ndarray V)) (dims : list string) r :
  format_dataarray cs data (Leaf (DArray dims)) = Some r <->
  (forall a, In a (tree_leaves data) -> fits cs dims a) /\ r = tree_map (labelled_by cs dims) data.
Proof.
  assert (HF : forall l l', Forall2 (fun a b => to_dataarray cs a (DArray dims) = Some b) l l' <->
     (forall a, In a l -> fits cs dims a) /\ l' = map (labelled_by (V := V) cs dims) l).
  { induction l as [|a l IH]; intros l'.
    - split; [inversion 1; subst; split; [intros a []|reflexivity]|intros [_ ->]; constructor].
    - split.
      + inversion 1 as [|? b ? l2 H1 H2]; subst. apply to_dataarray_array in H1. destruct H1 as [H1 ->].
        apply IH in H2. destruct H2 as [H2 ->]. split; [intros c [<-|Hc]; auto|reflexivity].
      + intros [H1 ->]. cbn. constructor; [apply to_dataarray_array; split; auto; apply H1; left; auto|].
        apply IH. split; auto. intros c Hc. apply H1. right; auto. }
  transitivity (same_structure data r /\ Forall2 (fun a b => to_dataarray cs a (DArray dims) = Some b) (tree_leaves data) (tree_leaves r)).
  - unfold format_dataarray, format_tree. destruct (treedef_eqb _ _) eqn:E.
    + apply treedef_eqb_eq in E. rewrite format_zip_iff by exact E.
      destruct data as [a|c]; [|discriminate]. cbn [tree_leaves]. split; intros [H1 H2]; (split; [exact H1|]).
      * inversion H2 as [|? ? ? ? ? ? A B]; subst. inversion B; subst. constructor; [exact A|constructor].
      * inversion H2 as [|? ? ? ? A B]; subst. inversion B; subst. constructor; [exact A|constructor].
    + apply format_whole_iff. reflexivity.
  - rewrite HF. split.
    + intros [Hs [H1 H2]]. split; auto. apply tree_ext; [rewrite tree_def_map; auto|rewrite tree_leaves_map; auto].
    + intros [H1 ->]. split; [unfold same_structure; rewrite tree_def_map; auto|]. rewrite tree_leaves_map. auto.
Qed.

Lemma format_dataarray_each {V C} (cs : list (coord C)) (data : tree (ndarray V)) (fd : tree (list string)) r :
  same_structure data fd ->
  format_dataarray cs data (tree_map DArray fd) = Some r <->
  same_structure data r /\
  zipped (fun a dims b => fits cs dims a /\ b = labelled_by cs dims a)
         (tree_leaves data) (tree_leaves fd) (tree_leaves r).
Proof.
  intros Hs. unfold format_dataarray, format_tree.
  assert (Hs' : same_structure data (tree_map DArray fd)) by (unfold same_structure in *; rewrite tree_def_map; auto).
  pose proof Hs' as E. apply treedef_eqb_eq in E. rewrite E, (format_zip_iff _ _ _ _ Hs').
  rewrite tree_leaves_map.
  assert (HF : forall la lb lr, zipped (fun a d b => to_dataarray cs a d = Some b) la (map DArray lb) lr <->
     zipped (fun (a : ndarray V) dims b => fits cs dims a /\ b = labelled_by cs dims a) la lb lr).
  { intros la lb. revert la. induction lb as [|b lb IH]; intros la lr.
    - split; inversion 1; constructor.
    - split; inversion 1 as [|? ? ? ? ? ? H1 H2]; subst; constructor; try (apply IH; auto);
        apply to_dataarray_array; auto. }
  rewrite HF. reflexivity.
Qed.

(** A tuple of k arrays with a tuple of k names: array i is labelled with the single name i. *)
Lemma index_0_refl s : substring_of s s = true.
Proof.
  unfold substring_of. destruct s as [|c s]; [reflexivity|]. cbn.
  destruct (Ascii.ascii_dec c c); [|tauto].
  assert (H : String.prefix s s = true) by (apply prefix_correct; clear; induction s; cbn; congruence).
  rewrite H. reflexivity.
Qed.

Lemma format_dataarray_tuple {V C} (cs : list (coord C)) (arrays : list (ndarray V)) (dims : list string) r :
  length arrays = length dims ->
  format_dataarray cs (Node (map Leaf arrays)) (names_tree dims) = Some r ->
  exists l, r = Node (map Leaf l) /\
    zipped (fun a d b => da_data b = a /\ da_dims b = [d] /\ exists n, nd_shape a = [n]) arrays dims l.
Proof.
  intros Hl. unfold format_dataarray, format_tree.
  assert (Hs : same_structure (Node (map Leaf arrays)) (names_tree dims)).
  { unfold same_structure, names_tree, tree_def. cbn. f_equal. rewrite !map_map.
    cbn. clear r. revert dims Hl. induction arrays; intros [|d dims] Hl; try discriminate; cbn; auto.
    f_equal. apply IHarrays. auto. }
  pose proof Hs as E. apply treedef_eqb_eq in E. rewrite E, (format_zip_iff _ _ _ _ Hs).
  assert (Hlv : forall A (l : list A), tree_leaves (Node (map Leaf l)) = l).
  { intros A l. cbn. induction l; cbn; congruence. }
  intros [H1 H2]. rewrite Hlv in H2. unfold names_tree in H2.
  assert (Hn : tree_leaves (Node (map (fun s => Leaf (DName s)) dims)) = map DName dims)
    by (cbn; clear; induction dims; cbn; congruence).
  rewrite Hn in H2. exists (tree_leaves r). split.
  - apply tree_ext; [rewrite <- H1|rewrite Hlv; auto].
    unfold tree_def. cbn. f_equal. rewrite !map_map. cbn.
    apply zipped_len in H2. clear -H2. revert arrays H2. induction (tree_leaves r) as [|b bl IHl]; intros [|a0 ar] H; try discriminate; cbn; auto.
    f_equal. apply IHl. auto.
  - clear -H2. remember (map DName dims) as dl eqn:Ed. revert dims Ed.
    induction H2 as [|a d b la lb lr Q Z IH]; intros [|e dims] Ed; try discriminate; [constructor|].
    injection Ed as -> ->. constructor; [|apply IH; auto].
    unfold to_dataarray in Q. cbn [dims_names length] in Q. destruct (_ && _) eqn:E; [|discriminate].
    injection Q as <-. cbn. split; auto. split; auto. apply andb_true_iff in E. destruct E as [E _].
    apply Nat.eqb_eq in E. destruct (nd_shape a) as [|n [|]]; try discriminate. eauto.
Qed.

(** The streaming accessor. *)
Lemma stream_dataarray_format_all {V C} (cs : list (coord C)) (outputs : tree (ndarray V)) (dims : list string) r :
  ~ same_structure outputs (names_tree dims) ->
  ~ same_structure outputs (names_tree (firstn 1 dims)) ->
  stream_dataarray_format cs outputs dims = Some r <->
  ((forall a, In a (tree_leaves outputs) -> fits cs dims a) /\ r = tree_map (labelled_by cs dims) outputs) \/
  (~ (forall a, In a (tree_leaves outputs) -> fits cs dims a) /\ exists time rest, dims = time :: rest /\
   (forall a, In a (tree_leaves outputs) -> fits cs [time] a) /\ r = tree_map (labelled_by cs [time]) outputs).
Proof.
  intros H1 H2. unfold stream_dataarray_format.
  destruct (format_dataarray cs outputs (names_tree dims)) as [x|] eqn:E.
  - apply format_dataarray_common in E; auto. destruct E as [E ->]. split.
    + intros [= <-]. left. auto.
    + intros [[_ ->]|[N _]]; [auto|tauto].
  - assert (N : ~ (forall a, In a (tree_leaves outputs) -> fits cs dims a)).
    { intros F. assert (format_dataarray cs outputs (names_tree dims) = Some (tree_map (labelled_by cs dims) outputs))
        by (apply format_dataarray_common; auto). congruence. }
    destruct dims as [|d dims].
    + split; [discriminate|]. intros [[F _]|[_ (t & q & F & _)]]; [tauto|discriminate].
    + rewrite format_dataarray_common by auto. split.
      * intros [F ->]. right. split; auto. exists d, dims. auto.
      * intros [[F _]|[_ (t & q & F & G)]]; [tauto|]. injection F as <- <-. auto.
Qed.

(** C48 *)
Lemma get_dims_var_spec shape v : length (v_dims v) = length (v_shape v) ->
  get_dims_var shape v 0 (length (v_shape v) + 1) =
  if nat_list_eqb shape (firstn (length shape) (v_shape v)) then Some (firstn (length shape) (v_dims v)) else None.
Proof.
  intros Hl.
  assert (G : forall fuel i, i + fuel = length (v_shape v) + 1 -> i <= length shape ->
    get_dims_var shape v i fuel =
    if nat_list_eqb shape (firstn (length shape) (v_shape v)) then Some (firstn (length shape) (v_dims v)) else None).
  { induction fuel as [|fuel IH]; intros i Hi Hle.
    - destruct (nat_list_eqb _ _) eqn:E; [|reflexivity]. apply nat_list_eqb_eq in E.
      assert (length shape <= length (v_shape v)) by (rewrite E, firstn_length; lia). lia.
    - cbn. destruct (nat_list_eqb shape (firstn i (v_shape v))) eqn:E.
      + apply nat_list_eqb_eq in E. assert (length shape = i).
        { rewrite E, firstn_length. lia. }
        subst i. rewrite <- E.
        assert (F : nat_list_eqb shape shape = true) by (apply nat_list_eqb_eq; auto).
        rewrite F. reflexivity.
      + destruct (Nat.eq_dec i (length shape)) as [->|Hne]; [|apply IH; lia].
        rewrite E. clear IH. assert (N : forall f j, length shape < j -> j + f = length (v_shape v) + 1 -> get_dims_var shape v j f = None).
        { induction f as [|f IHf]; intros j Hj Hs; [reflexivity|]. cbn.
          destruct (nat_list_eqb shape (firstn j (v_shape v))) eqn:E2; [|apply IHf; lia].
          apply nat_list_eqb_eq in E2. assert (length shape = j) by (rewrite E2, firstn_length; lia). lia. }
        apply N; lia. }
  apply G; lia.
Qed.

Lemma prefix_firstn {A} (p l : list A) : is_prefix p l <-> p = firstn (length p) l.
Proof.
  split.
  - intros [r ->]. rewrite firstn_app, Nat.sub_diag, firstn_all, app_nil_r. reflexivity.
  - intros H. exists (skipn (length p) l). rewrite H at 1. symmetry. apply firstn_skipn.
Qed.

Lemma get_dims_reference {C} (ds : dataset C) shape v :
  (forall u, In u (ds_vars ds) -> length (v_dims u) = length (v_shape u)) ->
  reference ds shape v -> get_dims (ds_vars ds) shape = Some (firstn (length shape) (v_dims v)).
Proof.
  intros Hwf (b & a & E & P & N). rewrite E in *. clear E.
  induction b as [|u b IH]; cbn.
  - rewrite get_dims_var_spec by (apply Hwf; left; auto).
    apply prefix_firstn in P. apply nat_list_eqb_eq in P. rewrite P. reflexivity.
  - rewrite get_dims_var_spec by (apply Hwf; left; auto).
    destruct (nat_list_eqb _ _) eqn:E.
    + apply nat_list_eqb_eq in E. apply prefix_firstn in E. exfalso. apply (N u); [left; auto|auto].
    + apply IH; intros w Hw; [apply Hwf; right; auto|apply N; right; auto].
Qed.

Lemma get_dims_none {C} (ds : dataset C) shape :
  (forall u, In u (ds_vars ds) -> length (v_dims u) = length (v_shape u)) ->
  (forall u, In u (ds_vars ds) -> ~ is_prefix shape (v_shape u)) -> get_dims (ds_vars ds) shape = None.
Proof.
  intros Hwf N. induction (ds_vars ds) as [|u b IH]; cbn; [reflexivity|].
  rewrite get_dims_var_spec by (apply Hwf; left; auto).
  destruct (nat_list_eqb _ _) eqn:E.
  - apply nat_list_eqb_eq in E. apply prefix_firstn in E. exfalso. apply (N u); [left; auto|auto].
  - apply IH; intros w Hw; [apply Hwf; right; auto|apply N; right; auto].
Qed.

Lemma get_dims_nil vars : match get_dims vars [] with None | Some [] => True | _ => False end.
Proof.
  induction vars as [|v r IH]; cbn; auto.
  destruct (length (v_shape v) + 1) eqn:E; cbn; auto. 
Qed.

Lemma size_of_map size d dims : In d dims -> size_of d dims (map size dims) = Some (size d).
Proof.
  induction dims as [|e dims IH]; intros []; cbn.
  - subst. rewrite String.eqb_refl. reflexivity.
  - destruct (String.eqb d e) eqn:E; [apply String.eqb_eq in E; congruence|auto].
Qed.

Lemma reference_fits {V C} size (ds : dataset C) (a : ndarray V) v :
  well_formed size ds -> reference ds (nd_shape a) v ->
  fits (ds_coords ds) (firstn (length (nd_shape a)) (v_dims v)) a.
Proof.
  intros (W1 & W2 & W3) (b & r & E & P & N).
  assert (Hin : In v (ds_vars ds)) by (rewrite E; apply in_or_app; right; left; auto).
  apply prefix_firstn in P. rewrite (W1 v Hin), firstn_map in P.
  split.
  - apply (f_equal (@length nat)) in P. rewrite map_length in P. auto.
  - intros c Hc Hn. pose proof (W2 c Hc) as Hs.
    assert (Hd : c_dims c = [c_name c]).
    { apply (W3 c v); auto. revert Hn. rewrite <- (firstn_skipn (length (nd_shape a)) (v_dims v)) at 2. intros; apply in_or_app; auto. }
    rewrite Hs, Hd. cbn. split; [reflexivity|]. intros d n [[= <- <-]|[]].
    apply size_of_axis. rewrite P at 2. apply size_of_map. auto.
Qed.

Lemma wf_len {C} size (ds : dataset C) : well_formed size ds ->
  forall u, In u (ds_vars ds) -> length (v_dims u) = length (v_shape u).
Proof. intros (W & _) u Hu. rewrite (W u Hu), map_length. reflexivity. Qed.

Lemma auto_format_dims {V C} size dim_name (ds : dataset C) (a : ndarray V) v :
  well_formed size ds -> reference ds (nd_shape a) v -> nd_shape a <> [] ->
  let dims := firstn (length (nd_shape a)) (v_dims v) in
  let da := labelled_by (ds_coords ds) dims a in
  auto_format_with_shape dim_name ds a FDataArray = Some (Labelled da) /\
  (forall d, dims = [d] -> auto_format_with_shape dim_name ds a FDataFrame = Some (Tabular (Series da [d]))) /\
  (forall d e r, dims = d :: e :: r ->
     auto_format_with_shape dim_name ds a FDataFrame = Some (Tabular (Frame da [d] (e :: r)))) /\
  auto_format_with_shape dim_name ds a FOther = None.
Proof.
  intros W R Hne dims da. pose proof (reference_fits _ _ _ _ W R) as F. fold dims in F.
  assert (D : to_dataarray (ds_coords ds) a (DArray dims) = Some da) by (apply to_dataarray_array; auto).
  assert (G : get_dims (ds_vars ds) (nd_shape a) = Some dims) by (eapply get_dims_reference; eauto using wf_len).
  unfold auto_format_with_shape. rewrite G.
  destruct dims as [|d dl] eqn:Ed.
  { exfalso. destruct F as [F _]. destruct (nd_shape a); [tauto|discriminate]. }
  assert (E : treedef_eqb (tree_def (Leaf a)) (tree_def (Node (map (fun s => Leaf (DName s)) (d :: dl)))) = false) by reflexivity.
  split; [|split; [|split]].
  - unfold format_dataarray, format_tree. rewrite E. unfold format_whole.
    change (whole_dims (Node (map (fun s => Leaf (DName s)) (d :: dl)))) with
      (match names_of (map (fun s => Leaf (DName s)) (d :: dl)) with Some l => Some (DArray l) | None => None end).
    rewrite names_of_map. cbn [tree_leaves map_opt]. rewrite D. reflexivity.
  - intros d' [= <- ->]. unfold format_dataframe. rewrite E. unfold format_whole.
    cbn -[to_dataframe]. unfold to_dataframe. rewrite D. reflexivity.
  - intros d' e r [= <- ->]. unfold format_dataframe. rewrite E. unfold format_whole.
    cbn -[to_dataframe]. rewrite names_of_map. unfold to_dataframe. rewrite D. cbn.
    destruct r; reflexivity.
  - reflexivity.
Qed.

Lemma auto_format_plain {V C} size dim_name (ds : dataset C) (a : ndarray V) fmt :
  well_formed size ds ->
  nd_shape a = [] \/ (forall u, In u (ds_vars ds) -> ~ is_prefix (nd_shape a) (v_shape u)) ->
  auto_format_with_shape dim_name ds a fmt = Some (Plain a).
Proof.
  intros W [E|N]; unfold auto_format_with_shape.
  - rewrite E. pose proof (get_dims_nil (ds_vars ds)) as H. destruct (get_dims _ _) as [[|]|]; tauto.
  - rewrite get_dims_none by eauto using wf_len. reflexivity.
Qed.

Lemma prefix_dec (p l : list nat) : {is_prefix p l} + {~ is_prefix p l}.
Proof.
  destruct (nat_list_eqb p (firstn (length p) l)) eqn:E.
  - left. apply prefix_firstn, nat_list_eqb_eq, E.
  - right. intros H. apply prefix_firstn, nat_list_eqb_eq in H. congruence.
Qed.

(** Exactly one of the two cases applies. *)
Lemma reference_or_none {C} (ds : dataset C) shape :
  (exists v, reference ds shape v) \/ (forall u, In u (ds_vars ds) -> ~ is_prefix shape (v_shape u)).
Proof.
  unfold reference. induction (ds_vars ds) as [|v r IH].
  - right. intros u [].
  - destruct (prefix_dec shape (v_shape v)) as [P|P].
    + left. exists v, [], r. split; [auto|]. split; [exact P|intros u []].
    + destruct IH as [(w & b & a & E & H1 & H2)|N].
      * left. exists w, (v :: b), a. split; [cbn; congruence|]. split; auto.
        intros u [<-|Hu]; auto.
      * right. intros u [<-|Hu]; auto.
Qed.

Lemma auto_format_iff {V C} size dim_name (ds : dataset C) (a : ndarray V) r :
  well_formed size ds ->
  auto_format_with_shape dim_name ds a FDataArray = Some r <->
  (exists v, nd_shape a <> [] /\ reference ds (nd_shape a) v /\
     r = Labelled (labelled_by (ds_coords ds) (firstn (length (nd_shape a)) (v_dims v)) a)) \/
  ((nd_shape a = [] \/ (forall u, In u (ds_vars ds) -> ~ is_prefix (nd_shape a) (v_shape u))) /\ r = Plain a).
Proof.
  intros W.
  destruct (list_eq_dec Nat.eq_dec (nd_shape a) []) as [E|E].
  - rewrite (auto_format_plain _ _ _ _ _ W) by auto. split; [intros [= <-]; auto|].
    intros [(v & N & _)|[_ ->]]; [tauto|auto].
  - destruct (reference_or_none ds (nd_shape a)) as [[v R]|N].
    + pose proof (auto_format_dims _ dim_name _ _ _ W R E) as (H & _). rewrite H. split.
      * intros [= <-]. left. exists v. auto.
      * intros [(w & _ & R' & ->)|[[E'|N] _]]; [ | exfalso; tauto | ].
        -- pose proof (auto_format_dims _ dim_name _ _ _ W R' E) as (H' & _). congruence.
        -- exfalso. destruct R as (b & q & E1 & P & _). apply (N v); auto. rewrite E1. apply in_or_app. right; left; auto.
    + rewrite (auto_format_plain _ _ _ _ _ W) by auto. split; [intros [= <-]; auto|].
      intros [(v & _ & (b & q & E1 & P & _) & _)|[_ ->]]; [|auto].
      exfalso. apply (N v); auto. rewrite E1. apply in_or_app. right; left; auto.
Qed.

Lemma tree_auto_format_iff {V C} dim_name (ds : dataset C) (t : tree (ndarray V)) fmt r :
  tree_auto_format_with_shape dim_name ds t fmt = Some r <->
  same_structure t r /\
  Forall2 (fun a b => auto_format_with_shape dim_name ds a fmt = Some b) (tree_leaves t) (tree_leaves r).
Proof.
  unfold tree_auto_format_with_shape. destruct (map_opt _ _) as [l|] eqn:E.
  - apply map_opt_Forall2 in E. rewrite unflatten_iff by (symmetry; eapply F2len; eauto).
    split; intros [H1 H2]; split; auto; [rewrite H2; auto|].
    revert H2. generalize (tree_leaves r). revert E. generalize (tree_leaves t). clear.
    intros l1 E. induction E; inversion 1; subst; auto. f_equal; [congruence|auto].
  - split; [discriminate|]. intros [_ H]. apply map_opt_Forall2 in H. congruence.
Qed.

(** Tables and series. *)
Lemma to_dataframe_array {V C} (cs : list (coord C)) (a : ndarray V) (l : list string) levels r :
  to_dataframe cs a (DArray l) levels = Some r <-> fits cs l a /\ table levels (labelled_by cs l a) = Some r.
Proof.
  unfold to_dataframe. destruct (to_dataarray cs a (DArray l)) as [da|] eqn:E.
  - apply to_dataarray_array in E. destruct E as [F ->].
    unfold table. destruct (da_dims _) as [|x [|y [|z q]]]; try tauto. cbv zeta.
    destruct (le_lt_dec _ _) as [H|H]; [apply Nat.leb_le in H|apply Nat.leb_gt in H]; rewrite H; tauto.
  - split; [discriminate|]. intros [F _].
    assert (to_dataarray cs a (DArray l) = Some (labelled_by cs l a)) by (apply to_dataarray_array; auto). congruence.
Qed.
Lemma to_series_array {V C} (cs : list (coord C)) (a : ndarray V) (l : list string) r :
  to_series cs a (DArray l) = Some r <-> fits cs l a /\ l <> [] /\ r = Series (labelled_by cs l a) l.
Proof.
  unfold to_series. destruct (to_dataarray cs a (DArray l)) as [da|] eqn:E.
  - apply to_dataarray_array in E. destruct E as [F ->]. cbn.
    destruct l; split; intros H; try discriminate; [tauto| |].
    + injection H as <-. split; [exact F|]. split; [intros X; discriminate X|reflexivity].
    + destruct H as (_ & _ & ->). reflexivity.
  - split; [discriminate|]. intros [F _].
    assert (to_dataarray cs a (DArray l) = Some (labelled_by cs l a)) by (apply to_dataarray_array; auto). congruence.
Qed.
Lemma F2_iff {A B} (P Q : A -> B -> Prop) l m : (forall a b, P a b <-> Q a b) -> Forall2 P l m <-> Forall2 Q l m.
Proof. intros H. split; induction 1; constructor; auto; apply H; auto. Qed.
Lemma zipped_DArray {A R} (P : A -> dims_leaf -> R -> Prop) (Q : A -> list string -> R -> Prop) la lb lr :
  (forall a l r, P a (DArray l) r <-> Q a l r) -> zipped P la (map DArray lb) lr <-> zipped Q la lb lr.
Proof.
  intros H. revert la lr. induction lb as [|b lb IH]; intros la lr.
  - split; inversion 1; constructor.
  - split; inversion 1 as [|? ? ? ? ? ? H1 H2]; subst; constructor; try (apply IH; auto); apply H; auto.
Qed.
Lemma not_same_eqb {A B} (t : tree A) (u : tree B) : ~ same_structure t u -> treedef_eqb (tree_def t) (tree_def u) = false.
Proof. intros N. destruct (treedef_eqb _ _) eqn:E; auto. apply treedef_eqb_eq in E. tauto. Qed.
Lemma whole_names dims : whole_dims (names_tree dims) = Some (DArray dims).
Proof. unfold names_tree, whole_dims. rewrite names_of_map. reflexivity. Qed.

Lemma format_dataframe_common {V C} dim_name (cs : list (coord C)) (data : tree (ndarray V)) (dims : list string) levels r :
  1 <= levels -> dims <> [] -> ~ same_structure data (names_tree dims) ->
  format_dataframe dim_name cs data (names_tree dims) levels = Some r <->
  same_structure data r /\
  Forall2 (fun a b => fits cs dims a /\ table levels (labelled_by cs dims a) = Some b) (tree_leaves data) (tree_leaves r).
Proof.
  intros _ Hd N. unfold format_dataframe. rewrite (not_same_eqb _ _ N).
  replace (match names_tree dims with Node [] => _ | _ => _ end) with (names_tree dims) by (destruct dims; [tauto|reflexivity]).
  rewrite (format_whole_iff _ _ _ _ _ (whole_names dims)).
  rewrite (F2_iff _ _ _ _ (fun a b => to_dataframe_array cs a dims levels b)). reflexivity.
Qed.
Lemma format_dataframe_generated {V C} dim_name (cs : list (coord C)) (data : tree (ndarray V)) a0 rest levels r :
  1 <= levels -> tree_leaves data = a0 :: rest ->
  format_dataframe dim_name cs data (Node []) levels = Some r <->
  same_structure data r /\
  let dims := map dim_name (seq 0 (length (nd_shape a0))) in
  Forall2 (fun a b => fits cs dims a /\ table levels (labelled_by cs dims a) = Some b) (tree_leaves data) (tree_leaves r).
Proof.
  intros _ E. unfold format_dataframe.
  assert (N : ~ same_structure data (@Node dims_leaf [])).
  { intros H. apply same_structure_len in H. rewrite E in H. discriminate. }
  rewrite (not_same_eqb _ _ N). rewrite E.
  assert (D : forall n i, dim_names dim_name n i = map dim_name (seq i n)).
  { induction n; cbn; intros; f_equal; auto. }
  rewrite D. fold (names_tree (map dim_name (seq 0 (length (nd_shape a0))))).
  rewrite (format_whole_iff _ _ _ _ _ (whole_names _)). rewrite E. cbv zeta.
  rewrite (F2_iff _ _ _ _ (fun a b => to_dataframe_array cs a _ levels b)). reflexivity.
Qed.
Lemma format_dataframe_each {V C} dim_name (cs : list (coord C)) (data : tree (ndarray V)) (fd : tree (list string)) levels r :
  1 <= levels -> same_structure data fd ->
  format_dataframe dim_name cs data (tree_map DArray fd) levels = Some r <->
  same_structure data r /\
  zipped (fun a dims b => fits cs dims a /\ table levels (labelled_by cs dims a) = Some b)
         (tree_leaves data) (tree_leaves fd) (tree_leaves r).
Proof.
  intros _ Hs. unfold format_dataframe.
  assert (Hs' : same_structure data (tree_map DArray fd)) by (unfold same_structure in *; rewrite tree_def_map; auto).
  pose proof Hs' as E. apply treedef_eqb_eq in E. rewrite E, (format_zip_iff _ _ _ _ Hs'). rewrite tree_leaves_map.
  rewrite (zipped_DArray _ _ _ _ _ (fun a l b => to_dataframe_array cs a l levels b)). reflexivity.
Qed.
Lemma format_series_common {V C} (cs : list (coord C)) (data : tree (ndarray V)) (dims : list string) r :
  ~ same_structure data (names_tree dims) ->
  format_series cs data (names_tree dims) = Some r <->
  same_structure data r /\
  Forall2 (fun a b => fits cs dims a /\ dims <> [] /\ b = Series (labelled_by cs dims a) dims)
          (tree_leaves data) (tree_leaves r).
Proof.
  intros N. unfold format_series, format_tree. rewrite (not_same_eqb _ _ N).
  rewrite (format_whole_iff _ _ _ _ _ (whole_names dims)).
  rewrite (F2_iff _ _ _ _ (fun a b => to_series_array cs a dims b)). reflexivity.
Qed.
Lemma format_series_each {V C} (cs : list (coord C)) (data : tree (ndarray V)) (fd : tree (list string)) r :
  same_structure data fd ->
  format_series cs data (tree_map DArray fd) = Some r <->
  same_structure data r /\
  zipped (fun a dims b => fits cs dims a /\ dims <> [] /\ b = Series (labelled_by cs dims a) dims)
         (tree_leaves data) (tree_leaves fd) (tree_leaves r).
Proof.
  intros Hs. unfold format_series, format_tree.
  assert (Hs' : same_structure data (tree_map DArray fd)) by (unfold same_structure in *; rewrite tree_def_map; auto).
  pose proof Hs' as E. apply treedef_eqb_eq in E. rewrite E, (format_zip_iff _ _ _ _ Hs'). rewrite tree_leaves_map.
  rewrite (zipped_DArray _ _ _ _ _ (fun a l b => to_series_array cs a l b)). reflexivity.
Qed.
