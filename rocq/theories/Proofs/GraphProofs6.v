(** The hierarchy of a graph, as the user gets it. *)
From Coq Require Import String Ascii List Bool Arith Lia Permutation.
From Verif Require Import Model.FlaxOptim Model.Graph Spec.GraphSpec Proofs.FlaxOptimProofs Proofs.GraphProofs Proofs.GraphProofs2 Proofs.GraphProofs3 Proofs.GraphProofs4 Proofs.GraphProofs5.
From Verif Require Model.Debug.
Import ListNotations.
Local Open Scope list_scope.

Lemma usual_good nodes : usual_ids nodes -> good_nodes nodes /\ (forall x, In x (map fst nodes) -> String.prefix "cluster_" x = false).
Proof.
  intros [N H]. split; [split; [exact N|]|].
  - intros I. apply H in I. destruct I as [I _]. congruence.
  - intros x I. destruct (String.prefix "cluster_" x) eqn:P; [|reflexivity]. exfalso. apply (proj2 (H x I)). apply prefix_iff in P. exact P.
Qed.
Lemma extract_types nodes x n : good_nodes nodes -> In (x, n) (extract_hierarchy nodes) -> no_underscore (h_type n).
Proof. intros G I. apply extract_in in I; [|exact G]. destruct I as (m & _ & ->). apply classify_no_underscore. Qed.
Lemma extract_forest_rank nodes : usual_ids nodes -> forest rank (extract_hierarchy nodes).
Proof.
  intros U. destruct (usual_good nodes U) as [G P]. apply (forest_rank _ rank _ (extract_forest nodes G)). intros x n p I E L.
  assert (In x (map fst nodes)) as Ix. { rewrite <- (extract_ids nodes G). apply in_map_iff. exists (x, n). auto. }
  assert (In p (map fst nodes)) as Ip. { rewrite <- (extract_ids nodes G). apply (f_parent _ _ (extract_forest nodes G) x n p I E). }
  unfold rank. rewrite (P x Ix), (P p Ip). exact L.
Qed.
Definition before_levels (cluster : bool) (min : nat) (nodes : list (string * node)) : hierarchy :=
  if cluster then auto_cluster min (extract_hierarchy nodes) else extract_hierarchy nodes.
Lemma before_levels_forest cluster min nodes : usual_ids nodes -> forest rank (before_levels cluster min nodes).
Proof.
  intros U. destruct (usual_good nodes U) as [G P]. unfold before_levels. destruct cluster; [|apply extract_forest_rank; exact U].
  apply cluster_forest; [|intros x n I; eapply extract_types; eassumption|apply extract_forest_rank; exact U].
  rewrite (extract_ids nodes G). exact P.
Qed.

Lemma level_loop_mono fuel : forall q h lv r, level_loop fuel q h lv = Some r -> forall fuel', fuel <= fuel' -> level_loop fuel' q h lv = Some r.
Proof.
  induction fuel as [|fuel IH]; intros [|[x l] q] h lv r E fuel' L; cbn [level_loop] in E.
  - destruct fuel'; exact E.
  - discriminate E.
  - destruct fuel'; exact E.
  - destruct fuel' as [|fuel']; [lia|]. cbn [level_loop]. destruct (sget x h); eapply IH; try exact E; lia.
Qed.

(** the analysis always ends, and this is what it returns *)
Lemma analyze_result cluster min nodes : usual_ids nodes ->
  exists N m lv, let h0 := before_levels cluster min nodes in
    layer h0 m = [] /\ (forall k, k < m -> layer h0 k <> []) /\ (forall x, In x (map fst h0) -> depth_in h0 x (lv x)) /\
    (forall fuel, N <= fuel -> analyze_hierarchy fuel cluster min nodes = Some (levelled h0 lv, map (fun j => (j, layer h0 j)) (seq 0 m))).
Proof.
  intros U. destruct (assign_levels_spec rank (before_levels cluster min nodes) (before_levels_forest cluster min nodes U)) as (N & m & lv & A & B & C & D).
  exists N, m, lv. cbv zeta. auto.
Qed.
Lemma analyze_unique fuel fuel' cluster min nodes r r' :
  analyze_hierarchy fuel cluster min nodes = Some r -> analyze_hierarchy fuel' cluster min nodes = Some r' -> r = r'.
Proof.
  unfold analyze_hierarchy, assign_levels. intros E E'. assert (X : Some r = Some r'); [|congruence].
  rewrite <- (level_loop_mono _ _ _ _ _ E (max fuel fuel') (Nat.le_max_l _ _)). apply (level_loop_mono _ _ _ _ _ E' (max fuel fuel') (Nat.le_max_r _ _)).
Qed.
Lemma analyze_inv fuel cluster min nodes h levels : usual_ids nodes -> analyze_hierarchy fuel cluster min nodes = Some (h, levels) ->
  exists m lv, let h0 := before_levels cluster min nodes in
    h = levelled h0 lv /\ levels = map (fun j => (j, layer h0 j)) (seq 0 m) /\
    layer h0 m = [] /\ (forall k, k < m -> layer h0 k <> []) /\ (forall x, In x (map fst h0) -> depth_in h0 x (lv x)).
Proof.
  intros U E. destruct (analyze_result cluster min nodes U) as (N & m & lv & H). cbv zeta in H. destruct H as (A & B & C & D).
  pose proof (analyze_unique _ _ _ _ _ _ _ E (D N (le_n N))) as X. exists m, lv. cbv zeta.
  assert (h = levelled (before_levels cluster min nodes) lv) by congruence.
  assert (levels = map (fun j => (j, layer (before_levels cluster min nodes) j)) (seq 0 m)) by congruence. auto.
Qed.

Lemma analyze_total cluster min nodes : usual_ids nodes ->
  exists N r, forall fuel, N <= fuel -> analyze_hierarchy fuel cluster min nodes = Some r.
Proof. intros U. destruct (analyze_result cluster min nodes U) as (N & m & lv & H). cbv zeta in H. exists N. eexists. apply H. Qed.

(** ** structure *)
Lemma analyze_structure fuel cluster min nodes h levels : usual_ids nodes -> analyze_hierarchy fuel cluster min nodes = Some (h, levels) ->
  NoDup (map fst h) /\
  forall x n, In (x, n) h -> depth_in h x (h_level n) /\ h_children n = ids_where (has_parent x) h /\
                             (forall p, h_parent n = Some p -> In p (map fst h)).
Proof.
  intros U E. destruct (analyze_inv _ _ _ _ _ _ U E) as (m & lv & H). cbv zeta in H. destruct H as (-> & _ & _ & _ & C).
  pose proof (before_levels_forest cluster min nodes U) as F. set (h0 := before_levels cluster min nodes) in *.
  split; [unfold levelled; rewrite remap_ids; exact (f_nodup _ _ F)|]. intros x n I. apply levelled_in in I. destruct I as (k & I & ->).
  cbn [set_level h_level h_children h_parent]. split; [|split].
  - apply levelled_depth. apply C. apply in_map_iff. exists (x, k). auto.
  - rewrite (f_children _ _ F x k I). unfold levelled. symmetry. apply ids_where_remap_same. reflexivity.
  - intros p P. unfold levelled. rewrite remap_ids. apply (f_parent _ _ F x k p I P).
Qed.
Lemma analyze_levels fuel cluster min nodes h levels : usual_ids nodes -> analyze_hierarchy fuel cluster min nodes = Some (h, levels) ->
  NoDup (map fst levels) /\
  (forall k l, In (k, l) levels -> l <> [] /\ Permutation l (ids_where (fun n => Nat.eqb (h_level n) k) h)) /\
  (forall x n, In (x, n) h -> In (h_level n) (map fst levels) /\ h_level n <= max_level levels) /\
  (nodes <> [] -> exists x n, In (x, n) h /\ h_level n = max_level levels).
Proof.
  intros U E. destruct (analyze_inv _ _ _ _ _ _ U E) as (m & lv & H). cbv zeta in H. destruct H as (Eh & El & Em & Nm & C).
  pose proof (before_levels_forest cluster min nodes U) as F. set (h0 := before_levels cluster min nodes) in *.
  assert (K : map fst levels = seq 0 m) by (rewrite El, map_map; cbn [fst]; apply map_id).
  assert (W : forall k, Permutation (layer h0 k) (ids_where (fun n => Nat.eqb (h_level n) k) h)).
  { intros k. apply NoDup_Permutation.
    - apply (layer_nodup rank h0 F).
    - apply ids_where_nodup. rewrite Eh. unfold levelled. rewrite remap_ids. exact (f_nodup _ _ F).
    - intros x. rewrite layer_depth, ids_where_in. split.
      + intros D. pose proof (depth_id h0 x k D) as I. pose proof (C x I) as D'. apply in_map_iff in I. destruct I as ([y n] & Ey & I). cbn in Ey. subst y.
        exists (set_level (lv x) n). split; [rewrite Eh; apply levelled_in; exists n; auto|]. cbn. apply Nat.eqb_eq. exact (depth_unique rank h0 F x _ D' _ D).
      + intros (n & I & L). apply Nat.eqb_eq in L. rewrite Eh in I. apply levelled_in in I. destruct I as (n0 & I & ->). cbn in L. subst k.
        apply C. apply in_map_iff. exists (x, n0). auto. }
  assert (LM : forall x n, In (x, n) h -> h_level n < m).
  { intros x n I. destruct (Nat.lt_ge_cases (h_level n) m) as [L|L]; [exact L|]. exfalso.
    assert (J : In x (layer h0 (h_level n))). { apply (Permutation_in _ (Permutation_sym (W (h_level n)))). apply ids_where_in. exists n. split; [exact I|apply Nat.eqb_refl]. }
    assert (A : forall e, layer h0 (m + e) = []). { induction e as [|e IHe]; [rewrite Nat.add_0_r; exact Em|]. rewrite Nat.add_succ_r. apply layer_empty_after. exact IHe. }
    replace (h_level n) with (m + (h_level n - m)) in J by lia. rewrite A in J. exact J. }
  assert (MX : max_level levels = m - 1).
  { unfold max_level. rewrite K. clear. destruct m as [|m]; [reflexivity|]. rewrite seq_S. rewrite list_max_app. cbn [plus list_max fold_right].
    assert (list_max (seq 0 m) <= m). { apply list_max_le. apply Forall_forall. intros x I. apply in_seq in I. lia. } unfold list_max in *. cbn. lia. }
  split; [rewrite K; apply seq_NoDup|]. split; [|split].
  - intros k l I. rewrite El in I. apply in_map_iff in I. destruct I as (j & Ej & I). injection Ej as <- <-. apply in_seq in I. split; [apply Nm; lia|apply W].
  - intros x n I. apply LM in I. rewrite K, MX. split; [apply in_seq; lia|lia].
  - intros Nn. assert (m <> 0) as Nz.
    { intros ->. apply Nn. assert (A : map fst h0 = []).
      { destruct (map fst h0) as [|x l] eqn:Eq; [reflexivity|]. exfalso. assert (I : In x (map fst h0)) by (rewrite Eq; left; reflexivity).
        pose proof I as I'. apply in_map_iff in I'. destruct I' as ([y n] & Ey & I'). cbn in Ey. subst y.
        assert (J : In (x, set_level (lv x) n) h) by (rewrite Eh; apply levelled_in; exists n; auto). apply LM in J. lia. }
      assert (B : forall x, In x (map fst nodes) -> In x (map fst h0)).
      { intros x I. destruct (usual_good nodes U) as [G P]. unfold h0, before_levels. destruct cluster; [|rewrite (extract_ids nodes G); exact I].
        destruct (auto_cluster_spec min (extract_hierarchy nodes)) as (Z & _).
        - rewrite (extract_ids nodes G). apply G.
        - rewrite (extract_ids nodes G). exact P.
        - intros y n J. eapply extract_types; eassumption.
        - rewrite Z. unfold clustered. rewrite map_app, remap_ids. apply in_or_app. left. rewrite (extract_ids nodes G). exact I. }
      destruct nodes as [|[a b] nodes]; [reflexivity|]. exfalso. specialize (B a (or_introl eq_refl)). rewrite A in B. exact B. }
    destruct (layer h0 (m - 1)) as [|x l] eqn:El'; [exfalso; apply (Nm (m - 1)); [lia|exact El']|].
    assert (I : In x (ids_where (fun n => Nat.eqb (h_level n) (m - 1)) h)) by (apply (Permutation_in _ (W (m - 1))); rewrite El'; left; reflexivity).
    apply ids_where_in in I. destruct I as (n & I & L). apply Nat.eqb_eq in L. exists x, n. rewrite MX. auto.
Qed.

(** ** edges and drawing *)
Lemma hierarchy_edges_spec h : NoDup (map fst h) -> (forall x n, In (x, n) h -> h_children n = ids_where (has_parent x) h) ->
  NoDup (hierarchy_edges h) /\ (forall p c, In (p, c) (hierarchy_edges h) <-> In p (map fst h) /\ parent_in h c p) /\ graphviz_edges h = hierarchy_edges h.
Proof.
  intros N C. split; [|split].
  - unfold hierarchy_edges. apply NoDup_flat_map.
    + apply NoDup_fst. exact N.
    + intros [x n] I. cbn [fst snd]. rewrite (C x n I). apply FinFun.Injective_map_NoDup; [intros a b E; congruence|]. apply ids_where_nodup. exact N.
    + intros [x n] [y n'] [p c] I J H H'. cbn [fst snd] in *. apply in_map_iff in H. apply in_map_iff in H'. destruct H as (c1 & E1 & _), H' as (c2 & E2 & _).
      assert (x = y) by congruence. subst y. rewrite (nodup_in_eq _ _ _ _ N I J). reflexivity.
  - intros p c. unfold hierarchy_edges. rewrite in_flat_map. split.
    + intros ([x n] & I & H). cbn [fst snd] in H. apply in_map_iff in H. destruct H as (c' & E & H). injection E as -> ->.
      rewrite (C p n I) in H. split; [apply in_map_iff; exists (p, n); auto|]. apply (kids_in h). exact H.
    + intros [I P]. apply in_map_iff in I. destruct I as ([x n] & E & I). cbn in E. subst x. exists (p, n). split; [exact I|]. cbn [fst snd].
      apply in_map_iff. exists c. split; [reflexivity|]. rewrite (C p n I). apply (kids_in h). exact P.
  - unfold graphviz_edges, hierarchy_edges. rewrite !flat_map_concat_map. f_equal. apply map_ext_in. intros [x n] I. cbn [fst snd]. f_equal.
    rewrite (C x n I). rewrite <- (map_id (ids_where (has_parent x) h)) at 2.
    assert (A : forall l : list string, (forall c, In c l -> In c (map fst h)) -> filter (fun c => mem_key c h) l = map (fun c => c) l).
    { induction l as [|c l IH]; cbn; intros H; [reflexivity|]. rewrite (proj2 (mem_key_in c h) (H c (or_introl eq_refl))). f_equal. apply IH. intros d J. apply H. right. exact J. }
    apply A. intros c J. apply ids_where_in in J. destruct J as (k & J & _). apply in_map_iff. exists (c, k). auto.
Qed.
Lemma analyze_edges fuel cluster min nodes h levels : usual_ids nodes -> analyze_hierarchy fuel cluster min nodes = Some (h, levels) ->
  NoDup (hierarchy_edges h) /\ (forall p c, In (p, c) (hierarchy_edges h) <-> parent_in h c p) /\ graphviz_edges h = hierarchy_edges h.
Proof.
  intros U E. destruct (analyze_structure _ _ _ _ _ _ U E) as [N S].
  destruct (hierarchy_edges_spec h N) as (A & B & C). { intros x n I. apply (S x n I). }
  split; [exact A|]. split; [|exact C]. intros p c. rewrite B. split; [tauto|]. intros P. split; [|exact P]. destruct P as (n & I & P). apply (S c n I). exact P.
Qed.
Lemma analyze_drawn fuel cluster min nodes h levels : usual_ids nodes -> analyze_hierarchy fuel cluster min nodes = Some (h, levels) ->
  exists N, forall fuel', N <= fuel' -> exists out, drawn fuel' h None 0 = Some out /\ Permutation out (map fst h).
Proof.
  intros U E. destruct (analyze_inv _ _ _ _ _ _ U E) as (m & lv & H). cbv zeta in H. destruct H as (-> & _ & _ & _ & C).
  apply (drawn_all rank _ lv (before_levels_forest cluster min nodes U) C).
Qed.

(** ** the classes *)
Lemma classify_class t : class_of t (classify t).
Proof.
  unfold class_of, classify. cbv zeta.
  assert (K : forall w, Debug.contains w (Debug.lower t) = false -> ~ word_in w (Debug.lower t)).
  { intros w E H. apply contains_iff in H. congruence. }
  destruct (Debug.contains "ewma" (Debug.lower t)) eqn:E1; [left; exists [], ["buffer"; "state"; "function"; "module"]%string; split; [reflexivity|]; split; [apply contains_iff; exact E1|intros w []]|].
  destruct (Debug.contains "buffer" (Debug.lower t)) eqn:E2; [left; exists ["ewma"]%string, ["state"; "function"; "module"]%string; split; [reflexivity|]; split; [apply contains_iff; exact E2|intros w [<-|[]]; apply K; exact E1]|].
  destruct (Debug.contains "state" (Debug.lower t)) eqn:E3; [left; exists ["ewma"; "buffer"]%string, ["function"; "module"]%string; split; [reflexivity|]; split; [apply contains_iff; exact E3|intros w [<-|[<-|[]]]; apply K; assumption]|].
  destruct (Debug.contains "function" (Debug.lower t)) eqn:E4; [left; exists ["ewma"; "buffer"; "state"]%string, ["module"]%string; split; [reflexivity|]; split; [apply contains_iff; exact E4|intros w [<-|[<-|[<-|[]]]]; apply K; assumption]|].
  destruct (Debug.contains "module" (Debug.lower t)) eqn:E5; [left; exists ["ewma"; "buffer"; "state"; "function"]%string, (@nil string); split; [reflexivity|]; split; [apply contains_iff; exact E5|intros w [<-|[<-|[<-|[<-|[]]]]]; apply K; assumption]|].
  right. split; [reflexivity|]. intros w [<-|[<-|[<-|[<-|[<-|[]]]]]]; apply K; assumption.
Qed.
Lemma first_unique {A} (P : A -> Prop) (words : list A) c c' b a b' a' : NoDup words ->
  words = b ++ c :: a -> P c -> (forall w, In w b -> ~ P w) -> words = b' ++ c' :: a' -> P c' -> (forall w, In w b' -> ~ P w) -> c = c'.
Proof.
  intros _ E Pc H. revert words E b' a'. induction b as [|x b IH]; intros words -> b' a' E' Pc' H'.
  - destruct b' as [|y b']; cbn in E'; [congruence|]. injection E' as -> _. exfalso. apply (H' y); [left; reflexivity|exact Pc].
  - destruct b' as [|y b']; cbn in E'.
    + injection E' as -> _. exfalso. apply (H c'); [left; reflexivity|exact Pc'].
    + injection E' as -> E'. eapply (IH (fun w I => H w (or_intror I)) _ eq_refl b' a' E' Pc'). intros w I. apply H'. right. exact I.
Qed.
Lemma class_unique t c c' : class_of t c -> class_of t c' -> c = c'.
Proof.
  unfold class_of. cbv zeta. intros [(b & a & E & W & H)|[-> H]] [(b' & a' & E' & W' & H')|[-> H']].
  - eapply (first_unique (fun w => word_in w (Debug.lower t)) _ c c' b a b' a'); [|exact E|exact W|exact H|exact E'|exact W'|exact H'].
    repeat constructor; cbn; intuition discriminate.
  - exfalso. apply (H' c); [|exact W]. rewrite E. apply in_or_app. right. left. reflexivity.
  - exfalso. apply (H c'); [|exact W']. rewrite E'. apply in_or_app. right. left. reflexivity.
  - reflexivity.
Qed.
Lemma named_none nodes x : NoDup (map fst nodes) -> (named_parent nodes x None <-> infer_parent x nodes = None).
Proof.
  intros N. pose proof (infer_parent_named nodes x N) as H. split.
  - intros [D B]. destruct (infer_parent x nodes) as [p|]; [|reflexivity]. exfalso. cbn [named_parent] in H. destruct H as [H|[_ [H _]]]; [exact (D p H)|exact (B p H)].
  - intros E. rewrite E in H. exact H.
Qed.
Lemma loose_roots nodes ty : usual_ids nodes -> loose nodes ty (ids_where (root_of ty) (extract_hierarchy nodes)).
Proof.
  intros U. destruct (usual_good nodes U) as [G P]. pose proof G as [N _]. split.
  - apply ids_where_nodup. rewrite (extract_ids nodes G). exact N.
  - intros x. rewrite ids_where_in. split.
    + intros (n & I & R). apply extract_in in I; [|exact G]. destruct I as (m & I & ->). unfold root_of in R. cbn in R. destruct (infer_parent x nodes) eqn:E; [discriminate|].
      apply String.eqb_eq in R. subst ty. exists m. split; [exact I|]. split; [apply classify_class|]. apply named_none; [exact N|exact E].
    + intros (m & I & Cl & Np). apply named_none in Np; [|exact N]. eexists. split; [apply extract_in; [exact G|]; exists m; split; [exact I|reflexivity]|].
      unfold root_of. cbn [h_parent h_type]. rewrite Np. apply String.eqb_eq. apply (class_unique (n_type m)); [apply classify_class|exact Cl].
Qed.

(** ** without clusters *)
Lemma analyze_plain fuel min nodes h levels : usual_ids nodes -> analyze_hierarchy fuel false min nodes = Some (h, levels) ->
  map fst h = map fst nodes /\
  forall x n, In (x, n) h -> exists m, In (x, m) nodes /\ h_name n = n_name m /\ class_of (n_type m) (h_type n) /\ named_parent nodes x (h_parent n).
Proof.
  intros U E. destruct (usual_good nodes U) as [G P]. destruct (analyze_inv _ _ _ _ _ _ U E) as (m & lv & H). cbv zeta in H. destruct H as (-> & _).
  unfold before_levels, levelled. split; [rewrite remap_ids; apply extract_ids; exact G|]. intros x n I. apply remap_in in I. destruct I as (k & I & ->).
  apply extract_in in I; [|exact G]. destruct I as (a & I & ->). exists a. split; [exact I|]. cbn. split; [reflexivity|]. split; [apply classify_class|].
  apply infer_parent_named. apply G.
Qed.
(** ** with clusters *)
Lemma analyze_clustered fuel min nodes h levels : usual_ids nodes -> analyze_hierarchy fuel true min nodes = Some (h, levels) ->
  (forall x, In x (map fst nodes) -> In x (map fst h)) /\
  (forall x n, In (x, n) h -> In x (map fst nodes) ->
     exists m p, In (x, m) nodes /\ h_name n = n_name m /\ class_of (n_type m) (h_type n) /\ named_parent nodes x p /\
       match p with
       | Some _ => h_parent n = p
       | None => exists l, loose nodes (h_type n) l /\
                   match h_parent n with
                   | Some c => ~ In c (map fst nodes) /\ min <= length l /\
                               exists cn, In (c, cn) h /\ h_name cn = String.append (title (h_type n)) " Components" /\ h_children cn = l
                   | None => length l < min
                   end
       end) /\
  (forall c n, In (c, n) h -> ~ In c (map fst nodes) ->
     h_type n = "cluster"%string /\ h_parent n = None /\ h_children n <> [] /\ min <= length (h_children n) /\
     exists ty, loose nodes ty (h_children n) /\ h_name n = String.append (title ty) " Components").
Proof.
  intros U E. destruct (usual_good nodes U) as [G P]. destruct (analyze_inv _ _ _ _ _ _ U E) as (m & lv & H). cbv zeta in H. destruct H as (-> & _).
  unfold before_levels. set (e := extract_hierarchy nodes).
  destruct (auto_cluster_spec min e) as (Z & OK & ND).
  - unfold e. rewrite (extract_ids nodes G). apply G.
  - unfold e. rewrite (extract_ids nodes G). exact P.
  - intros y n J. eapply extract_types; eassumption.
  - rewrite Z. unfold levelled, clustered. set (cl := clusters_of min e) in *. rewrite remap_app, remap_remap.
    assert (Pc : forall d, In d cl -> String.prefix "cluster_" (fst d) = true).
    { intros d I. destruct (OK d I) as ((j & ->) & _). apply prefix_iff. unfold cluster_name. eexists. reflexivity. }
    assert (Ie : map fst e = map fst nodes) by (apply extract_ids; exact G).
    split; [|split].
    + intros x I. rewrite map_app, remap_ids. apply in_or_app. left. rewrite Ie. exact I.
    + intros x n I Ix. apply in_app_or in I. destruct I as [I|I].
      2:{ exfalso. apply remap_in in I. destruct I as (k & I & _). apply in_map_iff in I. destruct I as (d & Ed & I). unfold cluster_node in Ed.
          assert (x = fst d) by congruence. subst x. apply P in Ix. rewrite (Pc d I) in Ix. discriminate Ix. }
      apply remap_in in I. destruct I as (k & I & ->). pose proof I as I0. apply extract_in in I; [|exact G]. destruct I as (a & I & Ek).
      exists a, (infer_parent x nodes). split; [exact I|].
      assert (Hn : h_name (reparented cl x k) = h_name k) by (unfold reparented; destruct (h_parent k); [reflexivity|]; destruct (find_type cl (h_type k)); reflexivity).
      assert (Ht : h_type (reparented cl x k) = h_type k) by (unfold reparented; destruct (h_parent k); [reflexivity|]; destruct (find_type cl (h_type k)); reflexivity).
      cbn [set_level h_name h_type h_parent]. rewrite Hn, Ht. rewrite Ek at 1 2. cbn [h_name h_type].
      split; [reflexivity|]. split; [apply classify_class|]. split; [apply infer_parent_named; apply G|].
      assert (Pk : h_parent k = infer_parent x nodes) by (rewrite Ek; reflexivity). unfold reparented. rewrite Pk.
      destruct (infer_parent x nodes) as [p|] eqn:Ep; [exact Pk|]. exists (ids_where (root_of (h_type k)) e). split; [apply loose_roots; exact U|].
      assert (Ir : In x (ids_where (root_of (h_type k)) e)). { apply ids_where_in. exists k. split; [exact I0|]. unfold root_of. rewrite Pk. apply String.eqb_refl. }
      pose proof (find_type_spec min e (h_type k)) as S. fold cl in S. destruct (find_type cl (h_type k)) as [d|].
      * cbn [set_parent h_parent]. destruct S as (S1 & S2 & S3 & S4 & S5). rewrite <- S3. split; [|split; [exact S5|]].
        -- intros Y. apply P in Y. rewrite (Pc d S1) in Y. discriminate Y.
        -- eexists. split; [apply in_or_app; right; apply remap_in; exists (snd (cluster_node d)); split; [|reflexivity]; apply in_map_iff; exists d; split; [reflexivity|exact S1]|].
           cbn. rewrite S2. auto.
      * rewrite Pk. destruct S as [S|S]; [rewrite S in Ir; destruct Ir|exact S].
    + intros c n I Nc. apply in_app_or in I. destruct I as [I|I].
      * exfalso. apply Nc. rewrite <- Ie. apply remap_in in I. destruct I as (k & I & _). apply in_map_iff. exists (c, k). auto.
      * apply remap_in in I. destruct I as (k & I & ->). apply in_map_iff in I. destruct I as (d & Ed & I). unfold cluster_node in Ed. injection Ed as <- <-.
        cbn. pose proof (OK d I) as (_ & _ & Sd). pose proof I as I'. apply numbered_in in I'. destruct I' as [J L]. split; [reflexivity|]. split; [reflexivity|].
        destruct d as [nm [ty ids]]. cbn [fst snd] in *. apply type_groups_in in J. destruct J as [_ J2]. split; [exact J2|]. split; [exact L|].
        exists ty. split; [|reflexivity]. rewrite Sd. apply loose_roots. exact U.
Qed.

(** ** counts *)
Definition bump {K : Type} (eqb : K -> K -> bool) (x : K) : list (K * nat) -> list (K * nat) :=
  fix bump (d : list (K * nat)) : list (K * nat) :=
    match d with
    | [] => [(x, 1)]
    | (k, n) :: r => if eqb k x then (k, n + 1) :: r else (k, n) :: bump r
    end.
Section Count.
  Context {K : Type} (eqb : K -> K -> bool) (eqb_ok : forall a b, eqb a b = true <-> a = b) (f : hnode -> K).
  Definition tally (k : K) (l : hierarchy) : nat := length (filter (fun kv => eqb (f (snd kv)) k) l).
  Definition counted (l : hierarchy) (d : list (K * nat)) : Prop :=
    NoDup (map fst d) /\ (forall k n, In (k, n) d -> n = tally k l /\ n <> 0) /\ (forall k, tally k l <> 0 -> In k (map fst d)).
  Lemma eqb_refl' a : eqb a a = true.
  Proof using eqb_ok. apply eqb_ok. reflexivity. Qed.
  Lemma bump_keys x d k : In k (map fst (bump eqb x d)) <-> k = x \/ In k (map fst d).
  Proof using eqb_ok.
    induction d as [|[a n] d IH]; cbn; [intuition|]. destruct (eqb a x) eqn:E; cbn.
    - apply eqb_ok in E. subst a. intuition.
    - rewrite IH. intuition.
  Qed.
  Lemma bump_nodup x d : NoDup (map fst d) -> NoDup (map fst (bump eqb x d)).
  Proof using eqb_ok.
    induction d as [|[a n] d IH]; cbn; intros N; [repeat constructor; intros []|]. inversion N as [|? ? N1 N2]; subst. destruct (eqb a x) eqn:E; cbn; [exact N|].
    constructor; [|auto]. rewrite bump_keys. intros [->|I]; [|contradiction]. rewrite eqb_refl' in E. discriminate E.
  Qed.
  Lemma bump_in x d k n : NoDup (map fst d) -> In (k, n) (bump eqb x d) -> (k <> x /\ In (k, n) d) \/ (k = x /\ exists n0, In (k, n0) d /\ n = n0 + 1) \/ (k = x /\ ~ In k (map fst d) /\ n = 1).
  Proof using eqb_ok.
    induction d as [|[a j] d IH]; cbn; intros N.
    - intros [E|[]]. injection E as <- <-. right. right. auto.
    - inversion N as [|? ? N1 N2]; subst. destruct (eqb a x) eqn:E; cbn.
      + apply eqb_ok in E. subst a. intros [H|H].
        * injection H as <- <-. right. left. split; [reflexivity|]. exists j. auto.
        * left. split; [|auto]. intros ->. apply N1. apply in_map_iff. exists (x, n). auto.
      + assert (a <> x) by (intros ->; rewrite eqb_refl' in E; discriminate E). intros [H'|H'].
        * injection H' as <- <-. left. auto.
        * destruct (IH N2 H') as [[A B]|[(A & n0 & B & C)|(A & B & C)]]; [left; auto|right; left; split; [exact A|]; exists n0; auto|right; right].
          split; [exact A|]. split; [|exact C]. intros [D|D]; [congruence|contradiction].
  Qed.
  Lemma tally_snoc k l x n : tally k (l ++ [(x, n)]) = tally k l + if eqb (f n) k then 1 else 0.
  Proof using. clear. unfold tally. rewrite filter_app, app_length. cbn. destruct (eqb (f n) k); reflexivity. Qed.
  Lemma counted_step l d x n : counted l d -> counted (l ++ [(x, n)]) (bump eqb (f n) d).
  Proof using eqb_ok.
    intros (A & B & C). split; [apply bump_nodup; exact A|]. split.
    - intros k j I. rewrite tally_snoc. apply bump_in in I; [|exact A]. destruct I as [[D I]|[(-> & j0 & I & ->)|(-> & NI & ->)]].
      + destruct (eqb (f n) k) eqn:E; [apply eqb_ok in E; congruence|]. rewrite Nat.add_0_r. apply B. exact I.
      + rewrite eqb_refl'. destruct (B _ _ I) as [-> _]. lia.
      + rewrite eqb_refl'. destruct (Nat.eq_dec (tally (f n) l) 0) as [->|Z]; [lia|]. exfalso. apply NI. apply C. exact Z.
    - intros k T. rewrite tally_snoc in T. apply bump_keys. destruct (eqb (f n) k) eqn:E; [left; symmetry; apply eqb_ok; exact E|]. right. apply C. lia.
  Qed.
  Lemma count_by_spec h : counted h (count_by eqb f h).
  Proof using eqb_ok.
    unfold count_by. assert (X : forall l2 l1 d, counted l1 d -> counted (l1 ++ l2) (fold_left (fun acc kv => bump eqb (f (snd kv)) acc) l2 d)).
    { induction l2 as [|[x n] l2 IH]; intros l1 d H; cbn [fold_left]; [rewrite app_nil_r; exact H|].
      replace (l1 ++ (x, n) :: l2) with ((l1 ++ [(x, n)]) ++ l2) by (rewrite <- app_assoc; reflexivity). apply IH. apply counted_step. exact H. }
    apply (X h [] []). split; [constructor|]. split; [intros k n []|]. intros k T. exfalso. apply T. reflexivity.
  Qed.
End Count.
