(** The documents given to Cytoscape and D3, and the ids of their elements. *)
From Coq Require Import Decimal DecimalString String Ascii List Bool Arith Lia Permutation.
From Verif Require Import Model.FlaxOptim Model.Graph Model.GraphDocs Spec.GraphSpec Spec.GraphDocsSpec Proofs.FlaxOptimProofs Proofs.GraphProofs Proofs.GraphProofs2 Proofs.GraphProofs3 Proofs.GraphProofs4 Proofs.GraphProofs5 Proofs.GraphProofs6.
From Verif Require Model.Debug.
Import ListNotations.
Local Open Scope list_scope.

(** ** parents by name *)
Lemma named_unique nodes c p q : NoDup (map fst nodes) -> named_parent nodes c (Some p) -> named_parent nodes c (Some q) -> p = q.
Proof.
  intros N [D|[D (B & l1 & n & l2 & E & F)]] [D'|[D' (B' & l1' & n' & l2' & E' & F')]].
  - apply dot_parent_iff in D. apply dot_parent_iff in D'. destruct D as [D _], D' as [D' _]. congruence.
  - exfalso. exact (D' p D).
  - exfalso. exact (D q D').
  - apply (first_unique (begins nodes c) (map fst nodes) p q (map fst l1) (map fst l2) (map fst l1') (map fst l2')); auto.
    + rewrite E, map_app. reflexivity.
    + rewrite E', map_app. reflexivity.
Qed.
Lemma named_none_some nodes c p : named_parent nodes c None -> named_parent nodes c (Some p) -> False.
Proof. intros [A B] [D|[_ [D _]]]; [exact (A p D)|exact (B p D)]. Qed.
Lemma node_in_h fuel cluster min nodes h levels x : usual_ids nodes -> analyze_hierarchy fuel cluster min nodes = Some (h, levels) ->
  In x (map fst nodes) -> In x (map fst h).
Proof.
  intros U E I. destruct cluster.
  - destruct (analyze_clustered _ _ _ _ _ U E) as (A & _). apply A. exact I.
  - destruct (analyze_plain _ _ _ _ _ U E) as (A & _). rewrite A. exact I.
Qed.
Lemma named_is_parent fuel cluster min nodes h levels c p : usual_ids nodes -> analyze_hierarchy fuel cluster min nodes = Some (h, levels) ->
  In c (map fst nodes) -> named_parent nodes c (Some p) -> parent_in h c p.
Proof.
  intros U E I P. pose proof (node_in_h _ _ _ _ _ _ _ U E I) as J. apply in_map_iff in J. destruct J as ([x n] & Ex & J). cbn in Ex. subst x. exists n. split; [exact J|].
  destruct U as [N U0]. pose proof (conj N U0) as U. destruct cluster.
  - destruct (analyze_clustered _ _ _ _ _ U E) as (_ & A & _). destruct (A c n J I) as (m & q & _ & _ & _ & Q & K). destruct q as [q|].
    + rewrite K. f_equal. exact (named_unique nodes c q p N Q P).
    + exfalso. exact (named_none_some _ _ _ Q P).
  - destruct (analyze_plain _ _ _ _ _ U E) as (_ & A). destruct (A c n J) as (m & _ & _ & _ & Q). destruct (h_parent n) as [q|].
    + f_equal. exact (named_unique nodes c q p N Q P).
    + exfalso. exact (named_none_some _ _ _ Q P).
Qed.

(** ** ids of clusters *)
Lemma cluster_ids fuel cluster min nodes h levels x : usual_ids nodes -> analyze_hierarchy fuel cluster min nodes = Some (h, levels) ->
  In x (map fst h) -> In x (map fst nodes) \/ exists t i, x = cluster_name (classify t) i.
Proof.
  intros U E I. destruct cluster.
  2:{ left. destruct (analyze_plain _ _ _ _ _ U E) as (A & _). rewrite <- A. exact I. }
  destruct (usual_good nodes U) as [G P]. destruct (analyze_inv _ _ _ _ _ _ U E) as (m & lv & H). cbv zeta in H. destruct H as (-> & _).
  unfold before_levels in I. set (e := extract_hierarchy nodes) in *.
  assert (Ie : map fst e = map fst nodes) by (apply extract_ids; exact G).
  destruct (auto_cluster_spec min e) as (Z & OK & ND).
  - rewrite Ie. apply G.
  - rewrite Ie. exact P.
  - intros y n J. eapply extract_types; eassumption.
  - rewrite Z in I. unfold levelled, clustered in I. rewrite remap_ids, map_app, remap_ids, Ie, map_map in I. apply in_app_or in I. destruct I as [I|I]; [left; exact I|right].
    cbn [cluster_node fst] in I. apply in_map_iff in I. destruct I as (d & <- & I). destruct (OK d I) as ((i & Ei) & _ & _). apply numbered_in in I. destruct I as [I _].
    destruct d as [nm [ty ids]]. cbn [fst snd] in *. apply type_groups_in in I. destruct I as [Ids Ne]. destruct ids as [|y r]; [congruence|].
    assert (J : In y (ids_where (root_of ty) e)) by (rewrite <- Ids; left; reflexivity). apply ids_where_in in J. destruct J as (n & J & R).
    apply extract_in in J; [|exact G]. destruct J as (a & J & ->). unfold root_of in R. cbn in R. destruct (infer_parent y nodes); [discriminate R|].
    apply String.eqb_eq in R. exists (n_type a), i. congruence.
Qed.
Lemma parent_cases fuel cluster min nodes h levels c p : usual_ids nodes -> analyze_hierarchy fuel cluster min nodes = Some (h, levels) ->
  parent_in h c p -> In c (map fst nodes) /\ ((In p (map fst nodes) /\ named_parent nodes c (Some p)) \/ exists t i, p = cluster_name (classify t) i).
Proof.
  intros U E (n & I & P). destruct (usual_good nodes U) as [G _]. destruct cluster.
  - destruct (analyze_clustered _ _ _ _ _ U E) as (_ & A & B). destruct (in_dec string_dec c (map fst nodes)) as [Ic|Ic].
    2:{ exfalso. destruct (B c n I Ic) as (_ & Q & _). congruence. }
    split; [exact Ic|]. destruct (A c n I Ic) as (m & q & _ & _ & _ & Q & K). destruct q as [q|].
    + left. assert (q = p) by congruence. subst q. split; [|exact Q]. destruct Q as [Q|[_ [Q _]]]; [apply Q|]. destruct Q as (a & s & J & _). apply in_map_iff. exists (p, a). auto.
    + right. destruct K as (l & _ & K). rewrite P in K. destruct K as (Np & _ & cn & J & _).
      destruct (cluster_ids _ _ _ _ _ _ p U E) as [X|X]; [apply in_map_iff; exists (p, cn); auto|contradiction|exact X].
  - destruct (analyze_plain _ _ _ _ _ U E) as (A & B). split; [rewrite <- A; apply in_map_iff; exists (c, n); auto|]. left. destruct (B c n I) as (m & _ & _ & _ & Q). rewrite P in Q.
    split; [|exact Q]. destruct Q as [Q|[_ [Q _]]]; [apply Q|]. destruct Q as (a & s & J & _). apply in_map_iff. exists (p, a). auto.
Qed.

Lemma digits_no_underscore n : no_underscore (str_of_nat n).
Proof.
  unfold str_of_nat, no_underscore. generalize (Nat.to_uint n) as d. intros d.
  assert (G : forall d, ~ In "_"%char (list_ascii_of_string (NilEmpty.string_of_uint d))).
  { clear. induction d; cbn [NilEmpty.string_of_uint list_ascii_of_string]; [intros []| | | | | | | | | |]; (intros [X|X]; [discriminate X|exact (IHd X)]). }
  destruct d; [intros [X|[]]; discriminate X| | | | | | | | | |]; apply G.
Qed.
Lemma classify_first t : exists a r, classify t = String a r /\ a <> "c"%char.
Proof.
  unfold classify. cbv zeta. repeat (destruct (Debug.contains _ _); [eexists; eexists; split; [reflexivity|discriminate]|]). eexists; eexists. split; [reflexivity|discriminate].
Qed.
Definition cl_word : list ascii := list_ascii_of_string "cluster".
Lemma los_cluster ty i : list_ascii_of_string (cluster_name ty i) = cl_word ++ "_"%char :: list_ascii_of_string ty ++ "_"%char :: list_ascii_of_string (str_of_nat i).
Proof. unfold cluster_name. rewrite !los_append. reflexivity. Qed.
Lemma los_join p c : list_ascii_of_string (String.append p (String.append "_" c)) = list_ascii_of_string p ++ "_"%char :: list_ascii_of_string c.
Proof. rewrite !los_append. reflexivity. Qed.
Lemma los_cluster_edge ty i c : list_ascii_of_string (String.append (cluster_name ty i) (String.append "_" c)) =
  cl_word ++ "_"%char :: list_ascii_of_string ty ++ "_"%char :: list_ascii_of_string (str_of_nat i) ++ "_"%char :: list_ascii_of_string c.
Proof. rewrite los_join, los_cluster, <- app_assoc. f_equal. simpl. f_equal. rewrite <- app_assoc. reflexivity. Qed.
(** two texts cut at their first underscore *)
Lemma split_both (a b x y : list ascii) : ~ In "_"%char a -> ~ In "_"%char b -> a ++ "_"%char :: x = b ++ "_"%char :: y -> a = b /\ x = y.
Proof. intros A B E. pose proof (split_underscore a b x y A B E). subst b. apply app_inv_head in E. split; [reflexivity|congruence]. Qed.
Lemma cl_no : ~ In "_"%char cl_word.
Proof. cbn. intuition discriminate. Qed.

(** an edge out of a cluster never has the id of a cluster, and two of them have the same id only if they are the same *)
Lemma cluster_edge_id t i c t' j : String.append (cluster_name (classify t) i) (String.append "_" c) <> cluster_name (classify t') j.
Proof.
  intros E. apply (f_equal list_ascii_of_string) in E. rewrite los_cluster_edge, los_cluster in E.
  apply app_inv_head in E. assert (E' := f_equal (@tl ascii) E). cbn [tl] in E'. clear E.
  apply split_both in E'; [|apply classify_no_underscore|apply classify_no_underscore]. destruct E' as [_ E'].
  apply (digits_no_underscore j). rewrite <- E'. apply in_or_app. right. left. reflexivity.
Qed.
Lemma cluster_edges_inj t i c t' i' c' : String.append (cluster_name (classify t) i) (String.append "_" c) = String.append (cluster_name (classify t') i') (String.append "_" c') ->
  cluster_name (classify t) i = cluster_name (classify t') i' /\ c = c'.
Proof.
  intros E. apply (f_equal list_ascii_of_string) in E. rewrite !los_cluster_edge in E.
  apply app_inv_head in E. assert (E' := f_equal (@tl ascii) E). cbn [tl] in E'. clear E.
  apply split_both in E'; [|apply classify_no_underscore|apply classify_no_underscore]. destruct E' as [A E'].
  apply split_both in E'; [|apply digits_no_underscore|apply digits_no_underscore]. destruct E' as [B C].
  split; [|apply los_inj; exact C]. apply los_inj. rewrite !los_cluster, A, B. reflexivity.
Qed.
(** an edge between nodes never looks like the id of a cluster or like an edge out of one *)
Lemma prefix_join p c rest : list_ascii_of_string (String.append p (String.append "_" c)) = cl_word ++ "_"%char :: rest ->
  (exists s, p = String.append "cluster_" s) \/ (p = "cluster"%string /\ list_ascii_of_string c = rest).
Proof.
  rewrite los_join. intros E. destruct (in_dec ascii_dec "_"%char (list_ascii_of_string p)) as [I|N].
  - left. apply in_split in I. destruct I as (u & v & Ep). assert (W : exists u' v', list_ascii_of_string p = u' ++ "_"%char :: v' /\ ~ In "_"%char u').
    { rewrite Ep. clear. induction u as [|a u (u' & v' & E & N)]; [exists [], v; split; [reflexivity|intros []]|]. cbn [app]. destruct (ascii_dec a "_"%char) as [->|D].
      - exists [], (u ++ "_"%char :: v). split; [reflexivity|intros []].
      - exists (a :: u'), v'. rewrite E. split; [reflexivity|]. intros [X|X]; [congruence|exact (N X)]. }
    clear Ep u v. destruct W as (u & v & Ep & Nu). rewrite Ep, <- app_assoc in E. cbn [app] in E. apply split_both in E; [|exact Nu|apply cl_no]. destruct E as [-> _].
    exists (string_of_list_ascii v). apply los_inj. rewrite los_append, list_ascii_of_string_of_list_ascii, Ep. reflexivity.
  - right. apply split_both in E; [|exact N|apply cl_no]. destruct E as [E1 E2]. split; [apply los_inj; exact E1|exact E2].
Qed.
Lemma named_begins nodes c p : named_parent nodes c (Some p) -> exists s, c = String.append p s /\ s <> ""%string.
Proof.
  intros [(_ & b & -> & _)|[_ [(n & s & _ & _ & -> & Ns) _]]]; [|exists s; auto]. exists (String.append "." b). split; [reflexivity|discriminate].
Qed.
Lemma named_not_cluster nodes c p t rest : usual_ids nodes -> In c (map fst nodes) -> In p (map fst nodes) -> named_parent nodes c (Some p) ->
  list_ascii_of_string (String.append p (String.append "_" c)) <> cl_word ++ "_"%char :: list_ascii_of_string (classify t) ++ rest.
Proof.
  intros [_ U] Ic Ip P E. apply prefix_join in E. destruct E as [E|[-> E]]; [exact (proj2 (U p Ip) E)|].
  destruct (named_begins _ _ _ P) as (s & -> & _). destruct (classify_first t) as (a & r & Ec & Na). rewrite Ec in E. cbn in E. congruence.
Qed.

(** ** distinct ids *)
Definition edge_id (e : string * string) : string := String.append (fst e) (String.append "_" (snd e)).
Lemma cyto_edges st h : map ce_id (snd (cytoscape st h)) = map edge_id (hierarchy_edges h).
Proof.
  unfold cytoscape, hierarchy_edges. cbn [snd]. rewrite !flat_map_concat_map, !concat_map, !map_map. f_equal. apply map_ext. intros [x n]. cbn [fst snd].
  rewrite !map_map. reflexivity.
Qed.
Lemma cyto_nodes st h : map cy_id (fst (cytoscape st h)) = map fst h.
Proof. unfold cytoscape. cbn [fst]. rewrite map_map. reflexivity. Qed.
Lemma NoDup_map_iff {A B} (f : A -> B) l : NoDup l -> (NoDup (map f l) <-> forall a b, In a l -> In b l -> f a = f b -> a = b).
Proof.
  intros N. split.
  - induction l as [|x l IH]; intros M a b Ia Ib E; [destruct Ia|]. cbn in M. inversion M as [|? ? M1 M2]; subst. inversion N as [|? ? N1 N2]; subst.
    destruct Ia as [->|Ia], Ib as [->|Ib]; auto.
    + exfalso. apply M1. rewrite E. apply in_map. exact Ib.
    + exfalso. apply M1. rewrite <- E. apply in_map. exact Ia.
  - induction N as [|x l Nx N IH]; intros H; cbn; constructor.
    + intros I. apply in_map_iff in I. destruct I as (y & E & I). apply Nx. rewrite <- (H y x (or_intror I) (or_introl eq_refl) E). exact I.
    + apply IH. intros a b Ia Ib. apply H; right; assumption.
Qed.
Lemma NoDup_app_iff {A} (l l' : list A) : NoDup (l ++ l') <-> NoDup l /\ NoDup l' /\ forall x, In x l -> ~ In x l'.
Proof.
  split; [|intros (A1 & B & C); apply NoDup_app2; assumption]. induction l as [|a l IH]; cbn; intros N; [split; [constructor|]; split; [exact N|intros x []]|].
  inversion N as [|? ? N1 N2]; subst. destruct (IH N2) as (A1 & B & C). split; [constructor; [|exact A1]; intros I; apply N1; apply in_or_app; auto|]. split; [exact B|].
  intros x [->|I]; [intros J; apply N1; apply in_or_app; auto|apply C; exact I].
Qed.

Lemma cyto_ids fuel cluster min nodes h levels st : usual_ids nodes -> analyze_hierarchy fuel cluster min nodes = Some (h, levels) ->
  (NoDup (map cy_id (fst (cytoscape st h)) ++ map ce_id (snd (cytoscape st h))) <-> ~ clash nodes).
Proof.
  intros U E. rewrite cyto_edges, cyto_nodes, NoDup_app_iff. destruct (analyze_edges _ _ _ _ _ _ U E) as (NE & EE & _). destruct (analyze_structure _ _ _ _ _ _ U E) as (NH & _).
  rewrite (NoDup_map_iff _ _ NE). split.
  - intros (_ & A & B) (c & p & Ic & P & K). pose proof (named_is_parent _ _ _ _ _ _ _ _ U E Ic P) as Q. apply EE in Q. destruct K as [K|(c' & p' & Ic' & P' & D & K)].
    + apply (B _ (node_in_h _ _ _ _ _ _ _ U E K)). apply in_map_iff. exists (p, c). split; [reflexivity|exact Q].
    + pose proof (named_is_parent _ _ _ _ _ _ _ _ U E Ic' P') as Q'. apply EE in Q'. pose proof (A (p, c) (p', c') Q Q' K) as X. congruence.
  - intros NC. split; [exact NH|]. split.
    + intros [p c] [p' c'] I I' Eq. unfold edge_id in Eq. cbn [fst snd] in Eq. apply EE in I. apply EE in I'.
      destruct (parent_cases _ _ _ _ _ _ _ _ U E I) as (Ic & [[Ip Q]|(t & i & ->)]), (parent_cases _ _ _ _ _ _ _ _ U E I') as (Ic' & [[Ip' Q']|(t' & i' & ->)]).
      * destruct (string_dec c c') as [->|D]; [rewrite (named_unique nodes c' p p' (proj1 U) Q Q'); reflexivity|]. exfalso. apply NC. exists c, p. split; [exact Ic|]. split; [exact Q|]. right. exists c', p'. auto.
      * exfalso. apply (f_equal list_ascii_of_string) in Eq. rewrite los_cluster_edge in Eq.
        exact (named_not_cluster nodes c p t' _ U Ic Ip Q Eq).
      * exfalso. symmetry in Eq. apply (f_equal list_ascii_of_string) in Eq. rewrite los_cluster_edge in Eq.
        exact (named_not_cluster nodes c' p' t _ U Ic' Ip' Q' Eq).
      * apply cluster_edges_inj in Eq. destruct Eq as [-> ->]. reflexivity.
    + intros x Ix J. apply in_map_iff in J. destruct J as ([p c] & Eq & J). unfold edge_id in Eq. cbn [fst snd] in Eq. apply EE in J.
      destruct (parent_cases _ _ _ _ _ _ _ _ U E J) as (Ic & [[Ip Q]|(t & i & ->)]), (cluster_ids _ _ _ _ _ _ x U E Ix) as [Inx|(t' & j & ->)].
      * apply NC. exists c, p. split; [exact Ic|]. split; [exact Q|]. left. rewrite Eq. exact Inx.
      * apply (f_equal list_ascii_of_string) in Eq. rewrite los_cluster in Eq. exact (named_not_cluster nodes c p t' _ U Ic Ip Q Eq).
      * apply (proj2 (proj2 U x Inx)). rewrite <- Eq. unfold cluster_name. exists (String.append (classify t) (String.append "_" (String.append (str_of_nat i) (String.append "_" c)))).
        apply los_inj. rewrite !los_append, <- !app_assoc. reflexivity.
      * exact (cluster_edge_id t i c t' j Eq).
Qed.

(** ** the elements *)
Lemma cyto_edge_elements st h : snd (cytoscape st h) = map (fun e => CyEdge (edge_id e) (fst e) (snd e) "hierarchy") (hierarchy_edges h).
Proof.
  unfold cytoscape, hierarchy_edges. cbn [snd]. rewrite !flat_map_concat_map, !concat_map, !map_map. f_equal. apply map_ext. intros [x n]. cbn [fst snd].
  rewrite !map_map. reflexivity.
Qed.
Lemma d3_link_elements st h : snd (d3 st h) = map (fun e => D3Link (fst e) (snd e) "hierarchy") (hierarchy_edges h).
Proof.
  unfold d3, hierarchy_edges. cbn [snd]. rewrite !flat_map_concat_map, !concat_map, !map_map. f_equal. apply map_ext. intros [x n]. cbn [fst snd].
  rewrite !map_map. reflexivity.
Qed.
Lemma class_color t : fill_color default_style (classify t) = match sget (classify t) class_colors with Some c => c | None => ""%string end.
Proof. unfold classify. cbv zeta. repeat (destruct (Debug.contains _ _); [reflexivity|]). reflexivity. Qed.
Lemma h_types fuel cluster min nodes h levels x n : usual_ids nodes -> analyze_hierarchy fuel cluster min nodes = Some (h, levels) ->
  In (x, n) h -> h_type n = "cluster"%string \/ exists t, h_type n = classify t.
Proof.
  intros U E I. destruct cluster.
  - destruct (analyze_clustered _ _ _ _ _ U E) as (_ & A & B). destruct (in_dec string_dec x (map fst nodes)) as [Ix|Ix].
    + right. destruct (A x n I Ix) as (m & p & _ & _ & Cl & _). exists (n_type m). exact (class_unique _ _ _ Cl (classify_class _)).
    + left. apply (B x n I Ix).
  - right. destruct (analyze_plain _ _ _ _ _ U E) as (_ & A). destruct (A x n I) as (m & _ & _ & Cl & _). exists (n_type m). exact (class_unique _ _ _ Cl (classify_class _)).
Qed.
Lemma h_colors fuel cluster min nodes h levels x n : usual_ids nodes -> analyze_hierarchy fuel cluster min nodes = Some (h, levels) ->
  In (x, n) h -> In (h_type n, fill_color default_style (h_type n)) class_colors.
Proof.
  intros U E I. destruct (h_types _ _ _ _ _ _ _ _ U E I) as [->|(t & ->)]; [repeat ((left; reflexivity) || right)|].
  unfold classify. cbv zeta. repeat (destruct (Debug.contains _ _); [cbn; auto 10|]). cbn; auto 10.
Qed.
(** the nodes but the roots are the targets of the edges, once each *)
Lemma edge_targets fuel cluster min nodes h levels : usual_ids nodes -> analyze_hierarchy fuel cluster min nodes = Some (h, levels) ->
  NoDup (map snd (hierarchy_edges h)) /\ (forall x, In x (map snd (hierarchy_edges h)) <-> In x (map fst h) /\ ~ is_root h x) /\
  length (hierarchy_edges h) + length (ids_where (fun n => match h_parent n with None => true | Some _ => false end) h) = length h.
Proof.
  intros U E. destruct (analyze_edges _ _ _ _ _ _ U E) as (NE & EE & _). destruct (analyze_structure _ _ _ _ _ _ U E) as (NH & S).
  assert (A : NoDup (map snd (hierarchy_edges h))).
  { apply (NoDup_map_iff _ _ NE). intros [p c] [p' c'] I I' Eq. cbn in Eq. subst c'. apply EE in I. apply EE in I'. destruct I as (n & I & P), I' as (n' & I' & P').
    rewrite (nodup_in_eq _ _ _ _ NH I I') in P. congruence. }
  assert (B : forall x, In x (map snd (hierarchy_edges h)) <-> In x (map fst h) /\ ~ is_root h x).
  { intros x. rewrite in_map_iff. split.
    - intros ([p c] & Ec & I). cbn in Ec. subst c. apply EE in I. destruct I as (n & I & P). split; [apply in_map_iff; exists (x, n); auto|]. intros (n' & I' & P').
      rewrite (nodup_in_eq _ _ _ _ NH I I') in P. congruence.
    - intros [I R]. apply in_map_iff in I. destruct I as ([y n] & Ey & I). cbn in Ey. subst y. destruct (h_parent n) as [p|] eqn:P; [|exfalso; apply R; exists n; auto].
      exists (p, x). split; [reflexivity|]. apply EE. exists n. auto. }
  split; [exact A|]. split; [exact B|]. set (R := ids_where _ h). rewrite <- (map_length snd (hierarchy_edges h)), <- app_length, <- (map_length fst h). apply Permutation_length.
  apply NoDup_Permutation; [|exact NH|].
  - apply NoDup_app2; [exact A|apply ids_where_nodup; exact NH|]. intros x I J. apply B in I. apply (proj2 I). apply ids_where_in in J. destruct J as (n & J & P). exists n. split; [exact J|].
    destruct (h_parent n); [discriminate P|reflexivity].
  - intros x. rewrite in_app_iff, B. unfold R. rewrite ids_where_in. split.
    + intros [[I _]|(n & I & _)]; [exact I|apply in_map_iff; exists (x, n); auto].
    + intros I. apply in_map_iff in I. destruct I as ([y n] & Ey & I). cbn in Ey. subst y. destruct (h_parent n) as [p|] eqn:P.
      * left. split; [apply in_map_iff; exists (x, n); auto|]. intros (n' & I' & P'). rewrite (nodup_in_eq _ _ _ _ NH I I') in P. congruence.
      * right. exists n. rewrite P. auto.
Qed.

Lemma parent_not_empty fuel cluster min nodes h levels x n : usual_ids nodes -> analyze_hierarchy fuel cluster min nodes = Some (h, levels) ->
  In (x, n) h -> h_parent n <> Some ""%string.
Proof.
  intros U E I P. assert (Q : parent_in h x ""%string) by (exists n; auto). destruct (parent_cases _ _ _ _ _ _ _ _ U E Q) as (_ & [[J _]|(t & i & J)]); [|discriminate J].
  exact (proj1 (proj2 U _ J) eq_refl).
Qed.
Lemma cyto_document fuel cluster min nodes h levels st : usual_ids nodes -> analyze_hierarchy fuel cluster min nodes = Some (h, levels) ->
  let '(els, edges) := cytoscape st h in
  map cy_id els = map fst h /\
  (forall e, In e els -> exists n, In (cy_id e, n) h /\ cy_label e = h_name n /\ cy_type e = h_type n /\ cy_level e = h_level n /\ cy_parent e = h_parent n /\
     depth_in h (cy_id e) (cy_level e) /\ forall p, cy_parent e = Some p -> exists q, In q els /\ cy_id q = p /\ cy_level e = S (cy_level q)) /\
  NoDup (map (fun e => (ce_source e, ce_target e)) edges) /\
  (forall p c, In (p, c) (map (fun e => (ce_source e, ce_target e)) edges) <-> parent_in h c p) /\
  (forall e, In e edges -> ce_id e = String.append (ce_source e) (String.append "_" (ce_target e)) /\ ce_type e = "hierarchy"%string).
Proof.
  intros U E. destruct (cytoscape st h) as [els edges] eqn:Ed. assert (El : els = fst (cytoscape st h)) by (rewrite Ed; reflexivity).
  assert (Ee : edges = snd (cytoscape st h)) by (rewrite Ed; reflexivity). clear Ed. destruct (analyze_structure _ _ _ _ _ _ U E) as (NH & S).
  destruct (analyze_edges _ _ _ _ _ _ U E) as (NE & EE & _).
  assert (In_els : forall x n, In (x, n) h -> exists e, In e els /\ cy_id e = x /\ cy_level e = h_level n).
  { intros x n I. rewrite El. unfold cytoscape. cbn [fst]. eexists. split; [apply in_map_iff; exists (x, n); split; [reflexivity|exact I]|]. split; reflexivity. }
  split; [subst els; apply cyto_nodes|]. split.
  { intros e I. rewrite El in I. unfold cytoscape in I. cbn [fst] in I. apply in_map_iff in I. destruct I as ([x n] & <- & I). cbn [cy_id cy_label cy_type cy_level cy_parent fst snd].
    assert (Pe : match h_parent n with Some p => if String.eqb p "" then None else Some p | None => None end = h_parent n).
    { pose proof (parent_not_empty _ _ _ _ _ _ _ _ U E I) as Z. destruct (h_parent n) as [p|]; [|reflexivity]. destruct (String.eqb_spec p ""); [congruence|reflexivity]. }
    exists n. rewrite Pe. do 5 (split; [try exact I; reflexivity|]). destruct (S x n I) as (D & _ & Q). split; [exact D|]. intros p P. pose proof (Q p P) as J.
    apply in_map_iff in J. destruct J as ([y m] & Ey & J). cbn in Ey. subst y. destruct (In_els p m J) as (e & Ie & <- & Lv). exists e. split; [exact Ie|]. split; [reflexivity|].
    rewrite Lv. destruct (S _ m J) as (Dm & _). pose proof (before_levels_forest cluster min nodes U) as F.
    assert (X : depth_in h x (Datatypes.S (h_level m))) by (eapply dep_child; [exists n; split; [exact I|exact P]|exact Dm]).
    clear -NH D X. revert D X. generalize (Datatypes.S (h_level m)), (h_level n). intros a b D. revert a. induction D as [x (n0 & I & R)|x p k (n0 & I & R) D IH]; intros a D'; inversion D' as [? (n1 & I1 & R1)|? q ? (n1 & I1 & R1) D1]; subst.
    - reflexivity.
    - rewrite (nodup_in_eq _ _ _ _ NH I I1) in R. congruence.
    - rewrite (nodup_in_eq _ _ _ _ NH I I1) in R. congruence.
    - rewrite (nodup_in_eq _ _ _ _ NH I I1) in R. assert (p = q) by congruence. subst q. f_equal. apply IH. exact D1. }
  rewrite Ee, cyto_edge_elements, map_map. cbn [ce_source ce_target]. rewrite (map_ext _ (fun e => e)) by (intros []; reflexivity). rewrite map_id.
  split; [exact NE|]. split; [exact EE|]. intros e I. apply in_map_iff in I. destruct I as (pc & <- & _). split; reflexivity.
Qed.
Lemma d3_document fuel cluster min nodes h levels st : usual_ids nodes -> analyze_hierarchy fuel cluster min nodes = Some (h, levels) ->
  let '(ns, links) := d3 st h in
  map dn_id ns = map fst h /\ NoDup (map dn_id ns) /\
  (forall e, In e ns -> exists n, In (dn_id e, n) h /\ dn_name e = h_name n /\ dn_type e = h_type n /\ dn_level e = h_level n) /\
  NoDup (map dl_target links) /\
  (forall l, In l links -> In (dl_source l) (map dn_id ns) /\ In (dl_target l) (map dn_id ns) /\ parent_in h (dl_target l) (dl_source l)) /\
  (forall x, In x (map dl_target links) <-> In x (map dn_id ns) /\ ~ is_root h x).
Proof.
  intros U E. destruct (d3 st h) as [ns links] eqn:Ed. assert (El : ns = fst (d3 st h)) by (rewrite Ed; reflexivity).
  assert (Ee : links = snd (d3 st h)) by (rewrite Ed; reflexivity). clear Ed. destruct (analyze_structure _ _ _ _ _ _ U E) as (NH & S).
  destruct (analyze_edges _ _ _ _ _ _ U E) as (NE & EE & _). destruct (edge_targets _ _ _ _ _ _ U E) as (T1 & T2 & _).
  assert (Ids : map dn_id ns = map fst h) by (rewrite El; unfold d3; cbn [fst]; rewrite map_map; reflexivity). rewrite Ids.
  split; [reflexivity|]. split; [exact NH|]. split; [|split; [|split]].
  - intros e I. rewrite El in I. unfold d3 in I. cbn [fst] in I. apply in_map_iff in I. destruct I as ([x n] & <- & I). exists n. cbn. auto.
  - rewrite Ee, d3_link_elements, map_map. cbn [dl_target]. exact T1.
  - intros l I. rewrite Ee, d3_link_elements in I. apply in_map_iff in I. destruct I as ([p c] & <- & I). cbn [dl_source dl_target fst snd]. apply EE in I. pose proof I as (n & J & P).
    split; [apply (proj2 (proj2 (S c n J)) p P)|]. split; [apply in_map_iff; exists (c, n); auto|exact I].
  - intros x. rewrite Ee, d3_link_elements, map_map. cbn [dl_target]. apply T2.
Qed.
Lemma fill_spec st ty : (forall l1 c l2, st_nodes st = l1 ++ (ty, c) :: l2 -> ~ In ty (map fst l1) -> fill_color st ty = c) /\
  (~ In ty (map fst (st_nodes st)) -> fill_color st ty = "#CCCCCC"%string).
Proof.
  unfold fill_color. split.
  - intros l1 c l2 -> N. induction l1 as [|[k v] l1 IH]; cbn [app sget]; [rewrite String.eqb_refl; reflexivity|]. cbn in N. destruct (String.eqb_spec ty k) as [->|_]; [exfalso; apply N; left; reflexivity|].
    apply IH. intros I. apply N. right. exact I.
  - intros N. replace (sget ty (st_nodes st)) with (@None string); [reflexivity|]. symmetry. apply sget_none. exact N.
Qed.
Lemma doc_colors fuel cluster min nodes h levels st : usual_ids nodes -> analyze_hierarchy fuel cluster min nodes = Some (h, levels) ->
  (forall e, In e (fst (cytoscape st h)) -> cy_color e = fill_color st (cy_type e)) /\
  (forall e, In e (fst (d3 st h)) -> dn_color e = fill_color st (dn_type e)) /\
  (forall x n, In (x, n) h -> In (h_type n, fill_color default_style (h_type n)) class_colors).
Proof.
  intros U E. split; [|split].
  - intros e I. apply in_map_iff in I. destruct I as (kv & <- & _). reflexivity.
  - intros e I. apply in_map_iff in I. destruct I as (kv & <- & _). reflexivity.
  - intros x n I. exact (h_colors _ _ _ _ _ _ _ _ U E I).
Qed.
Lemma no_named_no_clash nodes : (forall c p, In c (map fst nodes) -> ~ named_parent nodes c (Some p)) -> ~ clash nodes.
Proof. intros H (c & p & I & P & _). exact (H c p I P). Qed.
Lemma no_underscore_no_clash nodes : (forall x, In x (map fst nodes) -> ~ In "_"%char (list_ascii_of_string x)) -> NoDup (map fst nodes) -> ~ clash nodes.
Proof.
  intros H N (c & p & Ic & P & K).
  assert (Hp : forall c p, named_parent nodes c (Some p) -> In p (map fst nodes)).
  { intros d q [D|[_ [(n & s & I & _) _]]]; [apply D|]. apply in_map_iff. exists (q, n). auto. }
  destruct K as [K|(c' & p' & Ic' & P' & D & K)].
  - apply (H _ K). rewrite los_join. apply in_or_app. right. left. reflexivity.
  - apply (f_equal list_ascii_of_string) in K. rewrite !los_join in K. apply split_both in K; [|apply H; eapply Hp; eassumption|apply H; eapply Hp; eassumption].
    apply D. apply los_inj. apply K.
Qed.
