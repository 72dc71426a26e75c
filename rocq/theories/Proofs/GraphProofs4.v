(** The clusters of a hierarchy. *)
From Coq Require Import String Ascii List Bool Arith Lia Permutation.
From Verif Require Import Model.FlaxOptim Model.Graph Spec.GraphSpec Proofs.FlaxOptimProofs Proofs.GraphProofs Proofs.GraphProofs2 Proofs.GraphProofs3.
From Verif Require Model.Debug.
Import ListNotations.
Local Open Scope list_scope.

(** ** groups of roots by type *)
Definition root_of (ty : string) (n : hnode) : bool :=
  match h_parent n with None => String.eqb (h_type n) ty | Some _ => false end.
Lemma ids_where_single f (x : string) n : ids_where f [(x, n)] = if f n then [x] else [].
Proof. unfold ids_where. cbn. destruct (f n); reflexivity. Qed.
Definition nonempty (l : list string) : option (list string) := match l with [] => None | _ => Some l end.
Definition group_step (groups : list (string * list string)) (kv : string * hnode) : list (string * list string) :=
  match h_parent (snd kv) with
  | None => sset (h_type (snd kv)) (match sget (h_type (snd kv)) groups with Some l => l | None => [] end ++ [fst kv]) groups
  | Some _ => groups
  end.
Lemma groups_fold l2 : forall l1 acc, NoDup (map fst acc) -> (forall ty, sget ty acc = nonempty (ids_where (root_of ty) l1)) ->
  NoDup (map fst (fold_left group_step l2 acc)) /\
  forall ty, sget ty (fold_left group_step l2 acc) = nonempty (ids_where (root_of ty) (l1 ++ l2)).
Proof.
  induction l2 as [|[x n] l2 IH]; intros l1 acc N H; cbn [fold_left].
  - rewrite app_nil_r. auto.
  - replace (l1 ++ (x, n) :: l2) with ((l1 ++ [(x, n)]) ++ l2) by (rewrite <- app_assoc; reflexivity). apply IH.
    + unfold group_step. cbn [fst snd]. destruct (h_parent n); [exact N|]. apply sset_nodup. exact N.
    + intros ty. rewrite ids_where_app, ids_where_single. unfold group_step, root_of at 2. cbn [fst snd]. destruct (h_parent n) as [p|].
      * rewrite app_nil_r. apply H.
      * rewrite sget_sset. rewrite (String.eqb_sym ty). destruct (String.eqb_spec (h_type n) ty) as [E|E].
        -- rewrite E, H. destruct (ids_where (root_of ty) l1); reflexivity.
        -- rewrite app_nil_r. apply H.
Qed.
Lemma type_groups_spec h : NoDup (map fst (type_groups h)) /\ forall ty, sget ty (type_groups h) = nonempty (ids_where (root_of ty) h).
Proof. apply (groups_fold h [] []); [constructor|]. reflexivity. Qed.
Lemma sget_complete {A} (d : list (string * A)) k v : NoDup (map fst d) -> In (k, v) d -> sget k d = Some v.
Proof.
  intros N I. destruct (sget k d) as [w|] eqn:E.
  - apply sget_in in E. rewrite (nodup_in_eq _ _ _ _ N I E). reflexivity.
  - exfalso. apply sget_none in E. apply E. apply in_map_iff. exists (k, v). auto.
Qed.
Lemma type_groups_in h ty ids : In (ty, ids) (type_groups h) <-> ids = ids_where (root_of ty) h /\ ids <> [].
Proof.
  destruct (type_groups_spec h) as [N S]. split.
  - intros I. apply (sget_complete _ _ _ N) in I. rewrite S in I. destruct (ids_where (root_of ty) h); cbn in I; [discriminate|].
    injection I as <-. split; [reflexivity|discriminate].
  - intros [-> E]. apply sget_in. rewrite S. destruct (ids_where (root_of ty) h); [contradiction|reflexivity].
Qed.

(** ** one cluster *)
Definition joined (name : string) (l : list string) (x : string) (n : hnode) : hnode :=
  if String.eqb x name then plus_children l n else if existsb (String.eqb x) l then set_parent name n else n.
Lemma existsb_eqb_in x l : existsb (String.eqb x) l = true <-> In x l.
Proof.
  rewrite existsb_exists. split.
  - intros (y & I & E). apply String.eqb_eq in E. congruence.
  - intros I. exists x. split; [exact I|apply String.eqb_refl].
Qed.
Lemma cluster_fold name B : NoDup (map fst B) -> (forall n, In (name, n) B -> h_children n = []) ->
  forall l2 l1, NoDup (l1 ++ l2) -> ~ In name (l1 ++ l2) ->
  fold_left (fun h id => update_node name (add_child id) (update_node id (set_parent name) h)) l2 (remap (joined name l1) B)
  = remap (joined name (l1 ++ l2)) B.
Proof.
  intros N C. induction l2 as [|c l2 IH]; intros l1 NL NI; cbn [fold_left]; [rewrite app_nil_r; reflexivity|].
  rewrite !update_remap by exact N.
  replace (l1 ++ c :: l2) with ((l1 ++ [c]) ++ l2) in * by (rewrite <- app_assoc; reflexivity).
  rewrite <- IH by assumption. f_equal. apply remap_ext. intros x n I.
  assert (Nc : c <> name) by (intros ->; apply NI; apply in_or_app; left; apply in_or_app; right; left; reflexivity).
  assert (Fc : ~ In c l1).
  { intros J. rewrite <- app_assoc in NL. cbn in NL. apply NoDup_remove_2 in NL. apply NL. apply in_or_app. left. exact J. }
  unfold joined. destruct (String.eqb_spec x name) as [->|D].
  - destruct (String.eqb_spec name c) as [E|_]; [congruence|]. rewrite add_child_fresh; [apply plus_children_app|]. cbn. rewrite (C n I). exact Fc.
  - rewrite existsb_app. cbn [existsb]. rewrite orb_false_r. destruct (String.eqb_spec x c) as [->|D']; [|rewrite orb_false_r; reflexivity].
    rewrite orb_true_r. destruct (existsb (String.eqb c) l1) eqn:E; [|reflexivity]. apply existsb_eqb_in in E. contradiction.
Qed.

(** ** names of clusters *)
Definition no_underscore (s : string) : Prop := ~ In "_"%char (list_ascii_of_string s).
Lemma split_underscore (a b x y : list ascii) : ~ In "_"%char a -> ~ In "_"%char b -> a ++ "_"%char :: x = b ++ "_"%char :: y -> a = b.
Proof.
  revert b. induction a as [|c a IH]; intros [|c' b] Ha Hb H; cbn in H.
  - reflexivity.
  - exfalso. injection H as H1 _. apply Hb. left. congruence.
  - exfalso. injection H as H1 _. apply Ha. left. congruence.
  - injection H as -> H. f_equal. apply IH; auto; intros I; [apply Ha|apply Hb]; right; exact I.
Qed.
Lemma cluster_name_inj ty i ty' i' : no_underscore ty -> no_underscore ty' -> cluster_name ty i = cluster_name ty' i' -> ty = ty'.
Proof.
  intros N N' E. unfold cluster_name in E. apply append_inj_l in E. apply (f_equal list_ascii_of_string) in E. rewrite !los_append in E.
  cbn [list_ascii_of_string app] in E. apply los_inj. eapply split_underscore; [exact N|exact N'|exact E].
Qed.
Lemma classify_no_underscore t : no_underscore (classify t).
Proof.
  unfold classify, no_underscore. cbv zeta.
  repeat (destruct (Debug.contains _ _); [cbn; intuition discriminate|]). cbn. intuition discriminate.
Qed.

(** ** all the clusters *)
Definition cluster := (string * (string * list string))%type.
Definition find_type (done : list cluster) (ty : string) : option cluster := find (fun d => String.eqb (fst (snd d)) ty) done.
Definition reparented (done : list cluster) (x : string) (n : hnode) : hnode :=
  match h_parent n with
  | None => match find_type done (h_type n) with Some d => set_parent (fst d) n | None => n end
  | Some _ => n
  end.
Definition cluster_node (d : cluster) : string * hnode :=
  (fst d, HNode (String.append (title (fst (snd d))) " Components") "cluster" 0 None (snd (snd d))).
Definition clustered (done : list cluster) (h : hierarchy) : hierarchy := remap (reparented done) h ++ map cluster_node done.
Fixpoint numbered (min i : nat) (groups : list (string * list string)) : list cluster :=
  match groups with
  | [] => []
  | (ty, ids) :: r => if min <=? length ids then (cluster_name ty i, (ty, ids)) :: numbered min (i + 1) r else numbered min i r
  end.

Lemma find_app {A} (f : A -> bool) l l' : find f (l ++ l') = match find f l with Some x => Some x | None => find f l' end.
Proof. induction l as [|a l IH]; cbn; [reflexivity|]. destruct (f a); [reflexivity|exact IH]. Qed.
Lemma find_type_snoc done c t : find_type (done ++ [c]) t =
  match find_type done t with Some d => Some d | None => if String.eqb (fst (snd c)) t then Some c else None end.
Proof. unfold find_type. rewrite find_app. cbn [find]. reflexivity. Qed.
Lemma find_type_some done t d : find_type done t = Some d -> In d done /\ fst (snd d) = t.
Proof. intros F. apply find_some in F. destruct F as [F G]. apply String.eqb_eq in G. auto. Qed.
Definition done_ok (h : hierarchy) (d : cluster) : Prop :=
  (exists i, fst d = cluster_name (fst (snd d)) i) /\ no_underscore (fst (snd d)) /\ snd (snd d) = ids_where (root_of (fst (snd d))) h.

Lemma cluster_step h done ty i min :
  NoDup (map fst h) -> (forall x, In x (map fst h) -> String.prefix "cluster_" x = false) ->
  (forall d, In d done -> done_ok h d) -> NoDup (map fst done) -> ~ In ty (map (fun d => fst (snd d)) done) -> no_underscore ty ->
  min <= length (ids_where (root_of ty) h) ->
  cluster_group min (clustered done h, i) (ty, ids_where (root_of ty) h)
  = (clustered (done ++ [(cluster_name ty i, (ty, ids_where (root_of ty) h))]) h, i + 1).
Proof.
  intros N P D ND T U M. cbn [cluster_group]. destruct (Nat.leb_spec min (length (ids_where (root_of ty) h))) as [_|L]; [|lia].
  set (ids := ids_where (root_of ty) h) in *. set (name := cluster_name ty i). f_equal.
  assert (Px : forall i ty, String.prefix "cluster_" (cluster_name ty i) = true).
  { intros i0 ty0. apply prefix_iff. unfold cluster_name. eexists. reflexivity. }
  assert (Fh : ~ In name (map fst h)).
  { intros I. apply P in I. unfold name in I. rewrite Px in I. discriminate I. }
  assert (Fd : ~ In name (map fst done)).
  { intros I. apply in_map_iff in I. destruct I as (d & E & I). destruct (D d I) as ((j & Ej) & Ud & _). unfold name in E. rewrite Ej in E.
    apply cluster_name_inj in E; [|exact Ud|exact U]. apply T. apply in_map_iff. exists d. auto. }
  assert (Ids : map fst (clustered done h) = map fst h ++ map fst done).
  { unfold clustered. rewrite map_app, remap_ids, map_map. reflexivity. }
  assert (Fc : ~ In name (map fst (clustered done h))) by (rewrite Ids; intros I; apply in_app_or in I; tauto).
  rewrite sset_fresh by exact Fc.
  set (B := clustered done h ++ [(name, HNode (String.append (title ty) " Components") "cluster" 0 None [])]).
  assert (NB : NoDup (map fst B)).
  { unfold B. rewrite map_app. apply NoDup_app2; [|repeat constructor; intros []|].
    - rewrite Ids. apply NoDup_app2; [exact N|exact ND|]. intros x I J. apply P in I. apply in_map_iff in J. destruct J as (d & <- & J).
      destruct (D d J) as ((j & Ej) & _). rewrite Ej, Px in I. discriminate I.
    - intros x I [<-|[]]. contradiction. }
  assert (Iids : forall x, In x ids -> In x (map fst h)).
  { intros x I. apply ids_where_in in I. destruct I as (n & I & _). apply in_map_iff. exists (x, n). auto. }
  rewrite <- (remap_id B).
  replace (remap (fun _ n => n) B) with (remap (joined name []) B).
  2:{ apply remap_ext. intros x n I. unfold joined. destruct (String.eqb x name); [apply plus_children_nil|reflexivity]. }
  rewrite cluster_fold; [|exact NB| | |].
  - cbn [app]. unfold B, clustered. rewrite !remap_app, remap_remap. rewrite map_app. rewrite app_assoc. cbn [map remap]. f_equal; [f_equal|].
    + apply remap_ext. intros x n I. unfold joined. destruct (String.eqb_spec x name) as [->|Dx].
      * exfalso. apply Fh. apply in_map_iff. exists (name, n). auto.
      * assert (R : In x ids <-> root_of ty n = true).
        { unfold ids. rewrite ids_where_in. split; [intros (m & J & R)|intros R; exists n; auto]. rewrite (nodup_in_eq _ _ _ _ N I J). exact R. }
        unfold reparented, root_of in *. destruct (h_parent n) as [p|] eqn:Pn.
        -- destruct (existsb (String.eqb x) ids) eqn:E; [|reflexivity]. apply existsb_eqb_in in E. apply R in E. discriminate E.
        -- rewrite find_type_snoc. destruct (find_type done (h_type n)) as [d|] eqn:F.
           ++ destruct (existsb (String.eqb x) ids) eqn:E; [|reflexivity]. apply existsb_eqb_in in E. apply R in E. apply String.eqb_eq in E.
              exfalso. apply find_type_some in F. destruct F as [F G]. apply T. apply in_map_iff. exists d. split; [congruence|exact F].
           ++ cbn [fst snd]. rewrite (String.eqb_sym ty). destruct (String.eqb (h_type n) ty) eqn:Et.
              ** rewrite (proj2 (existsb_eqb_in x ids)) by tauto. reflexivity.
              ** destruct (existsb (String.eqb x) ids) eqn:E; [|reflexivity]. apply existsb_eqb_in in E. apply R in E. discriminate E.
    + rewrite <- (remap_id (map cluster_node done)) at 2. apply remap_ext. intros x n I. unfold joined.
      apply in_map_iff in I. destruct I as (d & E & I). destruct (String.eqb_spec x name) as [->|Dx].
      * exfalso. apply Fd. apply in_map_iff. exists d. split; [|exact I]. unfold cluster_node in E. congruence.
      * destruct (existsb (String.eqb x) ids) eqn:X; [|reflexivity]. apply existsb_eqb_in in X. apply Iids, P in X.
        destruct (D d I) as ((j & Ej) & _). assert (x = fst d) by (unfold cluster_node in E; congruence). subst x. rewrite Ej, Px in X. discriminate X.
    + unfold joined. cbn [fst snd]. rewrite String.eqb_refl. reflexivity.
  - intros n I. unfold B in I. apply in_app_or in I. destruct I as [I|[I|[]]].
    + exfalso. apply Fc. apply in_map_iff. exists (name, n). auto.
    + injection I as <-. reflexivity.
  - cbn [app]. apply ids_where_nodup. exact N.
  - cbn [app]. intros I. apply Fh. apply Iids. exact I.
Qed.

Lemma cluster_groups_fold h min groups : NoDup (map fst h) -> (forall x, In x (map fst h) -> String.prefix "cluster_" x = false) ->
  forall done i, (forall d, In d done -> done_ok h d) -> NoDup (map fst done) ->
  NoDup (map (fun d => fst (snd d)) done ++ map fst groups) ->
  (forall ty ids, In (ty, ids) groups -> no_underscore ty /\ ids = ids_where (root_of ty) h) ->
  fst (fold_left (cluster_group min) groups (clustered done h, i)) = clustered (done ++ numbered min i groups) h /\
  (forall d, In d (done ++ numbered min i groups) -> done_ok h d) /\ NoDup (map fst (done ++ numbered min i groups)).
Proof.
  intros N P. induction groups as [|[ty ids] groups IH]; intros done i D ND T G; cbn [fold_left numbered].
  - rewrite app_nil_r. auto.
  - destruct (G ty ids) as [U E]; [left; reflexivity|]. subst ids.
    destruct (Nat.leb_spec min (length (ids_where (root_of ty) h))) as [L|L].
    + assert (Ft : ~ In ty (map (fun d => fst (snd d)) done)).
      { cbn [map fst] in T. apply NoDup_remove_2 in T. intros I. apply T. apply in_or_app. left. exact I. }
      rewrite cluster_step by assumption.
      replace (done ++ (cluster_name ty i, (ty, ids_where (root_of ty) h)) :: numbered min (i + 1) groups)
        with ((done ++ [(cluster_name ty i, (ty, ids_where (root_of ty) h))]) ++ numbered min (i + 1) groups) by (rewrite <- app_assoc; reflexivity).
      apply IH.
      * intros d I. apply in_app_or in I. destruct I as [I|[<-|[]]]; [apply D; exact I|]. split; [exists i; reflexivity|]. auto.
      * rewrite map_app. apply NoDup_app2; [exact ND|repeat constructor; intros []|]. intros x I [<-|[]]. cbn [fst] in I.
        apply in_map_iff in I. destruct I as (d & E & I). destruct (D d I) as ((j & Ej) & Ud & _). rewrite Ej in E.
        apply cluster_name_inj in E; [|exact Ud|exact U]. apply Ft. apply in_map_iff. exists d. auto.
      * rewrite map_app, <- app_assoc. exact T.
      * intros ty' ids' I. apply G. right. exact I.
    + unfold cluster_group at 2. destruct (Nat.leb_spec min (length (ids_where (root_of ty) h))) as [L'|_]; [lia|].
      apply IH; [exact D|exact ND| |].
      * cbn [map fst] in T. apply NoDup_remove_1 in T. exact T.
      * intros ty' ids' I. apply G. right. exact I.
Qed.

Definition clusters_of (min : nat) (h : hierarchy) : list cluster := numbered min 0 (type_groups h).
Lemma auto_cluster_spec min h : NoDup (map fst h) -> (forall x, In x (map fst h) -> String.prefix "cluster_" x = false) ->
  (forall x n, In (x, n) h -> no_underscore (h_type n)) ->
  auto_cluster min h = clustered (clusters_of min h) h /\ (forall d, In d (clusters_of min h) -> done_ok h d) /\ NoDup (map fst (clusters_of min h)).
Proof.
  intros N P U. unfold auto_cluster, clusters_of.
  assert (Z : clustered [] h = h).
  { unfold clustered. cbn [map]. rewrite app_nil_r. rewrite <- (remap_id h) at 2. apply remap_ext. intros x n I. unfold reparented. destruct (h_parent n); reflexivity. }
  rewrite <- Z at 2. apply (cluster_groups_fold h min (type_groups h) N P [] 0).
  - intros d [].
  - constructor.
  - apply type_groups_spec.
  - intros ty ids I. apply type_groups_in in I. destruct I as [-> E]. split; [|reflexivity].
    destruct (ids_where (root_of ty) h) as [|x r] eqn:W; [contradiction|].
    assert (I : In x (ids_where (root_of ty) h)) by (rewrite W; left; reflexivity). apply ids_where_in in I. destruct I as (n & I & R).
    unfold root_of in R. destruct (h_parent n); [discriminate|]. apply String.eqb_eq in R. subst ty. exact (U x n I).
Qed.
Lemma numbered_in min groups : forall i d, In d (numbered min i groups) -> In (snd d) groups /\ min <= length (snd (snd d)).
Proof.
  induction groups as [|[ty ids] groups IH]; intros i d; cbn [numbered]; [intros []|].
  destruct (Nat.leb_spec min (length ids)) as [L|L].
  - intros [<-|I]; [cbn; auto|]. destruct (IH _ _ I). split; [right; assumption|assumption].
  - intros I. destruct (IH _ _ I). split; [right; assumption|assumption].
Qed.
Lemma numbered_all min groups : forall i g, In g groups -> min <= length (snd g) -> exists d, In d (numbered min i groups) /\ snd d = g.
Proof.
  induction groups as [|[ty ids] groups IH]; intros i g I L; [destruct I|]. cbn [numbered]. destruct I as [<-|I].
  - cbn [snd] in L. destruct (Nat.leb_spec min (length ids)) as [_|X]; [|lia]. eexists. split; [left; reflexivity|]. reflexivity.
  - destruct (Nat.leb_spec min (length ids)) as [X|X].
    + destruct (IH (i + 1) g I L) as (d & J & E). exists d. split; [right; exact J|exact E].
    + apply IH; assumption.
Qed.
Lemma clusters_types min h : NoDup (map (fun d => fst (snd d)) (clusters_of min h)).
Proof.
  unfold clusters_of. generalize 0 as i. destruct (type_groups_spec h) as [N _]. revert N. induction (type_groups h) as [|[ty ids] g IH]; intros N i; cbn [numbered]; [constructor|].
  inversion N as [|? ? N1 N2]; subst. destruct (min <=? length ids); [|apply IH; exact N2]. cbn [map fst snd]. constructor; [|apply IH; exact N2].
  intros I. apply N1. apply in_map_iff in I. destruct I as (d & E & I). apply numbered_in in I. apply in_map_iff. exists (snd d). tauto.
Qed.
(** the cluster of a type: there is one when enough roots have that type *)
Lemma find_type_spec min h ty :
  match find_type (clusters_of min h) ty with
  | Some d => In d (clusters_of min h) /\ fst (snd d) = ty /\ snd (snd d) = ids_where (root_of ty) h /\ snd (snd d) <> [] /\ min <= length (snd (snd d))
  | None => ids_where (root_of ty) h = [] \/ length (ids_where (root_of ty) h) < min
  end.
Proof.
  destruct (find_type (clusters_of min h) ty) as [d|] eqn:F.
  - apply find_type_some in F. destruct F as [I E]. pose proof I as J. apply numbered_in in J. destruct J as [J L].
    destruct d as [nm [ty' ids]]. cbn [fst snd] in *. subst ty'. apply type_groups_in in J. destruct J as [J1 J2]. split; [exact I|]. split; [reflexivity|]. auto.
  - destruct (ids_where (root_of ty) h) as [|x r] eqn:W; [left; reflexivity|]. right. destruct (le_lt_dec min (length (x :: r))) as [L|L]; [|exact L].
    exfalso. destruct (numbered_all min (type_groups h) 0 (ty, x :: r)) as (d & J & E).
    + apply type_groups_in. rewrite W. split; [reflexivity|discriminate].
    + exact L.
    + pose proof (find_none _ _ F d J) as X. cbv beta in X. rewrite E in X. cbn in X. rewrite String.eqb_refl in X. discriminate X.
Qed.

(** ** the clustered hierarchy is a forest *)
Definition rank (x : string) : nat := if String.prefix "cluster_" x then 0 else S (String.length x).
Lemma forest_rank r r' h : forest r h -> (forall x n p, In (x, n) h -> h_parent n = Some p -> r p < r x -> r' p < r' x) -> forest r' h.
Proof.
  intros [A B C D] H. constructor; auto. intros x n p I P. destruct (C x n p I P) as [J L]. split; [exact J|]. exact (H x n p I P L).
Qed.
Lemma cluster_forest min h : (forall x, In x (map fst h) -> String.prefix "cluster_" x = false) ->
  (forall x n, In (x, n) h -> no_underscore (h_type n)) -> forest rank h -> forest rank (auto_cluster min h).
Proof.
  intros P U F. pose proof F as [N C Q L]. destruct (auto_cluster_spec min h N P U) as (E & OK & ND). rewrite E.
  set (cl := clusters_of min h) in *.
  assert (Px : forall d, In d cl -> String.prefix "cluster_" (fst d) = true).
  { intros d I. destruct (OK d I) as ((j & ->) & _). apply prefix_iff. unfold cluster_name. eexists. reflexivity. }
  assert (Hin : forall x n, In (x, n) h -> In x (map fst h)) by (intros x n I; apply in_map_iff; exists (x, n); auto).
  assert (Iw : forall p, ids_where (has_parent p) (clustered cl h) = map fst (filter (fun kv => has_parent p (reparented cl (fst kv) (snd kv))) h)).
  { intros p. unfold clustered. rewrite ids_where_app, ids_where_remap. replace (ids_where (has_parent p) (map cluster_node cl)) with (@nil string); [apply app_nil_r|].
    clear. induction cl as [|d cl IH]; [reflexivity|]. cbn [map]. unfold ids_where in *. cbn. exact IH. }
  constructor.
  - unfold clustered. rewrite map_app, remap_ids, map_map. cbn [cluster_node fst]. apply NoDup_app2; [exact N|exact ND|].
    intros x I J. apply P in I. apply in_map_iff in J. destruct J as (d & <- & J). rewrite (Px d J) in I. discriminate I.
  - intros x n I. rewrite Iw. unfold clustered in I. apply in_app_or in I. destruct I as [I|I].
    + apply remap_in in I. destruct I as (m & I & ->).
      replace (h_children (reparented cl x m)) with (h_children m) by (unfold reparented; destruct (h_parent m); [reflexivity|]; destruct (find_type cl (h_type m)); reflexivity).
      rewrite (C x m I). unfold ids_where. f_equal. apply filter_ext_in. intros [y k] J. cbn [fst snd]. unfold has_parent, reparented.
      destruct (h_parent k) as [p|] eqn:Pk; [rewrite Pk; reflexivity|]. pose proof (find_type_spec min h (h_type k)) as S. fold cl in S.
      destruct (find_type cl (h_type k)) as [d|]; cbn [set_parent h_parent]; [|rewrite Pk; reflexivity].
      destruct S as [S _]. destruct (String.eqb_spec (fst d) x) as [X|]; [|reflexivity]. exfalso. pose proof (Px d S) as Y. rewrite X, (P x (Hin x m I)) in Y. discriminate Y.
    + apply in_map_iff in I. destruct I as (d & X & I). unfold cluster_node in X. injection X as <- <-. cbn [h_children].
      destruct (OK d I) as (_ & _ & ->). unfold ids_where. f_equal. apply filter_ext_in. intros [y k] J. cbn [fst snd]. unfold has_parent, reparented, root_of.
      destruct (h_parent k) as [p|] eqn:Pk.
      * rewrite Pk. destruct (String.eqb_spec p (fst d)) as [->|]; [|reflexivity]. exfalso. destruct (Q y k _ J Pk) as [Z _]. apply P in Z. rewrite (Px d I) in Z. discriminate Z.
      * pose proof (find_type_spec min h (h_type k)) as S. fold cl in S. destruct (find_type cl (h_type k)) as [d'|] eqn:Fd; cbn [set_parent h_parent].
        -- destruct S as (I' & T' & _). destruct (String.eqb_spec (fst d') (fst d)) as [Z|Z].
           ++ assert (d' = d). { clear -ND I I' Z. revert ND I I'. induction cl as [|a cl IH]; cbn; intros ND; [intros []|]. inversion ND as [|? ? N1 N2]; subst.
                intros [<-|I] [<-|I']; [reflexivity| | |auto]; exfalso; apply N1; apply in_map_iff; [exists d'|exists d]; auto. }
              subst d'. apply String.eqb_eq. congruence.
           ++ apply String.eqb_neq. intros Y. apply Z. f_equal. assert (TT := clusters_types min h). fold cl in TT.
              clear -TT I I' T' Y. revert TT I I'. induction cl as [|a cl IH]; cbn; intros ND; [intros []|]. inversion ND as [|? ? N1 N2]; subst.
              intros [<-|I] [<-|I']; [reflexivity| | |auto]; exfalso; apply N1; apply in_map_iff; [exists d'|exists d]; split; congruence || assumption.
        -- rewrite Pk. apply String.eqb_neq. intros Y. unfold find_type in Fd. pose proof (find_none _ _ Fd d I) as Z. cbv beta in Z. rewrite Y, String.eqb_refl in Z. discriminate Z.
  - intros x n p I Pn. unfold clustered in I. apply in_app_or in I. destruct I as [I|I].
    + apply remap_in in I. destruct I as (m & I & ->). unfold reparented in Pn. unfold clustered. rewrite map_app, remap_ids.
      destruct (h_parent m) as [q|] eqn:Pm.
      * assert (q = p) by congruence. subst q. destruct (Q x m p I Pm) as [Z R]. split; [apply in_or_app; left; exact Z|exact R].
      * pose proof (find_type_spec min h (h_type m)) as S. fold cl in S. destruct (find_type cl (h_type m)) as [d|]; [|congruence].
        cbn [set_parent h_parent] in Pn. assert (fst d = p) by congruence. subst p. split.
        -- apply in_or_app. right. rewrite map_map. cbn [cluster_node fst]. apply in_map_iff. exists d. tauto.
        -- unfold rank. rewrite (Px d (proj1 S)), (P x (Hin x m I)). lia.
    + apply in_map_iff in I. destruct I as (d & X & I). unfold cluster_node in X. injection X as <- <-. discriminate Pn.
  - intros x n I. unfold clustered in I. apply in_app_or in I. destruct I as [I|I].
    + apply remap_in in I. destruct I as (m & I & ->). unfold reparented. pose proof (L x m I) as Z. destruct (h_parent m); [exact Z|]. destruct (find_type cl (h_type m)); exact Z.
    + apply in_map_iff in I. destruct I as (d & X & I). unfold cluster_node in X. injection X as <- <-. reflexivity.
Qed.
