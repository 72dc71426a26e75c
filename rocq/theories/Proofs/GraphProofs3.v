(** The hierarchy built from the nodes of a graph: parents, children, clusters. *)
From Coq Require Import String Ascii List Bool Arith Lia Permutation.
From Verif Require Import Model.FlaxOptim Model.Graph Spec.GraphSpec Proofs.FlaxOptimProofs Proofs.GraphProofs Proofs.GraphProofs2.
From Verif Require Model.Debug.
Import ListNotations.
Local Open Scope list_scope.

(** ** entry-wise changes of a dictionary *)
Definition remap (F : string -> hnode -> hnode) (h : hierarchy) : hierarchy := map (fun kv => (fst kv, F (fst kv) (snd kv))) h.
Lemma remap_ids F h : map fst (remap F h) = map fst h.
Proof. unfold remap. rewrite map_map. reflexivity. Qed.
Lemma remap_ext F G h : (forall x n, In (x, n) h -> F x n = G x n) -> remap F h = remap G h.
Proof. intros H. unfold remap. apply map_ext_in. intros [x n] I. cbn. rewrite (H x n I). reflexivity. Qed.
Lemma remap_id h : remap (fun _ n => n) h = h.
Proof. unfold remap. rewrite <- (map_id h) at 2. apply map_ext. intros [x n]. reflexivity. Qed.
Lemma remap_remap F G h : remap F (remap G h) = remap (fun x n => F x (G x n)) h.
Proof. unfold remap. rewrite map_map. reflexivity. Qed.
Lemma remap_app F h h' : remap F (h ++ h') = remap F h ++ remap F h'.
Proof. apply map_app. Qed.
Lemma remap_in F h x n : In (x, n) (remap F h) <-> exists m, In (x, m) h /\ n = F x m.
Proof.
  unfold remap. rewrite in_map_iff. split.
  - intros ([y m] & E & I). cbn in E. injection E as -> <-. exists m. auto.
  - intros (m & I & ->). exists (x, m). auto.
Qed.
Lemma sget_remap F h k : sget k (remap F h) = option_map (F k) (sget k h).
Proof.
  induction h as [|[x n] h IH]; cbn; [reflexivity|]. destruct (String.eqb_spec k x) as [->|N]; [reflexivity|exact IH].
Qed.
Lemma sset_remap F h k v : NoDup (map fst h) -> In k (map fst h) ->
  sset k v (remap F h) = remap (fun x n => if String.eqb x k then v else F x n) h.
Proof.
  induction h as [|[x n] h IH]; cbn [map fst]; intros N I; [destruct I|]. inversion N as [|? ? N1 N2]; subst.
  cbn [remap map fst snd sset]. destruct (String.eqb_spec k x) as [->|D].
  - rewrite String.eqb_refl. f_equal. apply (remap_ext F (fun y m => if String.eqb y x then v else F y m) h). intros y m J. destruct (String.eqb_spec y x) as [->|]; [|reflexivity].
    exfalso. apply N1. apply in_map_iff. exists (x, m). auto.
  - destruct I as [E|I]; [congruence|]. destruct (String.eqb_spec x k) as [->|]; [congruence|]. f_equal. apply IH; assumption.
Qed.
Lemma update_remap F h k f : NoDup (map fst h) ->
  update_node k f (remap F h) = remap (fun x n => if String.eqb x k then f (F x n) else F x n) h.
Proof.
  intros N. unfold update_node. rewrite sget_remap. destruct (sget k h) as [m|] eqn:E; cbn [option_map].
  - rewrite sset_remap; [|exact N|apply in_map_iff; exists (k, m); split; [reflexivity|apply sget_in; exact E]].
    apply remap_ext. intros x n I. destruct (String.eqb_spec x k) as [->|]; [|reflexivity].
    apply sget_in in E. rewrite (nodup_in_eq _ _ _ _ N I E). reflexivity.
  - apply remap_ext. intros x n I. destruct (String.eqb_spec x k) as [->|]; [|reflexivity].
    exfalso. apply sget_none in E. apply E. apply in_map_iff. exists (k, n). auto.
Qed.

Lemma ids_where_app f l l' : ids_where f (l ++ l') = ids_where f l ++ ids_where f l'.
Proof. unfold ids_where. rewrite filter_app, map_app. reflexivity. Qed.
Lemma ids_where_in f h x : In x (ids_where f h) <-> exists n, In (x, n) h /\ f n = true.
Proof.
  unfold ids_where. rewrite in_map_iff. split.
  - intros ([y n] & <- & I). apply filter_In in I. exists n. exact I.
  - intros (n & I & E). exists (x, n). split; [reflexivity|]. apply filter_In. auto.
Qed.
Lemma ids_where_nodup f h : NoDup (map fst h) -> NoDup (ids_where f h).
Proof.
  unfold ids_where. induction h as [|[x n] h IH]; cbn; intros N; [constructor|]. inversion N as [|? ? N1 N2]; subst.
  destruct (f n); cbn; [|auto]. constructor; [|auto]. intros I. apply N1. apply in_map_iff in I. destruct I as (kv & E & J).
  apply filter_In in J. apply in_map_iff. exists kv. tauto.
Qed.
Lemma ids_where_remap f F h : ids_where f (remap F h) = map fst (filter (fun kv => f (F (fst kv) (snd kv))) h).
Proof.
  unfold ids_where, remap. induction h as [|[x n] h IH]; cbn; [reflexivity|]. destruct (f (F x n)); cbn; rewrite IH; reflexivity.
Qed.
Lemma ids_where_remap_same f F h : (forall x n, In (x, n) h -> f (F x n) = f n) -> ids_where f (remap F h) = ids_where f h.
Proof.
  intros H. rewrite ids_where_remap. unfold ids_where. f_equal. apply filter_ext_in. intros [x n] I. apply H. exact I.
Qed.

(** ** children *)
Definition plus_children (l : list string) (n : hnode) : hnode := HNode (h_name n) (h_type n) (h_level n) (h_parent n) (h_children n ++ l).
Lemma plus_children_nil n : plus_children [] n = n.
Proof. unfold plus_children. rewrite app_nil_r. destruct n; reflexivity. Qed.
Lemma add_child_fresh c n : ~ In c (h_children n) -> add_child c n = plus_children [c] n.
Proof.
  intros H. unfold add_child. destruct (existsb (String.eqb c) (h_children n)) eqn:E; [|reflexivity].
  exfalso. apply existsb_exists in E. destruct E as (x & I & E). apply String.eqb_eq in E. subst x. contradiction.
Qed.
Lemma plus_children_app l l' n : plus_children l' (plus_children l n) = plus_children (l ++ l') n.
Proof. unfold plus_children. cbn. rewrite app_assoc. reflexivity. Qed.

Lemma link_fold h : NoDup (map fst h) -> (forall x n, In (x, n) h -> h_children n = [] /\ h_parent n <> Some ""%string) ->
  forall l2 l1, h = l1 ++ l2 ->
  fold_left (fun acc kv => match h_parent (snd kv) with
                           | Some p => if negb (String.eqb p "") then update_node p (add_child (fst kv)) acc else acc
                           | None => acc
                           end) l2 (remap (fun x n => plus_children (ids_where (has_parent x) l1) n) h)
  = remap (fun x n => plus_children (ids_where (has_parent x) h) n) h.
Proof.
  intros N C l2. induction l2 as [|[c m] l2 IH]; intros l1 E; cbn [fold_left fst snd].
  - rewrite app_nil_r in E. subst l1. reflexivity.
  - assert (Ic : In (c, m) h) by (rewrite E; apply in_or_app; right; left; reflexivity).
    destruct (C c m Ic) as [_ Cp].
    assert (Fc : ~ In c (map fst l1)).
    { intros I. rewrite E, map_app in N. cbn in N. apply NoDup_remove_2 in N. apply N. apply in_or_app. left. exact I. }
    destruct (h_parent m) as [p|] eqn:P.
    + destruct (String.eqb_spec p "") as [->|Np]; [congruence|]. cbn [negb]. rewrite update_remap by exact N.
      etransitivity; [|apply (IH (l1 ++ [(c, m)])); rewrite <- app_assoc; exact E]. f_equal. apply remap_ext.
      intros x n I. rewrite ids_where_app.
      replace (ids_where (has_parent x) [(c, m)]) with (if String.eqb p x then [c] else [])
        by (unfold ids_where, has_parent; cbn [filter snd]; rewrite P; destruct (String.eqb p x); reflexivity).
      rewrite (String.eqb_sym x p). destruct (String.eqb_spec p x) as [->|D].
      * rewrite add_child_fresh; [apply plus_children_app|]. cbn [plus_children h_children]. destruct (C x n I) as [-> _]. cbn [app].
        intros J. apply ids_where_in in J. destruct J as (m' & J & _). apply Fc. apply in_map_iff. exists (c, m'). auto.
      * rewrite app_nil_r. reflexivity.
    + etransitivity; [|apply (IH (l1 ++ [(c, m)])); rewrite <- app_assoc; exact E]. f_equal. apply remap_ext.
      intros x n I. rewrite ids_where_app.
      replace (ids_where (has_parent x) [(c, m)]) with (@nil string)
        by (unfold ids_where, has_parent; cbn [filter snd]; rewrite P; reflexivity).
      rewrite app_nil_r. reflexivity.
Qed.
Lemma link_children_spec h : NoDup (map fst h) -> (forall x n, In (x, n) h -> h_children n = [] /\ h_parent n <> Some ""%string) ->
  link_children h = remap (fun x n => plus_children (ids_where (has_parent x) h) n) h.
Proof.
  intros N C. unfold link_children. rewrite <- (link_fold h N C h []); [|reflexivity]. f_equal.
  rewrite <- (remap_id h) at 1. apply remap_ext. intros x n I. cbn. rewrite plus_children_nil. reflexivity.
Qed.

(** ** the parent given by the name *)
Lemma before_last_dot_some s p : before_last_dot s = Some p <-> exists b, s = String.append p (String.append "." b) /\ ~ In "."%char (list_ascii_of_string b).
Proof.
  revert p. induction s as [|c s IH]; intros p; cbn [before_last_dot].
  - split; [discriminate|]. intros (b & E & _). destruct p; discriminate E.
  - assert (ND : before_last_dot s = None -> ~ In "."%char (list_ascii_of_string s)).
    { clear. induction s as [|c s IH]; cbn; [auto|]. destruct (before_last_dot s); [discriminate|]. destruct (Ascii.eqb_spec c "."); [discriminate|].
      intros _ [E|I]; [congruence|apply IH; auto]. }
    destruct (before_last_dot s) as [q|] eqn:B.
    + split.
      * intros E. injection E as <-. destruct (proj1 (IH q) eq_refl) as (b & -> & D). exists b. auto.
      * intros (b & E & D). destruct p as [|c' p].
        -- cbn in E. injection E as -> ->. exfalso. destruct (proj1 (IH q) eq_refl) as (b' & -> & _). apply D.
           rewrite los_dot. apply in_or_app. right. left. reflexivity.
        -- cbn in E. injection E as -> E. f_equal. f_equal.
           assert (Some q = Some p) by (apply IH; exists b; auto). congruence.
    + specialize (ND eq_refl). destruct (Ascii.eqb_spec c ".") as [->|Nc].
      * split.
        -- intros E. injection E as <-. exists s. auto.
        -- intros (b & E & D). destruct p as [|c' p]; [reflexivity|]. cbn in E. injection E as _ E. exfalso. apply ND. rewrite E.
           change (String "." b) with (String.append "." b). rewrite los_dot. apply in_or_app. right. left. reflexivity.
      * split; [discriminate|]. intros (b & E & D). exfalso. destruct p as [|c' p]; cbn in E; injection E as Ec E; [congruence|].
        apply ND. rewrite E. change (String "." b) with (String.append "." b). rewrite los_dot. apply in_or_app. right. left. reflexivity.
Qed.

Lemma append_length a b : String.length (String.append a b) = String.length a + String.length b.
Proof. induction a; cbn; lia. Qed.
Lemma append_self a s : a = String.append a s -> s = ""%string.
Proof. intros E. apply (f_equal String.length) in E. rewrite append_length in E. destruct s; [reflexivity|cbn in E; lia]. Qed.

Definition container_test (id : string) (kv : string * node) : bool :=
  negb (String.eqb (fst kv) id) && String.eqb (n_type (snd kv)) "Module" && String.prefix (fst kv) id.
Lemma container_iff nodes id p n : In (p, n) nodes ->
  container_test id (p, n) = true -> begins nodes id p.
Proof.
  intros I H. unfold container_test in H. cbn [fst snd] in H. apply andb_true_iff in H. destruct H as [H P]. apply andb_true_iff in H.
  destruct H as [D T]. apply negb_true_iff, String.eqb_neq in D. apply String.eqb_eq in T. apply prefix_iff in P. destruct P as (s & E).
  exists n, s. split; [exact I|]. split; [exact T|]. split; [exact E|]. intros ->. rewrite append_nil_r in E. congruence.
Qed.
Lemma begins_test nodes id p n : NoDup (map fst nodes) -> In (p, n) nodes -> begins nodes id p -> container_test id (p, n) = true.
Proof.
  intros N I (n' & s & I' & T & E & S). rewrite (nodup_in_eq _ _ _ _ N I I'). unfold container_test. cbn [fst snd]. rewrite T.
  rewrite String.eqb_refl. rewrite andb_true_r. apply andb_true_iff. split.
  - apply negb_true_iff, String.eqb_neq. intros ->. apply S. apply append_self in E. exact E.
  - apply prefix_iff. exists s. exact E.
Qed.
Lemma dot_parent_iff nodes id p : dot_parent nodes id p <-> before_last_dot id = Some p /\ In p (map fst nodes).
Proof. unfold dot_parent. rewrite before_last_dot_some. tauto. Qed.

Lemma infer_parent_named nodes id : NoDup (map fst nodes) -> named_parent nodes id (infer_parent id nodes).
Proof.
  intros N. unfold infer_parent. cbv zeta. fold (container_test id).
  assert (B : (forall q, ~ dot_parent nodes id q) -> named_parent nodes id (option_map fst (find (container_test id) nodes))).
  { intros D. destruct (find (container_test id) nodes) as [[p n]|] eqn:F; cbn [option_map fst named_parent].
    - right. split; [exact D|]. destruct (find_split _ _ _ F) as (l1 & l2 & E & T & H).
      assert (I : In (p, n) nodes) by (rewrite E; apply in_or_app; right; left; reflexivity).
      split; [apply (container_iff nodes id p n I T)|]. exists l1, n, l2. split; [exact E|]. intros q J Bq.
      apply in_map_iff in J. destruct J as ([q' m] & Eq & J). cbn in Eq. subst q'. pose proof (H _ J) as X.
      rewrite (begins_test nodes id q m N) in X; [discriminate X| |exact Bq]. rewrite E. apply in_or_app. left. exact J.
    - split; [exact D|]. intros q Bq. pose proof Bq as (n & s & I & _). pose proof (find_none _ _ F _ I) as X.
      rewrite (begins_test nodes id q n N I Bq) in X. discriminate X. }
  destruct (before_last_dot id) as [p|] eqn:E.
  - destruct (mem_key p nodes) eqn:M.
    + left. apply dot_parent_iff. split; [exact E|]. apply mem_key_in. exact M.
    + apply B. intros q D. apply dot_parent_iff in D. destruct D as [D I]. assert (q = p) by congruence. subst q. apply mem_key_in in I. congruence.
  - apply B. intros q D. apply dot_parent_iff in D. destruct D as [D _]. congruence.
Qed.
(** a parent is another node, with a shorter id *)
Lemma infer_parent_shorter nodes id p : infer_parent id nodes = Some p -> In p (map fst nodes) /\ String.length p < String.length id.
Proof.
  unfold infer_parent. cbv zeta. fold (container_test id).
  assert (B : option_map fst (find (container_test id) nodes) = Some p -> In p (map fst nodes) /\ String.length p < String.length id).
  { destruct (find (container_test id) nodes) as [[q n]|] eqn:F; cbn; [|discriminate]. intros E. injection E as ->.
    apply find_some in F. destruct F as [I T]. destruct (container_iff _ _ _ _ I T) as (n' & s & I' & _ & E & S).
    split; [apply in_map_iff; exists (p, n); auto|]. rewrite E, append_length. destruct s; [contradiction|]. cbn. lia. }
  destruct (before_last_dot id) as [q|] eqn:E; [|exact B]. destruct (mem_key q nodes) eqn:M; [|exact B].
  intros X. injection X as ->. split; [apply mem_key_in; exact M|]. apply before_last_dot_some in E. destruct E as (b & -> & _).
  rewrite append_length. cbn. lia.
Qed.

(** ** forests *)
Record forest (rank : string -> nat) (h : hierarchy) : Prop := {
  f_nodup : NoDup (map fst h);
  f_children : forall x n, In (x, n) h -> h_children n = ids_where (has_parent x) h;
  f_parent : forall x n p, In (x, n) h -> h_parent n = Some p -> In p (map fst h) /\ rank p < rank x;
  f_level : forall x n, In (x, n) h -> h_level n = 0 }.

Lemma hierarchy_ids nodes : map fst (hierarchy_of_nodes nodes) = map fst nodes.
Proof. unfold hierarchy_of_nodes. rewrite map_map. reflexivity. Qed.
Lemma hierarchy_in nodes x n : In (x, n) (hierarchy_of_nodes nodes) <->
  exists m, In (x, m) nodes /\ n = HNode (n_name m) (classify (n_type m)) 0 (infer_parent x nodes) [].
Proof.
  unfold hierarchy_of_nodes. rewrite in_map_iff. split.
  - intros ([y m] & E & I). cbn in E. injection E as -> <-. exists m. auto.
  - intros (m & I & ->). exists (x, m). auto.
Qed.
Definition good_nodes (nodes : list (string * node)) : Prop := NoDup (map fst nodes) /\ ~ In ""%string (map fst nodes).
Lemma extract_hierarchy_spec nodes : good_nodes nodes ->
  extract_hierarchy nodes = remap (fun x n => plus_children (ids_where (has_parent x) (hierarchy_of_nodes nodes)) n) (hierarchy_of_nodes nodes).
Proof.
  intros [N E]. unfold extract_hierarchy. apply link_children_spec; [rewrite hierarchy_ids; exact N|].
  intros x n I. apply hierarchy_in in I. destruct I as (m & I & ->). cbn. split; [reflexivity|]. intros P.
  apply infer_parent_shorter in P. apply E. tauto.
Qed.
Lemma extract_in nodes x n : good_nodes nodes -> (In (x, n) (extract_hierarchy nodes) <->
  exists m, In (x, m) nodes /\ n = HNode (n_name m) (classify (n_type m)) 0 (infer_parent x nodes) (ids_where (has_parent x) (extract_hierarchy nodes))).
Proof.
  intros G. assert (W : forall p, ids_where (has_parent p) (extract_hierarchy nodes) = ids_where (has_parent p) (hierarchy_of_nodes nodes)).
  { intros p. rewrite extract_hierarchy_spec by exact G. apply ids_where_remap_same. reflexivity. }
  rewrite W. rewrite extract_hierarchy_spec by exact G. rewrite remap_in. split.
  - intros (m & I & ->). apply hierarchy_in in I. destruct I as (a & I & ->). exists a. split; [exact I|]. reflexivity.
  - intros (m & I & ->). exists (HNode (n_name m) (classify (n_type m)) 0 (infer_parent x nodes) []). split; [|reflexivity]. apply hierarchy_in. exists m. auto.
Qed.
Lemma extract_ids nodes : good_nodes nodes -> map fst (extract_hierarchy nodes) = map fst nodes.
Proof. intros G. rewrite extract_hierarchy_spec by exact G. rewrite remap_ids. apply hierarchy_ids. Qed.
Lemma extract_forest nodes : good_nodes nodes -> forest (fun x => S (String.length x)) (extract_hierarchy nodes).
Proof.
  intros G. pose proof G as [N E]. constructor.
  - rewrite extract_ids by exact G. exact N.
  - intros x n I. apply extract_in in I; [|exact G]. destruct I as (m & I & ->). reflexivity.
  - intros x n p I P. apply extract_in in I; [|exact G]. destruct I as (m & I & ->). cbn in P. rewrite extract_ids by exact G.
    apply infer_parent_shorter in P. split; [tauto|]. lia.
  - intros x n I. apply extract_in in I; [|exact G]. destruct I as (m & I & ->). reflexivity.
Qed.
