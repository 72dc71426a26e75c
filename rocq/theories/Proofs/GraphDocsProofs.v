(** The Graphviz drawing of a hierarchy: each node once, inside the clusters of its ancestors. *)
From Coq Require Import String Ascii List Bool Arith Lia Permutation.
From Verif Require Import Model.FlaxOptim Model.Graph Model.GraphDocs Spec.GraphSpec Spec.GraphDocsSpec Proofs.FlaxOptimProofs Proofs.GraphProofs Proofs.GraphProofs2 Proofs.GraphProofs3 Proofs.GraphProofs4 Proofs.GraphProofs5 Proofs.GraphProofs6.
From Verif Require Model.Debug.
Import ListNotations.
Local Open Scope list_scope.

(** ** one item after the other *)
Definition gv_step (st : style) (shown : string -> string) (h : hierarchy) (f level : nat) (acc : option (list gv_item)) (kv : string * hnode) : option (list gv_item) :=
  match acc with
  | None => None
  | Some items =>
      match h_children (snd kv) with
      | [] => Some (items ++ [GNode (gv_draw_node st shown (fst kv) (snd kv))])
      | _ => match gv_body f st shown h (Some (fst kv)) (level + 1) with
             | Some sub =>
                 Some (items ++ [GCluster (GvFrame (String.append "cluster_" (fst kv))
                                                   (nth (level mod length (st_clusters st)) (st_clusters st) ""%string) (h_name (snd kv)))
                                          (GNode (gv_draw_node st shown (fst kv) (snd kv)) :: sub)])
             | None => None
             end
      end
  end.
Lemma gv_S st shown h f parent level : gv_body (S f) st shown h parent level = fold_left (gv_step st shown h f level) (filter (select parent level) h) (Some []).
Proof. reflexivity. Qed.
Lemma drawn_Sh h f parent level : drawn (S f) h parent level =
  fold_left (fun acc kv => match acc with
                           | None => None
                           | Some ids => match h_children (snd kv) with
                                         | [] => Some (ids ++ [fst kv])
                                         | _ => match drawn f h (Some (fst kv)) (level + 1) with Some sub => Some (ids ++ fst kv :: sub) | None => None end
                                         end
                           end) (filter (select parent level) h) (Some []).
Proof. reflexivity. Qed.

Definition ids_of (items : list gv_item) : list string := map gn_id (flat_map all_nodes items).
Lemma ids_of_app a b : ids_of (a ++ b) = ids_of a ++ ids_of b.
Proof. unfold ids_of. rewrite flat_map_app, map_app. reflexivity. Qed.

(** the nodes are drawn in the order of [drawn] *)
Lemma gv_ids st shown h f : forall parent level, option_map ids_of (gv_body f st shown h parent level) = drawn f h parent level.
Proof.
  induction f as [|f IH]; intros parent level; [reflexivity|]. rewrite gv_S, drawn_Sh. generalize (filter (select parent level) h) as l.
  intros l. change (Some (@nil string)) with (option_map ids_of (Some [])). generalize (Some (@nil gv_item)) as acc.
  induction l as [|[x n] l IHl]; intros acc; [reflexivity|]. cbn [fold_left]. rewrite IHl. f_equal. clear IHl l. destruct acc as [items|]; [|reflexivity].
  unfold gv_step. cbn [option_map fst snd]. destruct (h_children n) as [|c cs].
  - cbn [option_map]. rewrite ids_of_app. reflexivity.
  - rewrite <- IH. destruct (gv_body f st shown h (Some x) (level + 1)) as [sub|]; [|reflexivity]. cbn [option_map]. rewrite ids_of_app. unfold ids_of. cbn.
    rewrite app_nil_r. reflexivity.
Qed.

(** ** inside which clusters *)
Lemma shows_app a b path n : shows (a ++ b) path n <-> shows a path n \/ shows b path n.
Proof.
  split.
  - intros H. inversion H as [? ? I|? ? ? ? ? I J]; subst; apply in_app_or in I; destruct I as [I|I].
    + left. constructor. exact I.
    + right. constructor. exact I.
    + left. econstructor; eassumption.
    + right. econstructor; eassumption.
  - intros [H|H]; (inversion H as [? ? I|? ? ? ? ? I J]; subst; [constructor|econstructor; [|exact J]]; apply in_or_app; auto).
Qed.
Lemma shows_node m path n : shows [GNode m] path n <-> path = [] /\ n = m.
Proof.
  split.
  - intros H. inversion H as [? ? I|? ? ? ? ? I J]; subst; (destruct I as [I|[]]); [split; [reflexivity|congruence]|discriminate I].
  - intros [-> ->]. constructor. left. reflexivity.
Qed.
Lemma shows_cluster c body path n : shows [GCluster c body] path n <-> exists path', path = c :: path' /\ shows body path' n.
Proof.
  split.
  - intros H. inversion H as [? ? I|? ? ? p ? I J]; subst; (destruct I as [I|[]]); [discriminate I|]. injection I as <- <-. exists p. auto.
  - intros (p & -> & J). econstructor; [left; reflexivity|exact J].
Qed.

(** the frame of an ancestor *)
Definition frame_of (st : style) (h : hierarchy) (i : nat) (id : string) (c : gv_frame) : Prop :=
  exists n, In (id, n) h /\ c = GvFrame (String.append "cluster_" id) (nth (i mod length (st_clusters st)) (st_clusters st) ""%string) (h_name n).
(** [frames st h i ids path]: the frames of [ids], from level [i] on *)
Inductive frames (st : style) (h : hierarchy) : nat -> list string -> list gv_frame -> Prop :=
| fr_nil i : frames st h i [] []
| fr_cons i id ids c path : frame_of st h i id c -> frames st h (S i) ids path -> frames st h i (id :: ids) (c :: path).

(** [chain h parent l x]: [l] leads from a child of [parent] (or a root) down to [x], which is its last entry *)
Inductive chain (h : hierarchy) : option string -> list string -> string -> Prop :=
| ch_one parent x n : In (x, n) h -> h_parent n = parent -> chain h parent [x] x
| ch_more parent y n l x : In (y, n) h -> h_parent n = parent -> chain h (Some y) l x -> chain h parent (y :: l) x.

Definition framed (st : style) (shown : string -> string) (h : hierarchy) (parent : option string) (level : nat) (path : list gv_frame) (g : gv_node) : Prop :=
  exists x n l, In (x, n) h /\ g = gv_draw_node st shown x n /\ chain h parent l x /\
    exists up, l = up ++ [x] /\ frames st h level (up ++ match h_children n with [] => [] | _ => [x] end) path.

Lemma gv_framed st shown h f : forall parent level items, gv_body f st shown h parent level = Some items ->
  forall path g, shows items path g -> framed st shown h parent level path g.
Proof.
  induction f as [|f IH]; intros parent level items E path g; [discriminate E|]. rewrite gv_S in E.
  assert (K : forall l, (forall kv, In kv l -> In kv h /\ h_parent (snd kv) = parent) ->
    forall acc, (forall path g, shows acc path g -> framed st shown h parent level path g) ->
    fold_left (gv_step st shown h f level) l (Some acc) = Some items -> forall path g, shows items path g -> framed st shown h parent level path g).
  { induction l as [|[x n] l IHl]; intros Hl acc Hacc El; cbn [fold_left] in El; [assert (acc = items) by congruence; subst; exact Hacc|].
    destruct (Hl (x, n) (or_introl eq_refl)) as [Ix Px]. cbn [snd] in Px.
    assert (Z : forall o, fold_left (gv_step st shown h f level) l o = Some items -> exists a, o = Some a).
    { clear. induction l as [|kv l IHl]; intros o E; cbn in E; [exists items; exact E|]. destruct (IHl _ E) as (a & Ea). destruct o as [o|]; [exists o; reflexivity|discriminate Ea]. }
    destruct (Z _ El) as (acc' & Ea). rewrite Ea in El. eapply IHl; [intros kv I; apply Hl; right; exact I| |exact El].
    clear El IHl Z. unfold gv_step in Ea. cbn [fst snd] in Ea. intros path' g' S.
    destruct (h_children n) as [|c cs] eqn:C.
    - assert (acc' = acc ++ [GNode (gv_draw_node st shown x n)]) by congruence. subst acc'. clear Ea. apply shows_app in S. destruct S as [S|S]; [apply Hacc; exact S|].
      apply shows_node in S. destruct S as [-> ->]. exists x, n, [x]. split; [exact Ix|]. split; [reflexivity|]. split; [econstructor; eassumption|]. exists []. split; [reflexivity|]. rewrite C. constructor.
    - destruct (gv_body f st shown h (Some x) (level + 1)) as [sub|] eqn:Es; [|discriminate Ea].
      assert (Ea' := f_equal (fun o => match o with Some a => a | None => [] end) Ea). cbn in Ea'. rewrite <- Ea' in S. clear Ea Ea' acc'.
      apply shows_app in S. destruct S as [S|S]; [apply Hacc; exact S|]. apply shows_cluster in S. destruct S as (p' & -> & S).
      assert (Fx : frame_of st h level x (GvFrame (String.append "cluster_" x) (nth (level mod length (st_clusters st)) (st_clusters st) ""%string) (h_name n))) by (exists n; auto).
      change (GNode (gv_draw_node st shown x n) :: sub) with ([GNode (gv_draw_node st shown x n)] ++ sub) in S. apply shows_app in S. destruct S as [S|S].
      + apply shows_node in S. destruct S as [-> ->]. exists x, n, [x]. split; [exact Ix|]. split; [reflexivity|]. split; [econstructor; eassumption|]. exists []. split; [reflexivity|].
        rewrite C. cbn [app]. constructor; [exact Fx|constructor].
      + destruct (IH _ _ _ Es _ _ S) as (y & m & l' & Iy & -> & Ch & up & -> & Fr). exists y, m, (x :: up ++ [y]). split; [exact Iy|]. split; [reflexivity|].
        split; [eapply ch_more; eassumption|]. exists (x :: up). split; [reflexivity|]. cbn [app]. constructor; [exact Fx|]. rewrite Nat.add_1_r in Fr. exact Fr. }
  refine (K _ _ [] _ E path g).
  - intros kv I. apply filter_In in I. destruct I as [I I2]. split; [exact I|].
    unfold select in I2. apply andb_true_iff in I2. destruct I2 as [I2 _]. destruct (h_parent (snd kv)) as [a|], parent as [b|]; try discriminate I2; [|reflexivity].
    apply String.eqb_eq in I2. congruence.
  - intros p0 g0 S. inversion S as [? ? I|? ? ? ? ? I _]; destruct I.
Qed.

(** a chain from the roots is a trail *)
Lemma chain_trail h l x : chain h None l x -> trail h x l.
Proof.
  assert (K : forall parent l x, chain h parent l x -> forall lp, match parent with None => lp = [] | Some p => trail h p lp end -> trail h x (lp ++ l)).
  { intros parent l' x' C. induction C as [parent x' n I P|parent y n l' x' I P C IH]; intros lp H.
    - destruct parent as [p|].
      + apply (tr_child h x' p lp); [exists n; auto|exact H].
      + subst lp. constructor. exists n. auto.
    - replace (lp ++ y :: l') with ((lp ++ [y]) ++ l') by (rewrite <- app_assoc; reflexivity). apply IH. destruct parent as [p|].
      + apply (tr_child h y p lp); [exists n; auto|exact H].
      + subst lp. constructor. exists n. auto. }
  intros C. apply (K _ _ _ C []). reflexivity.
Qed.
Lemma frames_nth st h i ids path : frames st h i ids path -> length path = length ids /\
  forall j id, nth_error ids j = Some id -> exists n, In (id, n) h /\
    nth_error path j = Some (GvFrame (String.append "cluster_" id) (nth ((i + j) mod length (st_clusters st)) (st_clusters st) ""%string) (h_name n)).
Proof.
  intros F. induction F as [i|i id ids c path (n & I & ->) F (L & IH)]; [split; [reflexivity|intros [|j] id E; discriminate E]|].
  split; [cbn; congruence|]. intros [|j] id' E; cbn [nth_error] in *.
  - assert (id = id') by congruence. subst id'. exists n. rewrite Nat.add_0_r. auto.
  - destruct (IH j id' E) as (m & J & K). exists m. replace (i + S j) with (S i + j) by lia. auto.
Qed.

(** the nodes shown are those of [all_nodes] *)
Fixpoint isize (i : gv_item) : nat :=
  match i with
  | GNode _ => 1
  | GCluster _ b => S (fold_right (fun x s => isize x + s) 0 b)
  end.
Lemma shows_all items g : In g (flat_map all_nodes items) <-> exists path, shows items path g.
Proof.
  assert (K : forall k items, fold_right (fun x s => isize x + s) 0 items <= k -> In g (flat_map all_nodes items) <-> exists path, shows items path g).
  { induction k as [k IH] using lt_wf_ind. intros l. induction l as [|i l IHl]; intros L.
    - split; [intros []|]. intros (p & H). inversion H as [? ? I|? ? ? ? ? I _]; destruct I.
    - cbn [fold_right] in L. cbn [flat_map]. rewrite in_app_iff, IHl by lia. change (i :: l) with ([i] ++ l). destruct i as [m|c body].
      + split.
        * intros [[->|[]]|(p & H)]; [exists []; apply shows_app; left; apply shows_node; auto|exists p; apply shows_app; auto].
        * intros (p & H). apply shows_app in H. destruct H as [H|H]; [apply shows_node in H; destruct H as [_ ->]; left; left; reflexivity|right; exists p; exact H].
      + cbn [isize] in L. assert (X : In g (flat_map all_nodes body) <-> exists path, shows body path g) by (apply (IH (fold_right (fun x s => isize x + s) 0 body)); [clear -L; lia|apply le_n]).
        cbn [all_nodes]. rewrite X. split.
        * intros [(p & H)|(p & H)]; [exists (c :: p); apply shows_app; left; apply shows_cluster; exists p; auto|exists p; apply shows_app; auto].
        * intros (p & H). apply shows_app in H. destruct H as [H|H]; [left; apply shows_cluster in H; destruct H as (p' & _ & H); exists p'; exact H|right; exists p; exact H]. }
  apply (K _ items (le_n _)).
Qed.

Lemma trail_last h x l : trail h x l -> exists up, l = up ++ [x].
Proof. intros T. destruct T as [x R|x p l P T]; [exists []; reflexivity|exists l; reflexivity]. Qed.
Lemma trail_unique h x l : NoDup (map fst h) -> trail h x l -> forall l', trail h x l' -> l = l'.
Proof.
  intros N T. induction T as [x R|x p l P T IH]; intros l' T'; inversion T' as [? R'|? q l2 P' T2]; subst.
  - reflexivity.
  - exfalso. destruct R as (n & I & E), P' as (m & J & E'). rewrite (nodup_in_eq _ _ _ _ N I J) in E. congruence.
  - exfalso. destruct R' as (n & I & E), P as (m & J & E'). rewrite (nodup_in_eq _ _ _ _ N I J) in E. congruence.
  - destruct P as (n & I & E), P' as (m & J & E'). assert (n = m) by exact (nodup_in_eq _ _ _ _ N I J). subst m. assert (p = q) by congruence. subst q. rewrite (IH _ T2). reflexivity.
Qed.
(** a trail has one entry more than the depth *)
Lemma trail_depth h x l : trail h x l -> exists k, depth_in h x k /\ length l = S k.
Proof.
  intros T. induction T as [x R|x p l P T (k & D & L)]; [exists 0; split; [constructor; exact R|reflexivity]|].
  exists (S k). split; [eapply dep_child; eassumption|]. rewrite app_length, L. cbn. lia.
Qed.

Lemma gv_document_spec fuel cluster min nodes h levels st shown : usual_ids nodes -> analyze_hierarchy fuel cluster min nodes = Some (h, levels) ->
  exists N, forall fuel', N <= fuel' -> exists items, gv_document fuel' st shown h = Some (items, graphviz_edges h) /\
    Permutation (map gn_id (flat_map all_nodes items)) (map fst h) /\
    (forall path g, shows items path g -> exists n up, In (gn_id g, n) h /\ g = gv_draw_node st shown (gn_id g) n /\ trail h (gn_id g) (up ++ [gn_id g]) /\
       let inside := up ++ match h_children n with [] => [] | _ => [gn_id g] end in
       length path = length inside /\
       forall i a, nth_error inside i = Some a -> exists m, In (a, m) h /\
         nth_error path i = Some (GvFrame (String.append "cluster_" a) (nth (i mod length (st_clusters st)) (st_clusters st) ""%string) (h_name m))) /\
    (forall x n, In (x, n) h -> exists path, shows items path (gv_draw_node st shown x n)).
Proof.
  intros U E. destruct (analyze_drawn _ _ _ _ _ _ U E) as (N & D). destruct (analyze_structure _ _ _ _ _ _ U E) as [ND _]. exists N. intros fuel' L. destruct (D fuel' L) as (out & Eo & P).
  rewrite <- (gv_ids st shown) in Eo. unfold gv_document. destruct (gv_body fuel' st shown h None 0) as [items|] eqn:Eb; [|discriminate Eo]. cbn [option_map] in Eo.
  assert (Eo' : ids_of items = out) by congruence. clear Eo. subst out. exists items. split; [reflexivity|]. split; [exact P|]. split.
  - intros path g S. destruct (gv_framed _ _ _ _ _ _ _ Eb _ _ S) as (x & n & l & I & -> & Ch & up & -> & Fr). cbn [gv_draw_node gn_id]. exists n, up.
    split; [exact I|]. split; [reflexivity|]. split; [apply chain_trail; exact Ch|]. cbv zeta. apply frames_nth in Fr. exact Fr.
  - intros x n I. assert (J : In x (ids_of items)). { eapply Permutation_in; [symmetry; exact P|]. apply in_map_iff. exists (x, n). auto. }
    unfold ids_of in J. apply in_map_iff in J. destruct J as (g & <- & J). apply shows_all in J. destruct J as (path & S). exists path.
    destruct (gv_framed _ _ _ _ _ _ _ Eb _ _ S) as (y & m & l & I' & -> & _). cbn [gv_draw_node gn_id] in I. rewrite (nodup_in_eq _ _ _ _ ND I I'). exact S.
Qed.
