(** Summaries, and the hierarchies of the graphs of computation_graph.py. *)
From Coq Require Import String Ascii List Bool Arith Lia Permutation.
From Verif Require Import Model.FlaxOptim Model.Graph Spec.GraphSpec Proofs.FlaxOptimProofs Proofs.GraphProofs Proofs.GraphProofs2 Proofs.GraphProofs3 Proofs.GraphProofs4 Proofs.GraphProofs5 Proofs.GraphProofs6.
From Verif Require Model.Debug.
Import ListNotations.
Local Open Scope list_scope.

Lemma counted_iff {K : Type} (eqb : K -> K -> bool) (f : hnode -> K) h d : counted eqb f h d ->
  NoDup (map fst d) /\ forall k n, In (k, n) d <-> n = how_many (fun m => eqb (f m) k) h /\ n <> 0.
Proof.
  intros (A & B & C). split; [exact A|]. intros k n. split; [apply B|]. intros [-> Z].
  assert (I : In k (map fst d)) by (apply C; exact Z). apply in_map_iff in I. destruct I as ([k' n'] & E & I). cbn in E. subst k'.
  destruct (B k n' I) as [X _]. change (tally eqb f k h) with (how_many (fun m => eqb (f m) k) h) in X. rewrite <- X. exact I.
Qed.
Lemma summary_spec h levels : let s := hierarchy_summary (h, levels) in
  sm_total s = length h /\ sm_max s = max_level levels /\
  NoDup (map fst (sm_types s)) /\ (forall t n, In (t, n) (sm_types s) <-> n = how_many (fun m => String.eqb (h_type m) t) h /\ n <> 0) /\
  NoDup (map fst (sm_per_level s)) /\ (forall k n, In (k, n) (sm_per_level s) <-> n = how_many (fun m => Nat.eqb (h_level m) k) h /\ n <> 0).
Proof.
  cbv zeta. unfold hierarchy_summary. cbn [sm_total sm_max sm_types sm_per_level fst snd].
  destruct (counted_iff _ _ _ _ (count_by_spec String.eqb String.eqb_eq h_type h)) as [A B].
  destruct (counted_iff _ _ _ _ (count_by_spec Nat.eqb Nat.eqb_eq h_level h)) as [C D].
  split; [reflexivity|]. split; [reflexivity|]. split; [exact A|]. split; [exact B|]. split; [exact C|exact D].
Qed.

Lemma main_plain : plain_key "main".
Proof. split; [discriminate|]. cbn. intuition discriminate. Qed.
Lemma dot_parent_main name ps id p : well_named (PSub ps) ->
  In id (map fst (g_nodes (analyze (Transformed name ps) empty_graph))) ->
  dot_parent (g_nodes (analyze (Transformed name ps) empty_graph)) id p -> p = "main"%string.
Proof.
  intros W I [Ip (b & E & _)]. destruct (graph_nodes_exact name ps W) as [_ X]. cbv zeta in X.
  apply in_map_iff in I. destruct I as ([id' n] & Ei & I). cbn in Ei. subst id'. apply X in I.
  apply in_map_iff in Ip. destruct Ip as ([p' m] & Ei & Ip). cbn in Ei. subst p'. apply X in Ip.
  destruct Ip as [[-> _]|(_ & path & k & d & Ep & M & _)]; [reflexivity|]. exfalso.
  destruct I as [[Em _]|(_ & path' & k' & d' & E' & M' & _)].
  - rewrite Em in E. apply (f_equal list_ascii_of_string) in E. rewrite los_dot in E.
    assert (D : In "."%char (list_ascii_of_string "main")) by (rewrite E; apply in_or_app; right; left; reflexivity).
    exact (proj2 main_plain D).
  - pose proof (module_plain _ _ _ W M) as F. pose proof (module_plain _ _ _ W M') as F'.
    rewrite E' in E. destruct (dotted_split _ _ _ F' E) as (a & q & Epq & Na & Nq & Ea).
    rewrite Epq in *. rewrite Forall_app in F'. assert (path ++ [k] = a) by (apply dotted_inj; [exact F|tauto|congruence]). subst a.
    destruct (module_antichain _ _ _ _ _ W M M') as [Z _]. contradiction.
Qed.
Lemma analyzed_usual name ps : well_named (PSub ps) -> (forall k v, In (k, v) ps -> ~ exists s, k = String.append "cluster_" s) ->
  usual_ids (g_nodes (analyze (Transformed name ps) empty_graph)).
Proof.
  intros W H. destruct (graph_nodes_exact name ps W) as [N X]. cbv zeta in X. split; [exact N|]. intros x I.
  apply in_map_iff in I. destruct I as ([x' n] & Ex & I). cbn in Ex. subst x'. apply X in I. destruct I as [[-> _]|(_ & path & k & d & -> & M & _)].
  - split; [discriminate|]. intros (s & E). discriminate E.
  - pose proof (module_plain _ _ _ W M) as F. split; [apply dotted_nonempty; [destruct path; discriminate|exact F]|].
    intros (s & E). destruct M as (k0 & v & q & Eq & I & _). apply (H k0 v I). rewrite Eq in E. inversion W as [|? ND W']; subst.
    destruct (W' k0 v I) as [[Nk Dk] _].
    destruct q as [|k1 q]; [exists s; exact E|]. rewrite dotted_cons in E by discriminate.
    (* the dot comes after the prefix *)
    clear -E Dk. revert E. generalize (dotted (k1 :: q)) as t. intros t E.
    assert (G : forall a u s, ~ In "."%char (list_ascii_of_string a) -> String.append u (String.append "." t) = String.append a s -> exists s', u = String.append a s').
    { induction a as [|c a IH]; intros u s' D E'; [exists u; reflexivity|]. destruct u as [|c' u]; cbn in E'.
      - injection E' as <- _. exfalso. apply D. left. reflexivity.
      - injection E' as -> E'. destruct (IH u s') as (w & ->); [intros J; apply D; right; exact J|exact E'|]. exists w. reflexivity. }
    apply (G "cluster_"%string k0 s); [cbn; intuition discriminate|exact E].
Qed.
Lemma prefix_not_root fuel min nodes h levels x n p : usual_ids nodes -> analyze_hierarchy fuel false min nodes = Some (h, levels) ->
  In (x, n) h -> begins nodes x p -> h_parent n <> None.
Proof.
  intros U E I B Z. destruct (analyze_plain _ _ _ _ _ U E) as [_ H]. destruct (H x n I) as (m & _ & _ & _ & Np). rewrite Z in Np. destruct Np as [_ Np]. exact (Np p B).
Qed.
Lemma analyze_plain_function name g : g_nodes (analyze (Plain name) empty_graph) = [("main"%string, Node name "Function")] /\ g_edges (analyze (Plain name) g) = g_edges g.
Proof. split; reflexivity. Qed.
Lemma title_titled s : title s = titled s.
Proof.
  destruct s as [|c r]; [reflexivity|]. unfold title, titled. f_equal.
  destruct c as [[] [] [] [] [] [] [] []]; reflexivity.
Qed.
