(** Proofs about sessions of an analyzer. *)
From Coq Require Import String List Bool Arith Lia.
From Verif Require Import Model.FlaxOptim Model.Graph Model.GraphDocs Model.AnalyzerSession Spec.GraphSpec Spec.AnalyzerSpec.
From Verif Require Import Proofs.GraphProofs6 Proofs.GraphProofs7.
Import ListNotations.
Local Open Scope list_scope.

Lemma sset_new {A} k (v : A) d : ~ In k (map fst d) -> sset k v d = d ++ [(k, v)].
Proof.
  induction d as [|[k' v'] d IH]; cbn; [reflexivity|]. intros N. destruct (String.eqb_spec k k') as [->|]; [tauto|]. rewrite IH by tauto. reflexivity.
Qed.
Lemma fill_new {A} (l : list (string * A)) : forall d, NoDup (map fst (d ++ l)) -> fold_left (fun acc kv => sset (fst kv) (snd kv) acc) l d = d ++ l.
Proof.
  induction l as [|[k v] l IH]; intros d N; cbn [fold_left fst snd]; [rewrite app_nil_r; reflexivity|].
  rewrite sset_new.
  - rewrite IH by (rewrite <- app_assoc; exact N). rewrite <- app_assoc. reflexivity.
  - rewrite map_app in N. cbn [map fst] in N. apply NoDup_remove_2 in N. intros I. apply N. apply in_or_app. left. exact I.
Qed.
Lemma fill_empty nodes : NoDup (map fst nodes) -> fill [] nodes = extract_hierarchy nodes.
Proof.
  intros N. unfold fill, extract_hierarchy. rewrite fill_new; [reflexivity|]. cbn [app]. unfold hierarchy_of_nodes. rewrite map_map. exact N.
Qed.
Lemma analyze_again fuel cluster min a nodes : usual_ids nodes ->
  analyze_into fuel cluster min (cleared a) nodes = analyze_hierarchy fuel cluster min nodes.
Proof.
  intros [N _]. unfold analyze_into, cleared, analyze_hierarchy, assign_levels. cbn [fst snd]. cbv zeta. rewrite fill_empty by exact N. reflexivity.
Qed.

Section S.
  Variables (st : style) (fuel : nat) (cluster : bool) (min : nat).
  Notation sess := (session st fuel cluster min).
  Lemma step_answers a u a1 g : usual_ids (nodes_of (use_target u)) -> use_step st fuel cluster min a u = Some (a1, g) ->
    answers st fuel cluster min u g /\ alone fuel cluster min u (fst a1) (snd a1).
  Proof.
    intros U E. unfold use_step in E. rewrite analyze_again in E by exact U.
    destruct (analyze_hierarchy fuel cluster min (nodes_of (use_target u))) as [[h lv]|] eqn:Ea; [|discriminate]. injection E as <- <-. cbn [fst snd].
    split; [|exact Ea]. exists h, lv. split; [exact Ea|]. destruct u as [t|t|t b]; [reflexivity|reflexivity|].
    split; [|split; [|split]]; [intros ->; reflexivity|intros ->; reflexivity|intros ->; reflexivity|].
    intros N. destruct (String.eqb_spec b "graphviz") as [->|]; [cbn in N; tauto|].
    destruct (String.eqb_spec b "cytoscape") as [->|]; [cbn in N; tauto|].
    destruct (String.eqb_spec b "d3") as [->|]; [cbn in N; tauto|]. reflexivity.
  Qed.
  Lemma session_app l : forall a r, sess a (l ++ r) =
    match sess a l with None => None | Some (a1, g1) => match sess a1 r with None => None | Some (a2, g2) => Some (a2, g1 ++ g2) end end.
  Proof.
    induction l as [|u l IH]; intros a r; cbn [app session]; [destruct (sess a r) as [[a2 g2]|]; reflexivity|].
    destruct (use_step st fuel cluster min a u) as [[a1 g]|]; [|reflexivity]. rewrite IH.
    destruct (sess a1 l) as [[a2 g2]|]; [|reflexivity]. destruct (sess a2 r) as [[a3 g3]|]; reflexivity.
  Qed.
  Lemma session_answers l : forall a a' gs, usual_uses l -> sess a l = Some (a', gs) -> Forall2 (answers st fuel cluster min) l gs.
  Proof.
    induction l as [|u l IH]; intros a a' gs U E; cbn [session] in E; [injection E as <- <-; constructor|].
    destruct (use_step st fuel cluster min a u) as [[a1 g]|] eqn:Es; [|discriminate].
    destruct (sess a1 l) as [[a2 g2]|] eqn:El; [|discriminate]. injection E as <- <-. constructor.
    - apply (step_answers a u a1 g); [apply U; left; reflexivity|exact Es].
    - apply (IH a1 a2 g2); [intros v I; apply U; right; exact I|exact El].
  Qed.
  Lemma session_independent l : forall a b, l <> [] -> sess a l = sess b l.
  Proof. destruct l as [|u l]; intros a b H; [contradiction|]. cbn [session]. reflexivity. Qed.
  Lemma session_last l u a a' gs : usual_uses (l ++ [u]) -> sess a (l ++ [u]) = Some (a', gs) ->
    alone fuel cluster min u (fst a') (snd a') /\ forall g, In g gs -> holds_dict g -> read_dict a' g = Some (fst a').
  Proof.
    intros U E. rewrite session_app in E. destruct (sess a l) as [[a1 g1]|]; [|discriminate]. cbn [session] in E.
    destruct (use_step st fuel cluster min a1 u) as [[a2 g]|] eqn:Es; [|discriminate]. injection E as <- <-. split.
    - apply (step_answers a1 u a2 g); [apply U; apply in_or_app; right; left; reflexivity|exact Es].
    - intros x _ [-> |[s ->]]; reflexivity.
  Qed.
  Lemma session_length l a a' gs : usual_uses l -> sess a l = Some (a', gs) -> length gs = length l.
  Proof. intros U E. pose proof (session_answers l a a' gs U E) as F. clear -F. induction F; cbn; congruence. Qed.
  Lemma Forall2_nth_error {A B} (P : A -> B -> Prop) l m : Forall2 P l m -> forall i x, nth_error l i = Some x -> exists y, nth_error m i = Some y /\ P x y.
  Proof. induction 1 as [|x y l m H F IH]; intros [|i] z E; cbn in E |- *; try discriminate; [injection E as <-; eauto|apply IH; exact E]. Qed.
  (** A summary keeps its counters, and shows the hierarchy of the last function. *)
  Lemma stale_summary l u a a' gs i t h lv : usual_uses (l ++ [u]) -> sess a (l ++ [u]) = Some (a', gs) ->
    nth_error l i = Some (USummary t) -> analyze_hierarchy fuel cluster min (nodes_of t) = Some (h, lv) ->
    exists s h2 lv2, nth_error gs i = Some (GSummary s) /\ sm_total s = length h /\ alone fuel cluster min u h2 lv2 /\ read_dict a' (GSummary s) = Some h2.
  Proof.
    intros U E Hi Ht. pose proof (session_answers _ _ _ _ U E) as F.
    assert (Hi2 : nth_error (l ++ [u]) i = Some (USummary t)) by (rewrite nth_error_app1; [exact Hi|apply nth_error_Some; rewrite Hi; discriminate]).
    destruct (Forall2_nth_error _ _ _ F i _ Hi2) as (g & Hg & (h1 & lv1 & Ha & ->)). unfold alone in Ha. cbn [use_target] in Ha. unfold nodes_of in Ht. rewrite Ht in Ha. injection Ha as <- <-.
    destruct (session_last _ _ _ _ _ U E) as [L _]. exists (hierarchy_summary (h, lv)), (fst a'), (snd a'). split; [exact Hg|].
    split; [reflexivity|]. split; [exact L|reflexivity].
  Qed.
  (** What each call returned is what it returns on a new analyzer. *)
  Lemma session_each l a a' gs i u : usual_uses l -> sess a l = Some (a', gs) -> nth_error l i = Some u ->
    exists g a1, nth_error gs i = Some g /\ sess new_analyzer [u] = Some (a1, [g]).
  Proof.
    revert a a' gs i. induction l as [|v l IH]; intros a a' gs i U E Hi; [destruct i; discriminate|].
    cbn [session] in E. destruct (use_step st fuel cluster min a v) as [[a1 g]|] eqn:Es; [|discriminate].
    destruct (sess a1 l) as [[a2 g2]|] eqn:El; [|discriminate]. injection E as <- <-. destruct i as [|i]; cbn [nth_error] in Hi |- *.
    - injection Hi as ->. exists g, a1. split; [reflexivity|]. cbn [session]. change (use_step st fuel cluster min new_analyzer u) with (use_step st fuel cluster min a u). rewrite Es. reflexivity.
    - apply (IH a1 a2 g2 i); [intros w I; apply U; right; exact I|exact El|exact Hi].
  Qed.
End S.
Lemma session_ends st cluster min l : usual_uses l -> exists N, forall fuel a, N <= fuel -> session st fuel cluster min a l <> None.
Proof.
  induction l as [|u l IH]; intros U; [exists 0; discriminate|].
  destruct (IH ltac:(intros v I; apply U; right; exact I)) as [N1 H1].
  pose proof (U u (or_introl eq_refl)) as Uu. destruct (analyze_total cluster min _ Uu) as (N2 & r & H2).
  exists (Nat.max N1 N2). intros fuel a Hf. cbn [session]. unfold use_step. rewrite analyze_again by exact Uu. rewrite H2 by lia.
  specialize (H1 fuel r ltac:(lia)). destruct (session st fuel cluster min r l) as [[a2 g2]|]; [discriminate|contradiction].
Qed.
