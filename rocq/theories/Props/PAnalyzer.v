(** C155: an analyzer, or a visualizer, used several times. *)
From Coq Require Import String List Bool Arith.
From Verif Require Import Model.FlaxOptim Model.Graph Model.GraphDocs Model.AnalyzerSession Spec.GraphSpec Spec.AnalyzerSpec Proofs.AnalyzerProofs.
Import ListNotations.
Local Open Scope string_scope.
Local Open Scope list_scope.

(** ** C155 *)
(** Whatever was analyzed before, each call returns the hierarchy, the counters or the document of its own function. *)
Theorem C155_answers (st : style) (fuel : nat) (cluster : bool) (min : nat) (a : analyzer) (l : list use) (a' : analyzer) (gs : list given) :
  usual_uses l -> session st fuel cluster min a l = Some (a', gs) -> Forall2 (answers st fuel cluster min) l gs.
Proof. exact (@session_answers st fuel cluster min l a a' gs). Qed.
(** Each returns what it would return on a new analyzer. *)
Theorem C155_fresh (st : style) (fuel : nat) (cluster : bool) (min : nat) (l : list use) (a a' : analyzer) (gs : list given) (i : nat) (u : use) :
  usual_uses l -> session st fuel cluster min a l = Some (a', gs) -> nth_error l i = Some u ->
  exists g a1, nth_error gs i = Some g /\ session st fuel cluster min new_analyzer [u] = Some (a1, [g]).
Proof. exact (@session_each st fuel cluster min l a a' gs i u). Qed.
(** Refuted: "a dictionary that was returned stays what it was".  After a call, the analyzer holds the hierarchy and the levels of
    the function of that call, and so does every dictionary returned before, alone or in a summary. *)
Theorem C155_dictionary_refuted (st : style) (fuel : nat) (cluster : bool) (min : nat) (l : list use) (u : use) (a a' : analyzer) (gs : list given) :
  usual_uses (l ++ [u]) -> session st fuel cluster min a (l ++ [u]) = Some (a', gs) ->
  alone fuel cluster min u (fst a') (snd a') /\ forall g, In g gs -> holds_dict g -> read_dict a' g = Some (fst a').
Proof. exact (@session_last st fuel cluster min l u a a' gs). Qed.
(** Refuted: "the total_nodes of a summary is the number of nodes in its hierarchy".  After a later call, the counters are those of
    the function of the summary, and its hierarchy that of the later function. *)
Theorem C155_summary_refuted (st : style) (fuel : nat) (cluster : bool) (min : nat) (l : list use) (u : use) (a a' : analyzer) (gs : list given)
  (i : nat) (t : target) (h : hierarchy) (lv : list (nat * list string)) :
  usual_uses (l ++ [u]) -> session st fuel cluster min a (l ++ [u]) = Some (a', gs) ->
  nth_error l i = Some (USummary t) -> analyze_hierarchy fuel cluster min (g_nodes (analyze t empty_graph)) = Some (h, lv) ->
  exists s h2 lv2, nth_error gs i = Some (GSummary s) /\ sm_total s = length h /\ alone fuel cluster min u h2 lv2 /\ read_dict a' (GSummary s) = Some h2.
Proof. exact (@stale_summary st fuel cluster min l u a a' gs i t h lv). Qed.
(** Every sequence of calls ends. *)
Theorem C155_ends (st : style) (cluster : bool) (min : nat) (l : list use) : usual_uses l ->
  exists N, forall fuel a, N <= fuel -> session st fuel cluster min a l <> None.
Proof. exact (@session_ends st cluster min l). Qed.

Module DemoAnalyzer.
  Definition small : target := Plain "f".
  Definition large : target := Transformed "g" [("ewma", PSub [("alpha", PVal)]); ("lin", PSub [("w", PVal)])].
  Definition calls : list use := [USummary small; UAnalyze large; UDocument small "png"; UAnalyze large].
  (** The summary of a function with one node shows, in the end, two nodes. *)
  Example C155_example : usual_uses calls /\
    exists a' gs s h, session default_style 50 false 2 new_analyzer calls = Some (a', gs) /\ gs = [GSummary s; GDict; GUnknown; GDict] /\
      sm_total s = 1 /\ read_dict a' (GSummary s) = Some h /\ map fst h = ["ewma"; "main"].
  Proof.
    split.
    - intros u I. cbn in I. assert (U : use_target u = small \/ use_target u = large) by (intuition subst; cbn; auto).
      destruct U as [-> | ->]; (split; [repeat constructor; cbn; intuition discriminate|]; intros x I2; cbn in I2;
        repeat (destruct I2 as [<-|I2]; [split; [discriminate|intros (s & E); discriminate E]|]); destruct I2).
    - eexists. eexists. eexists. eexists. split; [reflexivity|]. split; [reflexivity|]. split; [reflexivity|]. split; reflexivity.
  Qed.
End DemoAnalyzer.
Print Assumptions C155_answers. Print Assumptions C155_fresh. Print Assumptions C155_dictionary_refuted. Print Assumptions C155_summary_refuted.
Print Assumptions C155_ends. Print Assumptions DemoAnalyzer.C155_example.
