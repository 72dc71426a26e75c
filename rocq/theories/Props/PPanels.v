(** C150-C151: what the panels of the dashboards draw, and the interactive pipeline graph. *)
From Coq Require Import String Ascii List Bool Arith ZArith Lia Reals Lra.
From Verif Require Import Model.FlaxOptim Model.Graph Model.Float Model.Viz Model.Panels.
From Verif Require Import Spec.StreamSpec Spec.VizSpec Spec.PanelSpec Spec.DynSpec Proofs.PanelProofs Proofs.PanelProofs2 Proofs.VizProofs.
From Verif Require Spec.GraphSpec.
Import ListNotations.
Local Open Scope list_scope.

(** ** C150 *)
(** A heatmap shows each entry of the array once, the entry of row [i] and column [j] at abscissa [j] and ordinate [i]. *)
Theorem C150_heatmap (w : nat) (rows : list (list fl)) (xs ys : list nat) (vs : list fl) (lo hi : fl) :
  (forall r, In r rows -> length r = w) -> heatmap w rows = Some ((xs, ys, vs), (lo, hi)) ->
  (length xs = length rows * w /\ length ys = length rows * w /\ length vs = length rows * w) /\
  forall i j row v, nth_error rows i = Some row -> nth_error row j = Some v ->
    nth_error xs (i * w + j) = Some j /\ nth_error ys (i * w + j) = Some i /\ nth_error vs (i * w + j) = Some v.
Proof.
  intros W H. destruct (heat_limits _ _ _ _ _ H) as (E & _). pose proof (heat_lengths w rows W) as L. rewrite <- E in L.
  split; [exact L|]. intros i j row v Hi Hj. pose proof (heat_cells w rows i j row v W Hi Hj) as C. rewrite <- E in C. exact C.
Qed.
(** Its colors go from the least entry to the greatest.  Refuted: a single NaN leaves no scale at all; an array
    without entries raises. *)
Theorem C150_scale (w : nat) (rows : list (list fl)) (xs ys : list nat) (vs : list fl) (lo hi : fl) :
  heatmap w rows = Some ((xs, ys, vs), (lo, hi)) -> ~ In NaN (concat rows) -> least lo (concat rows) /\ greatest hi (concat rows).
Proof. intros H. exact (proj1 (proj2 (heat_limits _ _ _ _ _ H))). Qed.
Theorem C150_scale_refuted (w : nat) (rows : list (list fl)) (xs ys : list nat) (vs : list fl) (lo hi : fl) :
  heatmap w rows = Some ((xs, ys, vs), (lo, hi)) -> In NaN (concat rows) -> lo = NaN /\ hi = NaN.
Proof. intros H. exact (proj2 (proj2 (heat_limits _ _ _ _ _ H))). Qed.
Theorem C150_empty_heatmap (w : nat) (rows : list (list fl)) : (forall r, In r rows -> length r = w) ->
  (heatmap w rows = None <-> rows = [] \/ w = 0).
Proof. exact (@heat_defined_w w rows). Qed.

(** The time series panel has one curve per module with a number among the last 200 points, in the order of their first
    numbers; a curve is all the numbers of its module there, in order, at their steps; colors come in turn. *)
Theorem C150_time_series (max : nat) (i o s : bool) (start : R) (ops : list tracker_op) (j : nat) (m : string) (pts : list (nat * R)) (c : string) :
  no_clear ops -> let shown := lastn (Nat.min 200 max) (recorded start 0 ops) in
  nth_error (time_series line_colors (tracker_run (new_tracker max i o s start) ops)) j = Some (m, pts, c) <->
  nth_error (distinct (map pt_module (filter has_number shown))) j = Some m /\ pts = numbers (filter (of_module m) shown) /\
  nth_error line_colors (j mod 10) = Some c.
Proof. exact (@series_nth max i o s start ops j m pts c). Qed.
(** Refuted: "the curves have different colors".  The eleventh has the color of the first. *)
Theorem C150_colors_refuted (j j' : nat) : nth_error line_colors (j mod 10) = nth_error line_colors (j' mod 10) <-> j mod 10 = j' mod 10.
Proof. exact (@colors_repeat j j'). Qed.

(** The distribution panel is the histogram of the numbers among the last 500 points: thirty cells of the same width, from the
    least to the greatest, whose heights count the values in them, each value once. *)
Theorem C150_distribution (max : nat) (i o s : bool) (start : R) (ops : list tracker_op) : no_clear ops ->
  let values := map snd (numbers (lastn (Nat.min 500 max) (recorded start 0 ops))) in
  let quads := distribution (tracker_run (new_tracker max i o s start) ops) in
  (values = [] -> quads = []) /\
  (values <> [] -> exists edges, regular_cells 30 edges values /\ length quads = 30 /\ list_sum (map fst quads) = length values /\
     forall j, j < 30 -> nth_error quads j = Some (length (filter (in_cell (Nat.eqb j 29) (nth j edges 0%R) (nth (j + 1) edges 0%R)) values),
                                                  (nth j edges 0%R, nth (j + 1) edges 0%R))).
Proof. exact (@distribution_spec max i o s start ops). Qed.
(** The histogram, for any number of cells. *)
Theorem C150_histogram (n : nat) (vs : list R) (counts : list nat) (edges : list R) : 0 < n -> np_histogram n vs = Some (counts, edges) ->
  regular_cells n edges vs /\ length counts = n /\ list_sum counts = length vs /\
  forall i, i < n -> nth i counts 0 = length (filter (in_cell (Nat.eqb (i + 1) n) (nth i edges 0%R) (nth (i + 1) edges 0%R)) vs).
Proof. exact (@histogram_spec n vs counts edges). Qed.
(** Refuted: "the panels show the data recorded".  Values which are arrays, and those of jax all are, even without axes,
    appear in neither panel. *)
Theorem C150_arrays_refuted (max : nat) (i o s : bool) (start : R) (ops : list tracker_op) : no_clear ops -> only_arrays ops ->
  time_series line_colors (tracker_run (new_tracker max i o s start) ops) = [] /\
  distribution (tracker_run (new_tracker max i o s start) ops) = [].
Proof. exact (@arrays_missing max i o s start ops). Qed.

(** The performance panel covers the last 51 steps, from the first on; its times are random numbers plus one. *)
Theorem C150_performance (max : nat) (i o s : bool) (start : R) (ops : list tracker_op) (noise : nat -> R) : no_clear ops ->
  performance noise (tracker_run (new_tracker max i o s start) ops) =
  map (fun '(i, s) => (s, (1 + noise i)%R)) (combine (seq 0 51) (lastn 51 (seq 1 (steps_made ops)))).
Proof. exact (@performance_spec max i o s start ops noise). Qed.
(** Refuted: "the performance panel shows the times measured".  Whatever was recorded, at whatever times, it is the same. *)
Theorem C150_performance_refuted (max max' : nat) (i o s i' o' s' : bool) (start start' : R) (ops ops' : list tracker_op) (noise : nat -> R) :
  no_clear ops -> no_clear ops' -> steps_made ops = steps_made ops' ->
  performance noise (tracker_run (new_tracker max i o s start) ops) = performance noise (tracker_run (new_tracker max' i' o' s' start') ops').
Proof. intros N N' E. rewrite !performance_spec by assumption. rewrite E. reflexivity. Qed.

(** The correlation panel draws a symmetric matrix with a unit diagonal, between 0 and 1.  Refuted: "it shows the
    correlations of the modules": it depends on the random numbers only, for four modules which may not exist. *)
Theorem C150_correlation (rand : nat -> nat -> R) (k : tracker) : (forall i j, (0 <= rand i j < 1)%R) ->
  forall i j, correlation rand k i i = 1%R /\ correlation rand k i j = correlation rand k j i /\ (0 <= correlation rand k i j <= 1)%R /\
              (i <> j -> (correlation rand k i j < 1)%R).
Proof. exact (@correlation_spec rand k). Qed.
Theorem C150_correlation_refuted (rand : nat -> nat -> R) (k k' : tracker) (i j : nat) : correlation rand k i j = correlation rand k' i j.
Proof. reflexivity. Qed.

(** The line plots created are all kept, under different names: plot_0, plot_1, ... *)
Theorem C150_registry (A : Type) (ps : list A) : NoDup (map fst (fold_left register_plot ps [])) /\
  forall i, nth_error (fold_left register_plot ps []) i = option_map (pair (String.append "plot_" (str_of_nat i))) (nth_error ps i).
Proof.
  split; [|exact (@registry_nth A ps)]. apply NoDup_nth_error. intros i j L E. rewrite !nth_error_map, !registry_nth in E.
  rewrite map_length, registry, combine_length, map_length, seq_length, Nat.min_id in L.
  destruct (nth_error ps i) eqn:P; [|apply nth_error_None in P; lia]. destruct (nth_error ps j); [|discriminate E].
  cbn [option_map fst] in E. injection E as E. exact (str_of_nat_inj _ _ E).
Qed.

Module DemoPanels.
  Open Scope string_scope. Open Scope list_scope.
  Definition rec (t : R) (m : string) (v : value) : tracker_op := TRecord t m "input" v [].
  Definition ops : list tracker_op := [rec 1 "a" (VNum 5); TStep; rec 2 "b" (VNum 7); rec 3 "c" (VArray [] [1%R]); TStep; rec 4 "a" (VNum 6)].
  Definition run : tracker := tracker_run (new_tracker 1000 true true true 0) ops.
  Example C150_example : no_clear ops /\
    time_series line_colors run = [("a", [(0, 5%R); (2, 6%R)], "#1f77b4"); ("b", [(1, 7%R)], "#ff7f0e")] /\
    map snd (numbers (lastn 500 (recorded 0 0 ops))) = [5; 7; 6]%R /\
    map fst (performance (fun _ => 0%R) run) = [1; 2] /\
    map fst (fold_left register_plot [true; false; true] []) = ["plot_0"; "plot_1"; "plot_2"].
  Proof. split; [intros now I; cbn in I; intuition discriminate|]. repeat split. Qed.
  Definition arrays : list tracker_op := [rec 1 "a" (VArray [] [3%R]); TStep; rec 2 "b" (VArray [2] [1%R; 2%R])].
  Example C150_arrays_example : no_clear arrays /\ only_arrays arrays /\ length (recorded 0 0 arrays) = 2 /\ steps_made arrays = 1.
  Proof.
    split; [intros now I; cbn in I; intuition discriminate|]. split; [|split; reflexivity].
    intros now name ty v md I. cbn in I. destruct I as [E|[E|[E|[]]]]; try discriminate E; injection E; intros; subst; eauto.
  Qed.
  Definition grid : list (list fl) := [[Fin 1; PInf; NInf]; [Fin 3; Fin 5; Fin 6]].
  Example C150_heatmap_example : (forall r, In r grid -> length r = 3) /\ ~ In NaN (concat grid) /\
    heatmap 3 grid = Some (([0; 1; 2; 0; 1; 2], [0; 0; 0; 1; 1; 1], [Fin 1; PInf; NInf; Fin 3; Fin 5; Fin 6]), (NInf, PInf)) /\
    exists c, heatmap 2 [[Fin 1; NaN]] = Some (c, (NaN, NaN)).
  Proof.
    split; [intros r I; cbn in I; intuition (subst; reflexivity)|]. split; [cbn; intuition discriminate|]. split; [reflexivity|].
    eexists. reflexivity.
  Qed.
  Example C150_histogram_example : exists counts edges, np_histogram 2 [0; 1; 2; 2]%R = Some (counts, edges) /\ list_sum counts = 4 /\
    nth 0 counts 0 = 1 /\ nth 1 counts 0 = 3.
  Proof.
    destruct (np_histogram 2 [0; 1; 2; 2]%R) as [[counts edges]|] eqn:E; [|apply histogram_none in E; discriminate E].
    exists counts, edges. split; [reflexivity|]. destruct (histogram_spec 2 _ counts edges ltac:(lia) E) as (RC & L & S & C).
    split; [exact S|]. destruct RC as (_ & _ & R & B & Two & _).
    destruct Two as (I0 & I2). { exists 0%R, 2%R. cbn. split; [tauto|split; [tauto|lra]]. }
    assert (E0 : nth 0 edges 0%R = 0%R).
    { pose proof (B 0%R (or_introl eq_refl)). cbn [In] in I0. lra. }
    assert (E2 : nth 2 edges 0%R = 2%R).
    { pose proof (B 2%R (or_intror (or_intror (or_introl eq_refl)))). cbn [In] in I2. lra. }
    assert (E1 : nth 1 edges 0%R = 1%R). { rewrite (R 1) by lia. rewrite E0, E2. cbn [INR]. lra. }
    rewrite (C 0), (C 1) by lia. cbn [Nat.add]. rewrite E0, E1, E2. cbn [Nat.eqb]. unfold in_cell. split; cbn [filter];
      repeat match goal with |- context [Rle_dec ?a ?b] => destruct (Rle_dec a b); [|exfalso; lra] || (destruct (Rle_dec a b); [exfalso; lra|])
      | |- context [Rlt_dec ?a ?b] => first [destruct (Rlt_dec a b); [|exfalso; lra] | destruct (Rlt_dec a b); [exfalso; lra|]]
      | |- context [Req_EM_T ?a ?b] => first [destruct (Req_EM_T a b); [|exfalso; lra] | destruct (Req_EM_T a b); [exfalso; lra|]] end; reflexivity.
  Qed.
End DemoPanels.

(** ** C151 *)
(** The figure has a marker for each node, in order, at its place in the layout; its color is the number of nodes it is
    linked to. *)
Theorem C151_nodes (pos : string -> R * R) (g : graph) (f : figure) : pipeline_figure pos g = Some f ->
  forall i nm p c, nth_error (fg_nodes f) i = Some (nm, p, c) <->
  exists id n, nth_error (g_nodes g) i = Some (id, n) /\ nm = n_name n /\ p = pos id /\
               exists ts, NoDup ts /\ (forall t, In t ts <-> linked g id t) /\ c = length ts.
Proof. exact (@figure_nodes pos g f). Qed.
(** It has a line from each node to each node it is linked to, once. *)
Theorem C151_lines (pos : string -> R * R) (g : graph) (f : figure) : NoDup (map fst (g_nodes g)) -> pipeline_figure pos g = Some f ->
  exists pairs, NoDup pairs /\ (forall a b, In (a, b) pairs <-> linked g a b) /\
    fg_lines f = flat_map (fun '(a, b) => [Some (pos a); Some (pos b); None]) pairs.
Proof. exact (@figure_lines pos g f). Qed.
(** It cannot be drawn exactly when an edge has an end which is not a node. *)
Theorem C151_defined (pos : string -> R * R) (g : graph) : pipeline_figure pos g = None <->
  exists a b, linked g a b /\ ~ (In a (map fst (g_nodes g)) /\ In b (map fst (g_nodes g))).
Proof. exact (@figure_defined pos g). Qed.
(** Refuted: "the interactive graph shows how the modules are connected".  For every function it has no line at all and
    all its nodes have the same color. *)
Theorem C151_connections_refuted (pos : string -> R * R) (name : string) (ps : list (string * param)) : GraphSpec.well_named (PSub ps) ->
  create_pipeline_graph pos (Transformed name ps) =
  Some (Figure (map (fun '(id, n) => (n_name n, pos id, 0)) (g_nodes (analyze (Transformed name ps) empty_graph))) []).
Proof.
  intros W. rewrite (graph_unlinked pos name ps W). do 2 f_equal. apply map_ext. intros (id, n). reflexivity.
Qed.
Theorem C151_plain (pos : string -> R * R) (name : string) :
  create_pipeline_graph pos (Plain name) = Some (Figure [(name, pos "main"%string, 0)] []).
Proof. reflexivity. Qed.
(** Refuted: "the color is the depth of the node", as the scale of the figure says.  Along a chain of any length all nodes
    but the last have color 1, and the last has color 0. *)
Theorem C151_depth_refuted (pos : string -> R * R) (ids : list string) (n : node) : NoDup ids ->
  exists f, pipeline_figure pos (Graph (map (fun id => (id, n)) ids) (map (fun '(a, b) => Edge a b "") (combine ids (tl ids)))) = Some f /\
  forall i nm p c, nth_error (fg_nodes f) i = Some (nm, p, c) -> c = (if Nat.ltb (i + 1) (length ids) then 1 else 0).
Proof.
  intros ND. pose proof (chain_defined pos ids n) as D. destruct (pipeline_figure pos _) as [f|] eqn:E; [|contradiction].
  exists f. split; [reflexivity|]. exact (chain_colors pos ids n f ND E).
Qed.
Module DemoFigure.
  Open Scope string_scope. Open Scope list_scope.
  Definition g : graph := Graph [("m", Node "main" "Function"); ("a", Node "A" "Dense"); ("b", Node "B" "EWMA")]
                                [Edge "m" "a" "x"; Edge "m" "b" ""; Edge "m" "a" "y"; Edge "b" "a" ""].
  Definition pos (id : string) : R * R := if String.eqb id "m" then (0, 0)%R else if String.eqb id "a" then (1, 0)%R else (0, 1)%R.
  Example C151_example : NoDup (map fst (g_nodes g)) /\
    pipeline_figure pos g = Some (Figure [("main", (0, 0)%R, 2); ("A", (1, 0)%R, 0); ("B", (0, 1)%R, 1)]
      [Some (0, 0)%R; Some (1, 0)%R; None; Some (0, 0)%R; Some (0, 1)%R; None; Some (0, 1)%R; Some (1, 0)%R; None]) /\
    pipeline_figure pos (Graph (g_nodes g) [Edge "m" "z" ""]) = None /\ NoDup ["a"; "b"; "c"].
  Proof. split; [repeat constructor; cbn; intuition discriminate|]. split; [reflexivity|]. split; [reflexivity|]. repeat constructor; cbn; intuition discriminate. Qed.
  Definition ps : list (string * param) := [("enc", PSub [("l1", PSub [("kernel", PVal); ("bias", PVal)])]); ("head", PSub [("bias", PVal)])].
  Example C151_analyzed_example : GraphSpec.well_named (PSub ps) /\ map fst (g_nodes (analyze (Transformed "model" ps) empty_graph)) = ["enc.l1"; "head"; "main"].
  Proof.
    split; [|vm_compute; reflexivity]. assert (P : forall k, In k ["enc"; "l1"; "kernel"; "bias"; "head"] -> GraphSpec.plain_key k).
    { intros k I. cbn in I. repeat (destruct I as [<-|I]; [split; [discriminate|cbn; intuition discriminate]|]). destruct I. }
    unfold ps.
    repeat first [ apply GraphSpec.wn_val | (apply GraphSpec.wn_sub; [cbn; repeat constructor; cbn; intuition discriminate|]; intros k v I; cbn in I)
                 | (destruct I as [I|I]; [injection I as <- <-; split; [apply P; cbn; tauto|]|]) | destruct I ].
  Qed.
End DemoFigure.

Print Assumptions C150_heatmap.
Print Assumptions C150_scale.
Print Assumptions C150_scale_refuted.
Print Assumptions C150_empty_heatmap.
Print Assumptions C150_time_series.
Print Assumptions C150_colors_refuted.
Print Assumptions C150_distribution.
Print Assumptions C150_histogram.
Print Assumptions C150_arrays_refuted.
Print Assumptions C150_performance.
Print Assumptions C150_performance_refuted.
Print Assumptions C150_correlation.
Print Assumptions C150_correlation_refuted.
Print Assumptions C150_registry.
Print Assumptions C151_nodes.
Print Assumptions C151_lines.
Print Assumptions C151_defined.
Print Assumptions C151_connections_refuted.
Print Assumptions C151_plain.
Print Assumptions C151_depth_refuted.
