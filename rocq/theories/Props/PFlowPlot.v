(** Property theorems C154: the streaming plots of DataFlowVisualizer. *)
From Coq Require Import String List Bool Arith Lia ZArith Reals Lra.
From Verif Require Import Model.FlaxOptim Model.Viz Model.FlowPlot Spec.StreamSpec Spec.VizSpec Spec.FlowPlotSpec Proofs.VizProofs Proofs.FlowPlotProofs.
Import ListNotations.
Local Open Scope string_scope.
Local Open Scope nat_scope.
Local Open Scope list_scope.

(** C154: the backend used: the one wanted if its library is there, else matplotlib if it is there, else text; any other name is kept (and works as text). *)
Theorem C154_backend :
  forall (wanted : string) (has_matplotlib has_plotly : bool),
  let b := choose_backend wanted has_matplotlib has_plotly in
  (b = "matplotlib" -> has_matplotlib = true) /\ (b = "plotly" -> has_plotly = true) /\
  (wanted = "matplotlib" -> has_matplotlib = true -> b = wanted) /\ (wanted = "plotly" -> has_plotly = true -> b = wanted) /\
  (wanted <> "matplotlib" -> wanted <> "plotly" -> b = wanted).
Proof.
  intros w m p b. unfold b, choose_backend.
  destruct (String.eqb_spec w "matplotlib") as [A|A]; destruct (String.eqb_spec w "plotly") as [B|B]; destruct m, p; cbn;
    repeat split; intros; try reflexivity; try discriminate; try congruence.
Qed.
Print Assumptions C154_backend.

(** C154: a plot is refused exactly when no tracker is attached. *)
Theorem C154_needs_a_tracker :
  forall (order : list string -> list string) (backend : string) (mx : Z) (k : tracker) (ops : list plot_op) names types kind,
  snd (plot_do order (fst (plot_run order (new_visualizer backend mx k) ops)) (PCreate names types kind)) = OError <-> ~ In PAttach ops.
Proof.
  intros order backend mx k ops names types kind. rewrite create_error, attached_spec. cbn [new_visualizer vz_attached orb]. split.
  - intros H I. assert (T : existsb (fun o => match o with PAttach => true | _ => false end) ops = true) by (apply existsb_exists; exists PAttach; auto). congruence.
  - intros H. destruct (existsb _ ops) eqn:E; [|reflexivity]. apply existsb_exists in E as (o & I & M). destruct o; try discriminate. contradiction.
Qed.
Print Assumptions C154_needs_a_tracker.

(** C154: after an update the last figure created shows the last max_points points of the tracker, whatever was done before, and keeps showing them until the next update. *)
Theorem C154_update :
  forall (order : list string -> list string) (backend : string) (mx : Z) (k : tracker) (a : list plot_op) names types kind (b c : list plot_op) (l : list point),
  let z0 := new_visualizer backend mx k in
  backend = "matplotlib" -> In PAttach a -> creates b = false -> creates c = false -> redraws c = false ->
  get_recent mx (tracker_run k (tracker_calls (a ++ PCreate names types kind :: b))) = l -> l <> [] ->
  exists before, vz_figures (fst (plot_run order z0 (a ++ PCreate names types kind :: b ++ PUpdate :: c))) = before ++ [draw_points order l] /\
    length before = length (vz_figures (fst (plot_run order z0 a))).
Proof. exact @shown_points. Qed.
Print Assumptions C154_update.

(** C154: what it shows of these points: a curve of the numbers and a curve of the sizes of each module; one row per module and a
    marker per point, at its time, in the row of its module, red for inputs, blue for outputs, green for the others; and the flow rates. *)
Theorem C154_drawing :
  forall (order : list string -> list string) (l : list point),
  set_order order ->
  let g := draw_points order l in
  (forall m, sget m (fg_values g) = curve_of scalar_point m l) /\ (forall m, sget m (fg_sizes g) = curve_of size_point m l) /\
  (NoDup (fg_rows g) /\ forall m, In m (fg_rows g) <-> exists p, In p l /\ pt_module p = m) /\
  (length (fg_activity g) = length l /\
   forall i p, nth_error l i = Some p -> exists row c, nth_error (fg_activity g) i = Some (pt_time p, row, c) /\
     nth_error (fg_rows g) row = Some (pt_module p) /\ has_color (pt_type p) c) /\
  fg_rates g = flow_rates l.
Proof. exact @draw_spec. Qed.
Print Assumptions C154_drawing.

(** C154: refuted: "module_names, data_types and plot_type select what is plotted".  They change nothing at all. *)
Theorem C154_filters_refuted :
  forall (order : list string -> list string) (ops ops' : list plot_op) (z : visualizer),
  Forall2 same_but_filters ops ops' -> plot_run order z ops = plot_run order z ops'.
Proof. exact @filters_ignored. Qed.
Print Assumptions C154_filters_refuted.

(** C154: refuted: "every plot created follows the data".  A figure never changes once another was created. *)
Theorem C154_older_figures_refuted :
  forall (order : list string -> list string) (ops : list plot_op) (z : visualizer) (i : nat),
  i + 1 < length (vz_figures z) ->
  nth_error (vz_figures (fst (plot_run order z ops))) i = nth_error (vz_figures z) i.
Proof. exact @run_frozen. Qed.
Print Assumptions C154_older_figures_refuted.

(** C154: refuted: "after the tracker was cleared, the plot is empty".  An update then changes nothing: the old points stay. *)
Theorem C154_cleared_refuted :
  forall (order : list string -> list string) (z : visualizer) (now : R) (ops : list plot_op),
  forallb (fun o => match o with PTrack (TRecord _ _ _ _ _) | PCreate _ _ _ => false | _ => true end) ops = true ->
  vz_figures (fst (plot_run order z (PTrack (TClear now) :: ops))) = vz_figures z.
Proof.
  intros order z now ops. cbn [plot_run plot_do tracker_do]. set (z1 := Visualizer _ _ _ _ _ _).
  assert (E : tk_history (vz_tracker z1) = [] /\ vz_figures z1 = vz_figures z) by (split; reflexivity). clearbody z1. destruct E as (E & F). intros Q.
  replace (vz_figures (fst (let '(z2, l) := plot_run order z1 ops in (z2, ONone :: l)))) with (vz_figures (fst (plot_run order z1 ops))) by (destruct (plot_run order z1 ops); reflexivity).
  rewrite <- F. clear F. revert z1 E. induction ops as [|o ops IH]; intros z1 E; [reflexivity|]. cbn [forallb] in Q. apply andb_prop in Q as (Q1 & Q).
  specialize (IH Q). cbn [plot_run].
  assert (D : tk_history (vz_tracker (fst (plot_do order z1 o))) = [] /\ vz_figures (fst (plot_do order z1 o)) = vz_figures z1).
  { destruct o as [t| |n ty kd|]; try discriminate; [destruct t; try discriminate; cbn; auto; unfold get_module_history; destruct ty as [ty|]; [destruct (String.eqb ty "")|]; cbn; auto|cbn; auto|].
    rewrite update_nothing; [auto|]. unfold get_recent, from_end. rewrite E. destruct (0 <? vz_max z1)%Z; apply skipn_nil. }
  destruct (plot_do order z1 o) as [z2 x]. cbn [fst] in D. destruct D as (D1 & D2). specialize (IH z2 D1). destruct (plot_run order z2 ops). cbn [fst] in *. congruence.
Qed.
Print Assumptions C154_cleared_refuted.

(** C154: refuted: "with the plotly backend the plot shows the data".  It has four traces without points, and updating does nothing. *)
Theorem C154_plotly_refuted :
  forall (order : list string -> list string) (z : visualizer),
  (forall names types kind traces, snd (plot_do order z (PCreate names types kind)) = OPlotly traces -> length traces = 4 /\ Forall (fun t => snd t = []) traces) /\
  (vz_backend z <> "matplotlib" -> plot_do order z PUpdate = (z, ONone)).
Proof. intros order z. split; [exact (@plotly_empty order z)|exact (@update_other order z)]. Qed.
Print Assumptions C154_plotly_refuted.

(** C154: the text: nothing recorded; or the number of modules and the types among the last twenty points, the steps, and one line for each of the last ten points, in order. *)
Theorem C154_text_empty :
  forall (order : list string -> list string) (k : tracker), text_plot order k = [TTitle; TNothing] <-> tk_history k = [].
Proof. exact @text_empty. Qed.
Print Assumptions C154_text_empty.
Theorem C154_text :
  forall (order : list string -> list string) (k : tracker),
  tk_history k <> [] -> set_order order ->
  let recent := lastn 20 (tk_history k) in
  exists modules types points,
    text_plot order k = [TTitle; TModules (length modules); TTypes types; TSteps (tk_steps k); TRecent (Nat.min 20 (length (tk_history k)))] ++ points /\
    (NoDup modules /\ forall m, In m modules <-> exists p, In p recent /\ pt_module p = m) /\
    (NoDup types /\ forall t, In t types <-> exists p, In p recent /\ pt_type p = t) /\
    points = map (fun p => TPoint (pt_step p) (pt_module p) (pt_type p) (display_value (pt_value p))) (lastn 10 (tk_history k)).
Proof. exact @text_spec. Qed.
Print Assumptions C154_text.

(** C154: a value is shown there as a number when it is one or is an array with one entry, as a shape when it is another
    array, as a length when it is a container, as the name of its type otherwise. *)
Theorem C154_value :
  forall v : value,
  (forall x, display_value v = ShowNumber x <-> v = VNum x \/ exists shape, v = VArray shape [x]) /\
  (forall shape, display_value v = ShowArray shape <-> exists d, v = VArray shape d /\ length d <> 1) /\
  (forall n, display_value v = ShowSized n <-> v = VSized n) /\
  (forall name, display_value v = ShowType name <-> v = VObject name).
Proof. exact @display_value_spec. Qed.
Print Assumptions C154_value.

(** Two points of two modules: an order of sets, and the figure drawn. *)
Example C154_order : set_order (nodup string_dec).
Proof. intros l. split; [apply NoDup_nodup|intros x; apply nodup_In]. Qed.
Example C154_witness :
  let pt t m ty x := PTrack (TRecord t m ty (VNum x) []) in
  fg_activity (last (vz_figures (fst (plot_run (nodup string_dec) (new_visualizer "matplotlib" 200 (new_tracker 1000 true true true 0))
    [PAttach; PCreate None None "line"; pt 1%R "a" "input" 5%R; pt 2%R "b" "state" 7%R; pt 3%R "a" "output" 9%R; PUpdate]))) blank) =
  [((1 - 0)%R, 1, Red); ((2 - 0)%R, 0, Green); ((3 - 0)%R, 1, Blue)].
Proof. vm_compute. reflexivity. Qed.
