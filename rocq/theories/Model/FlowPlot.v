(** Model of DataFlowVisualizer, /repo/src/wax/flax/visualization/data_flow_visualizer.py 172-506: the choice of the backend,
    create_streaming_plot, update_plot and what they draw from the tracker.  Drawing itself (axes, titles, marker sizes, the
    logarithmic scale of the sizes) and the monitoring loops (508-545) are not modelled.  [order]: the order in which
    iterating over a set of names gives them; it is not determined. *)
From Coq Require Import String List Bool Arith ZArith Reals.
From Verif Require Import Model.FlaxOptim Model.Viz.
Import ListNotations.
Local Open Scope string_scope.
Local Open Scope list_scope.

(** __init__, 207-213: the backend used *)
Definition choose_backend (wanted : string) (has_matplotlib has_plotly : bool) : string :=
  if String.eqb wanted "matplotlib" && negb has_matplotlib then "text"
  else if String.eqb wanted "plotly" && negb has_plotly then (if has_matplotlib then "matplotlib" else "text")
  else wanted.

Inductive color := Red | Blue | Green.
(** What the four axes of a figure show, 242-287 and 384-494: curves of values and of sizes, a marker at (time, row) per
    point, the names of the rows, the curve of rates. *)
Record figure := Figure { fg_values : list (string * list (nat * R)); fg_sizes : list (string * list (nat * nat));
                          fg_activity : list (R * nat * color); fg_rows : list string; fg_rates : list (R * R) }.
Definition blank : figure := Figure [] [] [] [] [].
(** 445-452 *)
Definition type_color (ty : string) : color := if String.eqb ty "input" then Red else if String.eqb ty "output" then Blue else Green.
(** position of a name in a list: module_y_pos, 442 *)
Fixpoint row_of (m : string) (rows : list string) : nat :=
  match rows with [] => 0 | x :: r => if String.eqb m x then 0 else Datatypes.S (row_of m r) end.
(** _update_matplotlib_plot, 390-494, on the points [l] *)
Definition draw_points (order : list string -> list string) (l : list point) : figure :=
  let rows := order (map pt_module l) in
  Figure (group_points scalar_point l) (group_points size_point l)
         (map (fun p => (pt_time p, row_of (pt_module p) rows, type_color (pt_type p))) l) rows
         (if Nat.ltb 1 (length l) then flow_rates l else []).

(** _format_value_for_display, 353-372: a number (three decimals), the shape of an array, the length of a container, a type *)
Inductive shown_value := ShowNumber (x : R) | ShowArray (shape : list nat) | ShowSized (n : nat) | ShowType (name : string).
Definition display_value (v : value) : shown_value :=
  match v with
  | VArray _ [x] => ShowNumber x
  | VArray shape _ => ShowArray shape
  | VNum x => ShowNumber x
  | VSized n => ShowSized n
  | VObject name => ShowType name
  end.
Inductive text_line := TTitle | TNothing | TModules (n : nat) | TTypes (l : list string) | TSteps (n : nat) | TRecent (n : nat)
                     | TPoint (step : nat) (name ty : string) (v : shown_value).
(** _create_text_plot, 318-351 *)
Definition text_plot (order : list string -> list string) (k : tracker) : list text_line :=
  match get_recent 20 k with
  | [] => [TTitle; TNothing]
  | recent => [TTitle; TModules (length (order (map pt_module recent))); TTypes (order (map pt_type recent)); TSteps (tk_steps k); TRecent (length recent)] ++
              map (fun p => TPoint (pt_step p) (pt_module p) (pt_type p) (display_value (pt_value p))) (from_end 10 recent)
  end.

(** The visualizer and the tracker that may be attached to it.  The figures are those created, in order; active_plots holds
    the last one. *)
Record visualizer := Visualizer { vz_backend : string; vz_max : Z; vz_attached : bool; vz_tracker : tracker;
                                  vz_figures : list figure; vz_plotly : nat }.
Inductive plot_op := PTrack (o : tracker_op) | PAttach | PCreate (names types : option (list string)) (kind : string) | PUpdate.
(** What create_streaming_plot returns: an error, a figure (its number), a plotly figure (its traces), a text. *)
Inductive plot_outcome := ONone | OError | OFigure (i : nat) | OPlotly (traces : list (string * list (R * R))) | OText (l : list text_line).
(** the four empty traces, 304-309 *)
Definition plotly_traces : list (string * list (R * R)) := [("Data Values", []); ("Data Sizes", []); ("Module Activity", []); ("Flow Rate", [])].
Definition set_last {A : Type} (x : A) (l : list A) : list A := removelast l ++ [x].
Definition with_figures (l : list figure) (z : visualizer) : visualizer :=
  Visualizer (vz_backend z) (vz_max z) (vz_attached z) (vz_tracker z) l (vz_plotly z).
(** attach_tracker 215-217, create_streaming_plot 219-287 and 289-316, update_plot 374-392 and 499-503 *)
Definition plot_do (order : list string -> list string) (z : visualizer) (o : plot_op) : visualizer * plot_outcome :=
  match o with
  | PTrack t => (Visualizer (vz_backend z) (vz_max z) (vz_attached z) (tracker_do (vz_tracker z) t) (vz_figures z) (vz_plotly z), ONone)
  | PAttach => (Visualizer (vz_backend z) (vz_max z) true (vz_tracker z) (vz_figures z) (vz_plotly z), ONone)
  | PCreate names types kind =>
      if negb (vz_attached z) then (z, OError)
      else if String.eqb (vz_backend z) "matplotlib" then (with_figures (vz_figures z ++ [blank]) z, OFigure (length (vz_figures z)))
      else if String.eqb (vz_backend z) "plotly" then
        (Visualizer (vz_backend z) (vz_max z) (vz_attached z) (vz_tracker z) (vz_figures z) (vz_plotly z + 1), OPlotly plotly_traces)
      else (z, OText (text_plot order (vz_tracker z)))
  | PUpdate =>
      if vz_attached z && String.eqb (vz_backend z) "matplotlib" then
        match vz_figures z, get_recent (vz_max z) (vz_tracker z) with
        | _ :: _, (_ :: _) as l => (with_figures (set_last (draw_points order l) (vz_figures z)) z, ONone)
        | _, _ => (z, ONone)
        end
      else (z, ONone)
  end.
Fixpoint plot_run (order : list string -> list string) (z : visualizer) (ops : list plot_op) : visualizer * list plot_outcome :=
  match ops with
  | [] => (z, [])
  | o :: r => let '(z1, a) := plot_do order z o in let '(z2, l) := plot_run order z1 r in (z2, a :: l)
  end.
Definition new_visualizer (backend : string) (max : Z) (k : tracker) : visualizer := Visualizer backend max false k [] 0.
