(** Model of the data drawn by /repo/src/wax/flax/visualization/bokeh_viz.py (heatmaps, the four panels of the dashboard,
    the registry of line plots) and by InteractivePipelineGraph.create_pipeline_graph of jupyter_viz.py.
    Not modelled: drawing itself, fonts, sizes, tools, the texts of the parameters.  Numbers are exact; random numbers
    are arguments. *)
From Coq Require Import String Ascii List Bool Arith ZArith Reals.
From Verif Require Import Model.FlaxOptim Model.Graph Model.Float Model.Viz.
Import ListNotations.
Local Open Scope list_scope.

(** create_state_heatmap, bokeh_viz.py 300-317: the columns x, y and values of the data source, and the limits of the color
    map; [rows] is the array, of [w] columns.  np.min of an empty array raises. *)
Definition heatmap_columns (w : nat) (rows : list (list fl)) : list nat * list nat * list fl :=
  let h := length rows in
  (concat (map (fun _ => seq 0 w) (seq 0 h)), concat (map (fun i => repeat i w) (seq 0 h)), concat rows).
Definition np_extreme (f : fl -> fl -> fl) (l : list fl) : option fl :=
  match l with [] => None | v :: r => Some (fold_left f r v) end.
Definition heatmap (w : nat) (rows : list (list fl)) : option (list nat * list nat * list fl * (fl * fl)) :=
  match np_extreme fmin (concat rows), np_extreme fmax (concat rows) with
  | Some lo, Some hi => Some (heatmap_columns w rows, (lo, hi))
  | _, _ => None
  end.

(** isinstance(point.value, int | float), bokeh_viz.py 434 and 469 *)
Definition number_of (p : point) : option R := match pt_value p with VNum x => Some x | _ => None end.

(** config.line_colors, 120-133 *)
Definition line_colors : list string :=
  ["#1f77b4"; "#ff7f0e"; "#2ca02c"; "#d62728"; "#9467bd"; "#8c564b"; "#e377c2"; "#7f7f7f"; "#bcbd22"; "#17becf"]%string.

(** _create_time_series_panel, 427-445: the curves: name, points, color *)
Definition time_series (colors : list string) (k : tracker) : list (string * list (nat * R) * string) :=
  let groups := group_points (fun p => option_map (pair (pt_step p)) (number_of p)) (get_recent 200 k) in
  map (fun '(i, (name, pts)) => (name, pts, nth (i mod length colors) colors EmptyString))
      (combine (seq 0 (length groups)) groups).

(** np.histogram(values, bins=n): the range (np.lib.histograms._get_outer_edges), the index of a value, the counts and
    the edges *)
Definition hist_range (vs : list R) : option (R * R) :=
  match vs with
  | [] => None
  | v :: r => let lo := fold_left Rmin r v in
              let hi := fold_left Rmax r v in
              Some (if Req_EM_T lo hi then (lo - / 2, hi + / 2)%R else (lo, hi))
  end.
Definition bin_of (n : nat) (lo hi v : R) : nat :=
  Nat.min (Z.to_nat (Int_part ((v - lo) * INR n / (hi - lo)))) (n - 1).
Definition np_histogram (n : nat) (vs : list R) : option (list nat * list R) :=
  match hist_range vs with
  | None => None
  | Some (lo, hi) =>
      Some (map (fun i => length (filter (fun v => Nat.eqb (bin_of n lo hi v) i) vs)) (seq 0 n),
            map (fun i => (lo + INR i * ((hi - lo) / INR n))%R) (seq 0 (n + 1)))
  end.
(** _create_distribution_panel, 464-484: the quads (top, left, right), drawn when there is a number *)
Definition distribution (k : tracker) : list (nat * (R * R)) :=
  let values := flat_map (fun p => match number_of p with Some x => [x] | None => [] end) (get_recent 500 k) in
  match np_histogram 30 values with
  | None => []
  | Some (hist, edges) => combine hist (combine (removelast edges) (tl edges))
  end.

(** _create_performance_panel, 500-525: the steps and the times drawn, which are random numbers *)
Definition performance (noise : nat -> R) (k : tracker) : list (nat * R) :=
  let first := Nat.max 1 (tk_steps k - 50) in
  map (fun s => (s, (noise (s - first)%nat + 1)%R)) (seq first (tk_steps k + 1 - first)).

(** _create_correlation_panel, 542-548: the matrix drawn: [rand] is np.random.rand(4, 4) *)
Definition correlation_modules : list string := ["input"; "ewma"; "buffer"; "output"]%string.
Definition correlation (rand : nat -> nat -> R) (_ : tracker) (i j : nat) : R :=
  if Nat.eqb i j then 1%R else ((rand i j + rand j i) / 2)%R.

(** create_streaming_line_plot, 189-193: self.plots[f"plot_{len(self.plots)}"] = p *)
Definition register_plot {A : Type} (plots : list (string * A)) (p : A) : list (string * A) :=
  sset (String.append "plot_" (str_of_nat (length plots))) p plots.

(** * create_pipeline_graph, jupyter_viz.py 156-279 *)
(** networkx.DiGraph: the successors of each node, in order of insertion; add_edge adds the nodes it lacks, without
    attributes, and replaces the attributes of an edge already there. *)
Definition successors (es : list edge) (id : string) : list string :=
  fold_left (fun acc e => if String.eqb (e_source e) id
                          then (if existsb (String.eqb (e_target e)) acc then acc else acc ++ [e_target e])
                          else acc) es [].
Record figure := Figure { fg_nodes : list (string * (R * R) * nat); (* name, position, color *)
                          fg_lines : list (option (R * R)) }.
(** 176-247; [pos] is the layout.  G.nodes[node]["name"] raises KeyError on a node which add_edge added. *)
Definition pipeline_figure (pos : string -> R * R) (g : graph) : option figure :=
  if forallb (fun e => mem_key (e_source e) (g_nodes g) && mem_key (e_target e) (g_nodes g)) (g_edges g) then
    Some (Figure
      (map (fun kv => (n_name (snd kv), pos (fst kv), length (successors (g_edges g) (fst kv)))) (g_nodes g))
      (flat_map (fun kv => flat_map (fun t => [Some (pos (fst kv)); Some (pos t); None]) (successors (g_edges g) (fst kv)))
                (g_nodes g)))
  else None.
(** 173-174: a new renderer each time *)
Definition create_pipeline_graph (pos : string -> R * R) (t : target) : option figure :=
  pipeline_figure pos (analyze t empty_graph).
