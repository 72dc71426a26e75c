(** Model of the recording half of /repo/src/wax/flax/visualization: data_flow_visualizer.py (DataFlowTracker, the data
    drawn by DataFlowVisualizer, create_flow_animation), interactive_dashboard.py (InteractiveDashboard and its HTTP
    routes), bokeh_viz.py (streams of BokehStreamingVisualizer), jupyter_viz.py (StreamingDataVisualizer,
    InteractiveParameterControls, AnimatedPipelineFlow).

    Not modelled: drawing itself, the web server and its HTML page, the JSON form of a value (_serialize_value), threads.
    Times come from the caller ([now], in seconds); numbers are exact. *)
From Coq Require Import String Ascii List Bool Arith ZArith Reals.
From Verif Require Import Model.FlaxOptim.
From Verif Require Model.Debug.
Import ListNotations.
Local Open Scope list_scope.

(** What may be recorded: an object with a shape (an array), a list, a tuple or a dict (only their length matters),
    anything else (a number: [VNum]). *)
Inductive value := VArray (shape : list nat) (data : list R) | VSized (len : nat) | VNum (x : R) | VObject (name : string).
(** Metadata: a dict of numbers (any other entry is irrelevant here). *)
Definition meta := list (string * R).

(** DataPoint, data_flow_visualizer.py 69-91 *)
Record point := Point { pt_time : R; pt_step : nat; pt_module : string; pt_type : string; pt_value : value;
                        pt_shape : list nat; pt_meta : meta }.
(** __post_init__, 81-91: the shape given to the constructor is replaced *)
Definition value_shape (v : value) : list nat :=
  match v with
  | VArray shape _ => shape
  | VSized n => [n]
  | VNum _ | VObject _ => []
  end.

(** DataFlowTracker, 94-113 *)
Record tracker := Tracker { tk_max : nat; tk_inputs : bool; tk_outputs : bool; tk_states : bool;
                            tk_history : list point; tk_modules : list (string * list point);
                            tk_steps : nat; tk_start : R }.
Definition new_tracker (max : nat) (inputs outputs states : bool) (now : R) : tracker :=
  Tracker max inputs outputs states [] [] 0 now.
(** self.module_data[name]: a defaultdict of deques *)
Definition module_data (name : string) (k : tracker) : list point :=
  match sget name (tk_modules k) with Some l => l | None => [] end.
(** record_data, 115-137 *)
Definition record_data (now : R) (name ty : string) (v : value) (md : meta) (k : tracker) : tracker :=
  let p := Point (now - tk_start k) (tk_steps k) name ty v (value_shape v) md in
  Tracker (tk_max k) (tk_inputs k) (tk_outputs k) (tk_states k)
          (Debug.dq_append (tk_max k) (tk_history k) p)
          (sset name (Debug.dq_append (tk_max k) (module_data name k) p) (tk_modules k))
          (tk_steps k) (tk_start k).
(** step, 139-141 *)
Definition tracker_step (k : tracker) : tracker :=
  Tracker (tk_max k) (tk_inputs k) (tk_outputs k) (tk_states k) (tk_history k) (tk_modules k) (tk_steps k + 1) (tk_start k).
(** get_module_history, 143-158: an unknown name gets an (empty) entry *)
Definition get_module_history (name : string) (ty : option string) (k : tracker) : list point * tracker :=
  let l := module_data name k in
  let k' := Tracker (tk_max k) (tk_inputs k) (tk_outputs k) (tk_states k) (tk_history k) (sset name l (tk_modules k)) (tk_steps k) (tk_start k) in
  match ty with
  | Some t => if String.eqb t "" then (l, k') else (filter (fun p => String.eqb (pt_type p) t) l, k')
  | None => (l, k')
  end.
(** list(l)[-n:] for any integer n *)
Definition from_end {A : Type} (n : Z) (l : list A) : list A :=
  if (0 <? n)%Z then skipn (length l - Z.to_nat n) l else skipn (Z.to_nat (- n)) l.
(** get_recent_data, 160-162 *)
Definition get_recent (n : Z) (k : tracker) : list point := from_end n (tk_history k).
(** clear_history, 164-169 *)
Definition clear_history (now : R) (k : tracker) : tracker :=
  Tracker (tk_max k) (tk_inputs k) (tk_outputs k) (tk_states k) [] [] 0 now.

(** The calls made on a tracker. *)
Inductive tracker_op := TRecord (now : R) (name ty : string) (v : value) (md : meta) | TStep | TClear (now : R)
                      | TQuery (name : string) (ty : option string).
Definition tracker_do (k : tracker) (o : tracker_op) : tracker :=
  match o with
  | TRecord now name ty v md => record_data now name ty v md k
  | TStep => tracker_step k
  | TClear now => clear_history now k
  | TQuery name ty => snd (get_module_history name ty k)
  end.
Definition tracker_run (k : tracker) (ops : list tracker_op) : tracker := fold_left tracker_do ops k.

(** The points of each module, in order: the [defaultdict(list)] of _update_matplotlib_plot (data_flow_visualizer.py
    404-411, 421-426) and of _animate_flow (jupyter_viz.py 574-577). *)
Definition group_points {B : Type} (f : point -> option B) (l : list point) : list (string * list B) :=
  fold_left (fun d p => match f p with
                        | Some b => sset (pt_module p) (match sget (pt_module p) d with Some l => l | None => [] end ++ [b]) d
                        | None => d
                        end) l [].
(** 406-408: only scalars are drawn: numbers and arrays without axes *)
Definition scalar_point (p : point) : option (nat * R) :=
  match pt_value p with
  | VNum x => Some (pt_step p, x)
  | VArray [] [x] => Some (pt_step p, x)
  | _ => None
  end.
(** 422-424: the size of a point *)
Definition size_point (p : point) : option (nat * nat) :=
  Some (pt_step p, fold_right Nat.mul 1 (pt_shape p)).
(** 471-486: the flow rate over windows of ten points, at the time of the last of the window *)
Definition flow_rates (l : list point) : list (R * R) :=
  flat_map (fun i => match firstn 10 (skipn (i - 10) l) with
                     | p :: w => let q := last w p in
                                 if Rlt_dec 0 (pt_time q - pt_time p) then [(pt_time q, INR (length (p :: w)) / (pt_time q - pt_time p))%R] else []
                     | [] => []
                     end)
           (seq 10 (length l - 10)).

(** animate in create_flow_animation, 634-655: what frame [frame] out of [frames] draws, and the tracker afterwards;
    [draw] is update_plot, which may raise ([false]): nothing is restored then.  int(frame / frames * max_step) is taken
    exactly (a rounding in the product of doubles may give one less). *)
Definition max_step (l : list point) : nat := fold_right Nat.max 0 (map pt_step l).
Definition with_history (l : list point) (k : tracker) : tracker :=
  Tracker (tk_max k) (tk_inputs k) (tk_outputs k) (tk_states k) l (tk_modules k) (tk_steps k) (tk_start k).
(** d.clear(); d.extend(l) *)
Definition refill (l : list point) (k : tracker) : tracker :=
  with_history (fold_left (Debug.dq_append (tk_max k)) l []) k.
Definition animate (max_points : Z) (draw : list point -> bool) (frames frame : nat) (k : tracker) : list point * tracker :=
  let current := frame * max_step (tk_history k) / frames in
  let k1 := refill (filter (fun p => Nat.leb (pt_step p) current) (tk_history k)) k in
  let shown := get_recent max_points k1 in
  (shown, if draw shown then refill (tk_history k) k1 else k1).

(** * interactive_dashboard.py *)
(** DashboardConfig, 75-103, and whether a web framework is there (self.socketio) *)
Record dash_config := DashConfig { dc_max : nat; dc_alerts : bool; dc_slow_ms : R; dc_memory_mb : R; dc_socket : bool }.
(** An alert, 385-391 and 405-411 *)
Inductive alert_kind := Performance | Memory.
Record alert := Alert { al_time : R; al_kind : alert_kind; al_pipeline : string; al_value : R }.
(** What is sent to the clients, 345-358, 395, 413 *)
Inductive message := MData (pipeline name ty : string) (step : nat) | MAlert (a : alert).
(** DashboardState, 106-124; of a pipeline only the number of calls; everything ever sent *)
Record dash := Dash { ds_calls : list (string * nat); ds_trackers : list (string * tracker);
                      ds_metrics : list (string * list R); ds_alerts : list alert; ds_clients : list nat;
                      ds_sent : list message }.
Definition new_dash : dash := Dash [] [] [] [] [] [].
(** deque(maxlen=1000), deque(maxlen=100): 114-118 *)
Definition metric_max : nat := Z.to_nat 1000.
Definition alert_max : nat := Z.to_nat 100.
Definition metric (name : string) (m : list (string * list R)) : list R := match sget name m with Some l => l | None => [] end.
Definition add_metric (name : string) (x : R) (m : list (string * list R)) : list (string * list R) :=
  sset name (Debug.dq_append metric_max (metric name m) x) m.

(** register_pipeline, 289-323 *)
Definition register_pipeline (c : dash_config) (id : string) (now : R) (d : dash) : dash :=
  Dash (sset id 0 (ds_calls d)) (sset id (new_tracker (dc_max c) true true true now) (ds_trackers d))
       (ds_metrics d) (ds_alerts d) (ds_clients d) (ds_sent d).
(** one half of _update_performance_metrics, 376-396 and 398-414 *)
Definition metric_alert (c : dash_config) (kind : alert_kind) (suffix key : string) (limit now : R) (id : string) (md : meta) (d : dash) : dash :=
  match sget key md with
  | Some x =>
      let m := add_metric (String.append id suffix) x (ds_metrics d) in
      if dc_alerts c && (if Rlt_dec limit x then true else false) then
        let a := Alert now kind id x in
        Dash (ds_calls d) (ds_trackers d) m (Debug.dq_append alert_max (ds_alerts d) a) (ds_clients d)
             (if dc_socket c then ds_sent d ++ [MAlert a] else ds_sent d)
      else Dash (ds_calls d) (ds_trackers d) m (ds_alerts d) (ds_clients d) (ds_sent d)
  | None => d
  end.
(** _update_performance_metrics, 372-416 *)
Definition update_metrics (c : dash_config) (now : R) (id : string) (md : meta) (d : dash) : dash :=
  let d := metric_alert c Performance "_execution_time" "execution_time_ms" (dc_slow_ms c) now id md d in
  let d := metric_alert c Memory "_memory_usage" "memory_usage_mb" (dc_memory_mb c) now id md d in
  Dash (ds_calls d) (ds_trackers d) (add_metric "global_throughput" now (ds_metrics d)) (ds_alerts d) (ds_clients d) (ds_sent d).
(** record_pipeline_data, 325-362 *)
Definition record_pipeline (c : dash_config) (id name ty : string) (v : value) (md : meta) (now : R) (d : dash) : dash :=
  match sget id (ds_trackers d) with
  | None => d
  | Some k =>
      let d := Dash (ds_calls d) (sset id (record_data now name ty v md k) (ds_trackers d)) (ds_metrics d) (ds_alerts d) (ds_clients d) (ds_sent d) in
      let d := update_metrics c now id md d in
      if dc_socket c && negb (match ds_clients d with [] => true | _ => false end)
      then Dash (ds_calls d) (ds_trackers d) (ds_metrics d) (ds_alerts d) (ds_clients d) (ds_sent d ++ [MData id name ty (tk_steps k)])
      else d
  end.
(** step_pipeline, 364-370 *)
Definition step_pipeline (id : string) (d : dash) : dash :=
  let trackers := match sget id (ds_trackers d) with Some k => sset id (tracker_step k) (ds_trackers d) | None => ds_trackers d end in
  let calls := match sget id (ds_calls d) with Some n => sset id (n + 1) (ds_calls d) | None => ds_calls d end in
  Dash calls trackers (ds_metrics d) (ds_alerts d) (ds_clients d) (ds_sent d).
(** handle_connect, handle_disconnect, 264-273: a set of session ids *)
Definition connect (sid : nat) (d : dash) : dash :=
  Dash (ds_calls d) (ds_trackers d) (ds_metrics d) (ds_alerts d)
       (if existsb (Nat.eqb sid) (ds_clients d) then ds_clients d else ds_clients d ++ [sid]) (ds_sent d).
Definition disconnect (sid : nat) (d : dash) : dash :=
  Dash (ds_calls d) (ds_trackers d) (ds_metrics d) (ds_alerts d) (filter (fun s => negb (Nat.eqb sid s)) (ds_clients d)) (ds_sent d).

Inductive dash_op := DRegister (id : string) (now : R) | DRecord (id name ty : string) (v : value) (md : meta) (now : R)
                   | DStep (id : string) | DConnect (sid : nat) | DDisconnect (sid : nat).
Definition dash_do (c : dash_config) (d : dash) (o : dash_op) : dash :=
  match o with
  | DRegister id now => register_pipeline c id now d
  | DRecord id name ty v md now => record_pipeline c id name ty v md now d
  | DStep id => step_pipeline id d
  | DConnect sid => connect sid d
  | DDisconnect sid => disconnect sid d
  end.
Definition dash_run (c : dash_config) (ops : list dash_op) : dash := fold_left (dash_do c) ops new_dash.

(** /api/pipeline/<id>/data, 185-211: [None] is the 404 *)
Definition api_data (id : string) (d : dash) : option (list point * nat) :=
  match sget id (ds_trackers d) with
  | Some k => Some (get_recent 100 k, tk_steps k)
  | None => None
  end.
(** /api/performance, 238-252: values, current and average of every metric *)
Definition api_performance (d : dash) : list (string * (list R * R * R)) :=
  flat_map (fun nm => match snd nm with
                      | [] => []
                      | _ => let v := from_end 50 (snd nm) in
                             [(fst nm, (v, last v 0, fold_right Rplus 0 v / INR (length v)))]
                      end%R) (ds_metrics d).

(** * bokeh_viz.py *)
(** A ColumnDataSource is its x and y columns. *)
(** add_line_stream, 193-237: a new empty source under that name *)
Definition add_line_stream (name : string) (d : list (string * (list R * list R))) : list (string * (list R * list R)) := sset name ([], []) d.
(** update_stream, 239-267 *)
Definition bokeh_update (max : nat) (name : string) (x y : R) (d : list (string * (list R * list R))) : list (string * (list R * list R)) :=
  match sget name d with
  | None => d
  | Some (xs, ys) =>
      let xs := xs ++ [x] in
      let ys := ys ++ [y] in
      sset name (if Nat.ltb max (length xs) then (from_end (Z.of_nat max) xs, from_end (Z.of_nat max) ys) else (xs, ys)) d
  end.
Inductive bokeh_op := BAdd (name : string) | BUpdate (name : string) (x y : R).
Definition bokeh_do (max : nat) (d : list (string * (list R * list R))) (o : bokeh_op) : list (string * (list R * list R)) :=
  match o with
  | BAdd name => add_line_stream name d
  | BUpdate name x y => bokeh_update max name x y d
  end.
Definition bokeh_run (max : nat) (ops : list bokeh_op) : list (string * (list R * list R)) := fold_left (bokeh_do max) ops [].

(** * jupyter_viz.py *)
(** A trace of a figure: its name, x and y. *)
Record trace := Trace { tr_name : string; tr_x : list R; tr_y : list R }.
(** StreamingDataVisualizer, 284-300: the figures (by identity, each the list of its traces) and the buffers, whose key
    f"{id(fig)}_{stream_name}" is kept as a pair (no two pairs give the same key, an id has only digits) *)
Record jviz := Jviz { jv_figs : list (list trace); jv_bufs : list ((nat * string) * (list R * list R)) }.
Definition buf_get (f : nat) (name : string) (b : list ((nat * string) * (list R * list R))) : list R * list R :=
  match find (fun e => Nat.eqb f (fst (fst e)) && String.eqb name (snd (fst e))) b with
  | Some (_, v) => v
  | None => ([], [])
  end.
Definition buf_set (f : nat) (name : string) (v : list R * list R) (b : list ((nat * string) * (list R * list R))) :=
  ((f, name), v) :: filter (fun e => negb (Nat.eqb f (fst (fst e)) && String.eqb name (snd (fst e)))) b.
Definition set_nth {A : Type} (n : nat) (x : A) (l : list A) : list A := firstn n l ++ x :: skipn (Datatypes.S n) l.
(** the first trace of that name, 374-378 *)
Fixpoint trace_index (name : string) (l : list trace) : option nat :=
  match l with
  | [] => None
  | t :: r => if String.eqb (tr_name t) name then Some 0 else option_map Datatypes.S (trace_index name r)
  end.
(** create_streaming_plot, 301-336: the figure is its number *)
Definition create_plot (j : jviz) : jviz := Jviz (jv_figs j ++ [[]]) (jv_bufs j).
(** add_stream, 338-358 *)
Definition add_stream (f : nat) (name : string) (j : jviz) : jviz :=
  Jviz (set_nth f (nth f (jv_figs j) [] ++ [Trace name [] []]) (jv_figs j)) (jv_bufs j).
(** update_stream, 360-395 *)
Definition update_stream (max : nat) (f : nat) (name : string) (y x : R) (j : jviz) : jviz :=
  let fig := nth f (jv_figs j) [] in
  match trace_index name fig with
  | None => j
  | Some i =>
      let '(ys, xs) := buf_get f name (jv_bufs j) in
      let ys := Debug.dq_append max ys y in
      let xs := Debug.dq_append max xs x in
      Jviz (set_nth f (set_nth i (Trace name xs ys) fig) (jv_figs j)) (buf_set f name (ys, xs) (jv_bufs j))
  end.
Inductive jviz_op := JCreate | JAdd (f : nat) (name : string) | JUpdate (f : nat) (name : string) (y x : R).
(** A figure that was not created cannot be passed. *)
Definition jviz_do (max : nat) (j : jviz) (o : jviz_op) : jviz :=
  match o with
  | JCreate => create_plot j
  | JAdd f name => if Nat.ltb f (length (jv_figs j)) then add_stream f name j else j
  | JUpdate f name y x => if Nat.ltb f (length (jv_figs j)) then update_stream max f name y x j else j
  end.
Definition jviz_run (max : nat) (ops : list jviz_op) : jviz := fold_left (jviz_do max) ops (Jviz [] []).

(** InteractiveParameterControls, 398-487: the controls (a widget is its current value), the callbacks (numbered; a
    callback may raise) and every call made *)
Record controls (A : Type) := Controls { ct_values : list (string * A); ct_callbacks : list nat;
                                         ct_calls : list (nat * list (string * A)) }.
Arguments Controls {A}. Arguments ct_values {A}. Arguments ct_callbacks {A}. Arguments ct_calls {A}.
Definition known_type (ty : string) : bool := existsb (String.eqb ty) ["float"; "int"; "bool"; "dropdown"]%string.
(** create_parameter_panel, 411-472: name, type and initial value of each parameter; an unknown type is skipped.
    The names of the panel are returned. *)
Definition create_panel {A : Type} (params : list (string * (string * A))) (c : controls A) : list string * controls A :=
  let ok := filter (fun p => known_type (fst (snd p))) params in
  (map fst ok, Controls (dict_update (ct_values c) (map (fun p => (fst p, snd (snd p))) ok)) (ct_callbacks c) (ct_calls c)).
(** add_callback, 478-480 *)
Definition add_callback {A : Type} (cb : nat) (c : controls A) : controls A :=
  Controls (ct_values c) (ct_callbacks c ++ [cb]) (ct_calls c).
(** the user moves a widget of the panel to another value: _on_parameter_change, 482-488.  An exception of a callback is
    caught, so the next ones run *)
Definition change {A : Type} (name : string) (v : A) (c : controls A) : controls A :=
  match sget name (ct_values c) with
  | Some _ => let vals := sset name v (ct_values c) in
              Controls vals (ct_callbacks c) (ct_calls c ++ map (fun cb => (cb, vals)) (ct_callbacks c))
  | None => c
  end.
Inductive control_op (A : Type) := CPanel (params : list (string * (string * A))) | CCallback (cb : nat) | CChange (name : string) (v : A).
Arguments CPanel {A}. Arguments CCallback {A}. Arguments CChange {A}.
Definition control_do {A : Type} (c : controls A) (o : control_op A) : controls A :=
  match o with
  | CPanel params => snd (create_panel params c)
  | CCallback cb => add_callback cb c
  | CChange name v => change name v c
  end.
Definition control_run {A : Type} (ops : list (control_op A)) : controls A := fold_left control_do ops (Controls [] [] []).

(** s.replace(pat, "") for a non-empty pattern: from left to right, without overlap *)
Fixpoint remove_all (pat : string) (skip : nat) (s : string) : string :=
  match s with
  | EmptyString => EmptyString
  | String c r =>
      match skip with
      | Datatypes.S k => remove_all pat k r
      | 0 => if String.prefix pat s then remove_all pat (String.length pat - 1) r else String c (remove_all pat 0 r)
      end
  end.
(** AnimatedPipelineFlow: the traces made by create_flow_animation (510-520) ... *)
Record flow_trace := FlowTrace { ft_name : string; ft_points : list (nat * value) }.
Definition flow_traces (stages : list string) : list flow_trace := map (fun s => FlowTrace (String.append s " Data") []) stages.
(** ... and one round of _animate_flow (567-587) *)
Definition flow_round (k : tracker) (ts : list flow_trace) : list flow_trace :=
  let groups := group_points (fun p => Some (pt_step p, pt_value p)) (get_recent 50 k) in
  map (fun t => match sget (remove_all " Data" 0 (ft_name t)) groups with
                | Some l => FlowTrace (ft_name t) l
                | None => t
                end) ts.
