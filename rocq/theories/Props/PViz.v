(** C100-C102: what the visualisation tools record and show. *)
From Coq Require Import String Ascii List Bool Arith ZArith Lia Reals Lra.
From Verif Require Import Model.FlaxOptim Model.Viz Spec.StreamSpec Spec.VizSpec Proofs.VizProofs Proofs.VizProofs2 Proofs.VizProofs3.
From Verif Require Model.Debug.
Import ListNotations.
Local Open Scope list_scope.

(** ** C100 *)
(** The history is the last [max] points recorded, each with the number of steps before it; so long as it is not cleared. *)
Theorem C100_history (max : nat) (i o s : bool) (start : R) (ops : list tracker_op) : no_clear ops ->
  tk_history (tracker_run (new_tracker max i o s start) ops) = lastn max (recorded start 0 ops) /\
  tk_steps (tracker_run (new_tracker max i o s start) ops) = length (filter is_step ops).
Proof. exact (@history_spec max i o s start ops). Qed.
(** Each module has its own last [max] points, whatever the others record. *)
Theorem C100_module_history (max : nat) (i o s : bool) (start : R) (ops : list tracker_op) (name : string) (ty : option string) : no_clear ops ->
  fst (get_module_history name ty (tracker_run (new_tracker max i o s start) ops)) =
  filter (of_type ty) (lastn max (filter (of_module name) (recorded start 0 ops))).
Proof. exact (@module_history_spec max i o s start ops name ty). Qed.
Theorem C100_recent (max : nat) (i o s : bool) (start : R) (ops : list tracker_op) (n : Z) : no_clear ops -> (0 < n)%Z ->
  get_recent n (tracker_run (new_tracker max i o s start) ops) = lastn (Nat.min (Z.to_nat n) max) (recorded start 0 ops).
Proof. exact (@recent_spec max i o s start ops n). Qed.
(** After a clear the tracker is as new. *)
Theorem C100_clear (max : nat) (i o s : bool) (start : R) (ops : list tracker_op) (now : R) :
  tracker_run (new_tracker max i o s start) (ops ++ [TClear now]) = new_tracker max i o s now.
Proof. exact (@clear_spec max i o s start ops now). Qed.
(** Refuted: "the last zero points are no points".  They are all. *)
Theorem C100_recent_zero_refuted (k : tracker) : get_recent 0 k = tk_history k.
Proof. exact (@recent_zero k). Qed.
(** Refuted: "track_inputs=False, track_outputs=False, track_states=False drop the points of that kind".  They change nothing. *)
Theorem C100_flags_refuted (max : nat) (i o s : bool) (start : R) (ops : list tracker_op) (name : string) (ty : option string) (n : Z) :
  let k := tracker_run (new_tracker max i o s start) ops in
  let k' := tracker_run (new_tracker max false false false start) ops in
  tk_history k = tk_history k' /\ get_recent n k = get_recent n k' /\ fst (get_module_history name ty k) = fst (get_module_history name ty k').
Proof. exact (@flags_spec max i o s start ops name ty n). Qed.
(** Refuted: "the module history is the part of the history that concerns the module". *)
Theorem C100_parts_refuted (max : nat) (i o s : bool) (start : R) (a b : list tracker_op) (name : string) (k : nat) :
  no_clear (a ++ b) -> k = length (filter is_step a) ->
  length (filter (of_module name) (recorded start 0 a)) <= max ->
  (forall p, In p (recorded start k b) -> pt_module p <> name) -> max <= length (recorded start k b) ->
  let t := tracker_run (new_tracker max i o s start) (a ++ b) in
  fst (get_module_history name None t) = filter (of_module name) (recorded start 0 a) /\
  filter (of_module name) (tk_history t) = [].
Proof. exact (@module_outlives max i o s start a b name k). Qed.
(** A curve drawn for a module has the points of that module, in order. *)
Theorem C100_curves (B : Type) (f : point -> option B) (m : string) (l : list point) :
  sget m (group_points f l) =
  match flat_map (fun p => if of_module m p then match f p with Some b => [b] | None => [] end else []) l with [] => None | x => Some x end.
Proof. exact (@group_spec B f m l). Qed.
(** Each point has the shape of its value; its size is the product of the axes; a value is drawn if it is a number. *)
Theorem C100_shapes (max : nat) (i o s : bool) (start : R) (ops : list tracker_op) (p : point) :
  In p (tk_history (tracker_run (new_tracker max i o s start) ops)) -> has_shape (pt_value p) (pt_shape p).
Proof. exact (@history_shapes max i o s start ops p). Qed.
Theorem C100_sizes (p : point) : exists k, size_point p = Some (pt_step p, k) /\ has_size (pt_shape p) k.
Proof. exact (@size_spec p). Qed.
Theorem C100_values (p : point) (n : nat) (x : R) : scalar_point p = Some (n, x) <-> n = pt_step p /\ is_number (pt_value p) x.
Proof. exact (@scalar_spec p n x). Qed.
(** The flow rate is that of each ten successive points which are not the last ones. *)
Theorem C100_flow_rate (l : list point) (t r : R) : In (t, r) (flow_rates l) <->
  exists before p w q x after, l = before ++ p :: w ++ q :: x :: after /\ length w = 8 /\
    (pt_time p < pt_time q)%R /\ t = pt_time q /\ r = (10 / (pt_time q - pt_time p))%R.
Proof. exact (@flow_rates_spec l t r). Qed.
(** Refuted: "a point every [d] seconds is shown as a flow of 1/d".  It is shown as 10/9 of that. *)
Theorem C100_flow_rate_refuted (l : list point) (d t r : R) : (0 < d)%R ->
  (forall i p, nth_error l i = Some p -> pt_time p = (INR i * d)%R) ->
  In (t, r) (flow_rates l) -> r = (10 / 9 * (1 / d))%R.
Proof. exact (@flow_rates_regular l d t r). Qed.
(** A frame of the animation shows the points of the first part of the steps; the tracker is the same afterwards. *)
Theorem C100_animation (max : nat) (i o s : bool) (start : R) (ops : list tracker_op) (mp : Z) (draw : list point -> bool) (frames frame last : nat) :
  0 < frames -> (0 < mp)%Z ->
  let k := tracker_run (new_tracker max i o s start) ops in
  last_step (tk_history k) last ->
  fst (animate mp draw frames frame k) =
    lastn (Z.to_nat mp) (filter (fun p => Nat.leb (pt_step p * frames) (frame * last)) (tk_history k)) /\
  ((forall l, draw l = true) -> snd (animate mp draw frames frame k) = k).
Proof.
  intros F M k L. apply last_step_max in L. subst last. assert (H : length (tk_history k) <= tk_max k).
  { unfold k. rewrite (proj1 (tracker_const ops _)). apply history_bound. }
  split; [apply animate_shown; assumption|intros D; apply animate_restores; assumption].
Qed.
(** Refuted: "the animation ends with all points".  No frame shows those of the last step. *)
Theorem C100_last_step_refuted (max : nat) (i o s : bool) (start : R) (ops : list tracker_op) (mp : Z) (draw : list point -> bool) (frames frame last : nat) (p : point) :
  frame < frames -> (0 < mp)%Z ->
  let k := tracker_run (new_tracker max i o s start) ops in
  last_step (tk_history k) last -> 0 < last -> In p (fst (animate mp draw frames frame k)) -> pt_step p < last.
Proof.
  intros F M k L. apply last_step_max in L. subst last. assert (H : length (tk_history k) <= tk_max k).
  { unfold k. rewrite (proj1 (tracker_const ops _)). apply history_bound. }
  intros S. apply animate_last_missing; assumption.
Qed.
(** Refuted: "the animation leaves the tracker as it was".  When drawing raises, the later points are lost. *)
Theorem C100_failed_frame_refuted (max : nat) (i o s : bool) (start : R) (ops : list tracker_op) (mp : Z) (draw : list point -> bool) (frames frame last : nat) :
  0 < frames -> (forall l, draw l = false) ->
  let k := tracker_run (new_tracker max i o s start) ops in
  last_step (tk_history k) last ->
  tk_history (snd (animate mp draw frames frame k)) =
  filter (fun p => Nat.leb (pt_step p * frames) (frame * last)) (tk_history k).
Proof.
  intros F D k L. apply last_step_max in L. subst last. assert (H : length (tk_history k) <= tk_max k).
  { unfold k. rewrite (proj1 (tracker_const ops _)). apply history_bound. }
  apply animate_fails; assumption.
Qed.

Module DemoTracker.
  Open Scope string_scope. Open Scope list_scope.
  Definition rec (t : R) (m ty : string) (x : R) : tracker_op := TRecord t m ty (VNum x) [].
  Definition ops : list tracker_op :=
    [rec 1 "a" "input" 5; TStep; rec 2 "b" "input" 6; TQuery "z" None; TRecord 3 "b" "output" (VArray [2; 3] []) []; TStep; rec 4 "b" "state" 8].
  Definition run : tracker := tracker_run (new_tracker 2 true true true 0) ops.
  Example C100_example : no_clear ops /\
    map (fun p => (pt_step p, pt_module p, pt_type p, pt_shape p)) (tk_history run) = [(1, "b", "output", [2; 3]); (2, "b", "state", [])] /\
    map pt_type (fst (get_module_history "a" None run)) = ["input"] /\
    map pt_type (fst (get_module_history "b" (Some "state") run)) = ["state"] /\
    map pt_step (get_recent 1 run) = [2] /\ max_step (tk_history run) = 2 /\
    map pt_step (fst (animate 200 (fun _ => true) 10 9 run)) = [1] /\
    length (tk_history (snd (animate 200 (fun _ => false) 10 9 run))) = 1.
  Proof. split; [intros now I; cbn in I; intuition discriminate|]. cbn. repeat split. Qed.
  (** the hypotheses of the refutations: the points of [a] are outlived, and eleven regular points *)
  Example C100_parts_example : exists a b, ops = a ++ b /\ length (filter (of_module "a") (recorded 0 0 a)) <= 2 /\
    (forall p, In p (recorded 0 (length (filter is_step a)) b) -> pt_module p <> "a") /\ 2 <= length (recorded 0 (length (filter is_step a)) b).
  Proof.
    exists [rec 1 "a" "input" 5], (tl ops). split; [reflexivity|]. cbn. split; [lia|split; [|lia]].
    intros p I. repeat (destruct I as [<-|I]; [discriminate|]). destruct I.
  Qed.
  Definition regular : list point := map (fun i => Point (INR i * 2) 0 "m" "input" (VNum 0) [] []) (seq 0 11).
  Example C100_rate_example : (forall i p, nth_error regular i = Some p -> pt_time p = (INR i * 2)%R) /\ exists t r, In (t, r) (flow_rates regular).
  Proof.
    split.
    - intros i p H. unfold regular in H. rewrite nth_error_map in H. destruct (nth_error (seq 0 11) i) as [j|] eqn:E; [|discriminate].
      injection H as <-. cbn [pt_time]. assert (L : i < 11) by (rewrite <- (seq_length 11 0); apply nth_error_Some; congruence).
      rewrite (nth_error_nth' (seq 0 11) 0) in E by (rewrite seq_length; exact L). rewrite seq_nth in E by exact L. injection E as <-. reflexivity.
    - set (P := fun i => Point (INR i * 2) 0 "m" "input" (VNum 0) [] []).
      exists (pt_time (P 9)), (10 / (pt_time (P 9%nat) - pt_time (P 0%nat)))%R. apply flow_rates_spec.
      exists [], (P 0), (map P (seq 1 8)), (P 9), (P 10), []. split; [reflexivity|]. split; [reflexivity|]. split; [|split; reflexivity].
      cbn. lra.
  Qed.
End DemoTracker.

(** ** C101 *)
(** What is shown of a pipeline is what was recorded on it since it was last registered, and of no other. *)
Theorem C101_data (c : dash_config) (id : string) (now : R) (before after : list dash_op) : never_registered id after ->
  api_data id (dash_run c (before ++ DRegister id now :: after)) =
  Some (lastn (Nat.min (Z.to_nat 100) (dc_max c)) (recorded now 0 (calls_on id after)), count_steps id after).
Proof. exact (@api_data_spec c id now before after). Qed.
Theorem C101_tracker (c : dash_config) (id : string) (now : R) (before after : list dash_op) : never_registered id after ->
  sget id (ds_trackers (dash_run c (before ++ DRegister id now :: after))) = Some (tracker_run (new_tracker (dc_max c) true true true now) (calls_on id after)) /\
  sget id (ds_calls (dash_run c (before ++ DRegister id now :: after))) = Some (count_steps id after).
Proof. exact (@dash_registered c id now before after). Qed.
(** A pipeline that was not registered is not found, and recording on it does nothing at all. *)
Theorem C101_unregistered (c : dash_config) (ops : list dash_op) (id name ty : string) (v : value) (md : meta) (now : R) : never_registered id ops ->
  api_data id (dash_run c ops) = None /\ dash_run c (ops ++ [DRecord id name ty v md now]) = dash_run c ops.
Proof. intros H. split; [apply api_unknown; exact H|apply unknown_record; exact H]. Qed.
(** The performance route: the last 50 values reported by each pipeline, the last and the mean of them. *)
Theorem C101_performance (c : dash_config) (ops : list dash_op) :
  (forall p, sget (String.append p "_execution_time") (api_performance (dash_run c ops)) = summary (lastn 50 (reported p "execution_time_ms" (accepted [] ops)))) /\
  (forall p, sget (String.append p "_memory_usage") (api_performance (dash_run c ops)) = summary (lastn 50 (reported p "memory_usage_mb" (accepted [] ops)))) /\
  sget "global_throughput" (api_performance (dash_run c ops)) = summary (lastn 50 (map snd (accepted [] ops))).
Proof. exact (@performance_spec c ops). Qed.
(** The last 100 alerts, in order. *)
Theorem C101_alerts (c : dash_config) (ops : list dash_op) :
  ds_alerts (dash_run c ops) = lastn (Z.to_nat 100) (flat_map (alerts_of c) (accepted [] ops)).
Proof. exact (@alerts_spec c ops). Qed.
(** Refuted: "the alerts of a pipeline stay until it raises others".  A hundred alerts of other pipelines remove them. *)
Theorem C101_alerts_refuted (c : dash_config) (ops : list dash_op) (a b : list (string * meta * R)) (p : string) :
  accepted [] ops = a ++ b -> (forall e, In e b -> fst (fst e) <> p) ->
  Z.to_nat 100 <= length (flat_map (alerts_of c) b) -> forall x, In x (ds_alerts (dash_run c ops)) -> al_pipeline x <> p.
Proof. exact (@alerts_displaced c ops a b p). Qed.
(** Messages: a record sends its alerts, then the point if some client is connected; nothing else sends any. *)
Theorem C101_broadcast (c : dash_config) (ops : list dash_op) (id name ty : string) (v : value) (md : meta) (now : R) (data : list point) (n : nat) :
  api_data id (dash_run c ops) = Some (data, n) ->
  ds_sent (dash_run c (ops ++ [DRecord id name ty v md now])) = ds_sent (dash_run c ops) ++
    (if dc_socket c then map MAlert (alerts_of c (id, md, now)) ++ (match ds_clients (dash_run c ops) with [] => [] | _ => [MData id name ty n] end) else []).
Proof. exact (@broadcast_spec c ops id name ty v md now data n). Qed.
Theorem C101_silent (c : dash_config) (ops : list dash_op) (o : dash_op) :
  (forall id name ty v md now, o <> DRecord id name ty v md now) -> ds_sent (dash_run c (ops ++ [o])) = ds_sent (dash_run c ops).
Proof. exact (@silent_spec c ops o). Qed.
Theorem C101_clients (c : dash_config) (ops : list dash_op) (sid : nat) : In sid (ds_clients (dash_run c ops)) <-> connected sid ops.
Proof. exact (@dash_clients c ops sid). Qed.

Module DemoDash.
  Open Scope string_scope. Open Scope list_scope.
  Definition c : dash_config := DashConfig 3 true 100 1000 true.
  Definition ops : list dash_op :=
    [DRecord "p" "m" "input" (VNum 0) [] 0; DRegister "q" 1; DConnect 7; DRecord "q" "m" "input" (VNum 1) [("memory_usage_mb", 2000%R)] 2; DRegister "p" 3;
     DStep "p"; DRecord "p" "m" "output" (VNum 2) [("execution_time_ms", 50%R)] 4; DDisconnect 7; DRecord "p" "m" "output" (VNum 3) [("execution_time_ms", 150%R)] 5].
  Example C101_example :
    option_map (fun x => (map pt_step (fst x), snd x)) (api_data "p" (dash_run c ops)) = Some ([1; 1], 1) /\
    never_registered "p" (skipn 5 ops) /\ never_registered "x" ops /\
    reported "p" "execution_time_ms" (accepted [] ops) = [50; 150]%R /\ map (fun e => fst (fst e)) (accepted [] ops) = ["q"; "p"; "p"] /\
    map al_pipeline (ds_alerts (dash_run c ops)) = ["q"; "p"] /\ ds_clients (dash_run c ops) = [].
  Proof.
    split; [|split; [intros now I; cbn in I; intuition discriminate|split; [intros now I; cbn in I; intuition discriminate|split; [reflexivity|split; [reflexivity|split]]]]].
    - change (dash_run c ops) with (dash_run c (firstn 4 ops ++ DRegister "p" 3 :: skipn 5 ops)). rewrite C101_data by (intros now I; cbn in I; intuition discriminate). reflexivity.
    - rewrite C101_alerts. cbn -[Z.to_nat]. destruct (Rlt_dec 1000 2000); [|lra]. destruct (Rlt_dec 100 50); [lra|]. destruct (Rlt_dec 100 150); [|lra]. reflexivity.
    - destruct (ds_clients (dash_run c ops)) as [|sid r] eqn:E; [reflexivity|]. exfalso.
      assert (H : In sid (ds_clients (dash_run c ops))) by (rewrite E; left; reflexivity). apply C101_clients in H. destruct H as (b & a & H & N).
      unfold ops in H.
      do 2 (destruct b as [|? b]; [discriminate|]; injection H as _ H).
      destruct b as [|? b].
      + injection H as <- <-. apply N. cbn. tauto.
      + injection H as _ H. do 6 (destruct b as [|? b]; [discriminate|]; injection H as _ H). destruct b; discriminate.
  Qed.
  (** a hundred alerts of [q] after one of [p] *)
  Definition burst : list dash_op := repeat (DRecord "q" "m" "input" (VNum 1) [("memory_usage_mb", 2000%R)] 2) (Z.to_nat 100).
  Example C101_burst_example : exists a b, accepted [] (ops ++ burst) = a ++ b /\ (forall e, In e b -> fst (fst e) <> "p") /\ Z.to_nat 100 <= length (flat_map (alerts_of c) b).
  Proof.
    exists (accepted [] ops), (repeat ("q", [("memory_usage_mb", 2000%R)], 2%R) (Z.to_nat 100)). split; [|split].
    - unfold burst. generalize (Z.to_nat 100) as n. intros n. change (accepted [] (ops ++ repeat (DRecord "q" "m" "input" (VNum 1) [("memory_usage_mb", 2000%R)] 2) n))
        with (accepted [] ops ++ accepted ["p"; "q"] (repeat (DRecord "q" "m" "input" (VNum 1) [("memory_usage_mb", 2000%R)] 2) n)). f_equal.
      induction n; [reflexivity|]. cbn [repeat accepted]. rewrite IHn. reflexivity.
    - intros e I. apply repeat_spec in I. subst e. discriminate.
    - generalize (Z.to_nat 100) as n. induction n; [cbn; lia|]. cbn [repeat flat_map]. rewrite app_length.
      assert (L : length (alerts_of c ("q", [("memory_usage_mb", 2000%R)], 2%R)) = 1) by (cbn; destruct (Rlt_dec 1000 2000); [reflexivity|lra]). lia.
  Qed.
End DemoDash.

(** ** C102 *)
(** Bokeh: a stream shows the last [max] points given since it was added, x beside y. *)
Theorem C102_bokeh (max : nat) (name : string) (before after : list bokeh_op) : 0 < max -> ~ In (BAdd name) after ->
  sget name (bokeh_run max (before ++ BAdd name :: after)) =
  Some (lastn max (map fst (updates_of name after)), lastn max (map snd (updates_of name after))).
Proof. exact (@bokeh_spec max name before after). Qed.
Theorem C102_bokeh_unknown (max : nat) (name : string) (ops : list bokeh_op) : ~ In (BAdd name) ops -> sget name (bokeh_run max ops) = None.
Proof. exact (@bokeh_unknown max name ops). Qed.
(** Refuted: "max_points=0 keeps nothing".  It keeps everything. *)
Theorem C102_bokeh_zero_refuted (name : string) (before after : list bokeh_op) : ~ In (BAdd name) after ->
  sget name (bokeh_run 0 (before ++ BAdd name :: after)) = Some (map fst (updates_of name after), map snd (updates_of name after)).
Proof. exact (@bokeh_zero name before after). Qed.
(** Jupyter: the first trace of a name shows its last [max] updates made since it was added.
    Refuted: "every stream added is updated".  A second one of the same name stays empty. *)
Theorem C102_jupyter (max : nat) (before after : list jviz_op) (f : nat) : f = length (filter is_create before) ->
  let fig := nth f (jv_figs (jviz_run max (before ++ JCreate :: after))) [] in
  map tr_name fig = added f after /\
  forall i t, nth_error fig i = Some t ->
    let u := stream_updates f (tr_name t) false after in
    ((forall k, k < i -> nth_error (added f after) k <> Some (tr_name t)) -> tr_x t = lastn max (map fst u) /\ tr_y t = lastn max (map snd u)) /\
    ((exists k, k < i /\ nth_error (added f after) k = Some (tr_name t)) -> tr_x t = [] /\ tr_y t = []).
Proof. exact (@jviz_spec max before after f). Qed.
(** Controls: the value of each parameter is the last one set; a change calls every callback once, in the order in which they
    were added, with the values of all parameters; nothing else calls one. *)
Theorem C102_parameters (A : Type) (ops : list (control_op A)) : panels_ok ops ->
  (forall name, sget name (ct_values (control_run ops)) = current_value name ops) /\ ct_callbacks (control_run ops) = callbacks_in ops.
Proof. exact (@controls_spec A ops). Qed.
Theorem C102_callbacks (A : Type) (ops : list (control_op A)) (name : string) (v : A) : panels_ok ops ->
  let before := control_run ops in let after := control_run (ops ++ [CChange name v]) in
  ct_calls after = ct_calls before ++ (match current_value name ops with Some _ => map (fun cb => (cb, ct_values after)) (callbacks_in ops) | None => [] end).
Proof. exact (@change_calls A ops name v). Qed.
Theorem C102_quiet (A : Type) (ops : list (control_op A)) (o : control_op A) :
  (forall name v, o <> CChange name v) -> ct_calls (control_run (ops ++ [o])) = ct_calls (control_run ops).
Proof. exact (@quiet_calls A ops o). Qed.
(** A panel shows the parameters of the four known types, in order. *)
Theorem C102_panel (A : Type) (ps : list (string * (string * A))) (c : controls A) :
  fst (create_panel ps c) =
  flat_map (fun p => if in_dec string_dec (fst (snd p)) ["float"; "int"; "bool"; "dropdown"]%string then [fst p] else []) ps.
Proof. exact (@panel_names A ps c). Qed.
Print Assumptions C102_panel.
(** Animated flow: a stage shows the points of its module among the last 50 ... *)
Theorem C102_flow (k : tracker) (stage : string) (l : list (nat * value)) : Debug.contains " Data" stage = false ->
  flow_round k [FlowTrace (String.append stage " Data") l] =
  [FlowTrace (String.append stage " Data") (match module_points stage (get_recent 50 k) with [] => l | x => x end)].
Proof. exact (@flow_spec k stage l). Qed.
(** ... refuted: if its name contains " Data" it shows those of another module. *)
Theorem C102_flow_refuted (stage : string) : Debug.contains " Data" stage = true -> exists other, other <> stage /\ forall k l,
  flow_round k [FlowTrace (String.append stage " Data") l] =
  [FlowTrace (String.append stage " Data") (match module_points other (get_recent 50 k) with [] => l | x => x end)].
Proof. exact (@flow_refuted stage). Qed.
(** A round deals with every stage by itself. *)
Theorem C102_stages (k : tracker) (ts : list flow_trace) : flow_round k ts = flat_map (fun t => flow_round k [t]) ts.
Proof. unfold flow_round. induction ts as [|t r IH]; [reflexivity|]. cbn [map flat_map app]. cbn [map] in IH. rewrite IH. reflexivity. Qed.

(** After any number of rounds every stage shows the points of its module at the last round where it had some. *)
Theorem C102_animation (ks : list tracker) (stages : list string) : Forall (fun s => Debug.contains " Data" s = false) stages ->
  fold_left (fun ts k => flow_round k ts) ks (flow_traces stages) =
  map (fun s => FlowTrace (String.append s " Data")
         (fold_left (fun l k => match module_points s (get_recent 50 k) with [] => l | x => x end) ks [])) stages.
Proof. exact (@flow_animation ks stages). Qed.
Print Assumptions C102_animation.

Module DemoStreams.
  Open Scope string_scope. Open Scope list_scope.
  Example C102_example :
    sget "s" (bokeh_run 2 ([BUpdate "s" 0 0] ++ BAdd "s" :: [BUpdate "s" 1 2; BAdd "t"; BUpdate "s" 3 4; BUpdate "t" 9 9; BUpdate "s" 5 6])) = Some ([3; 5], [4; 6])%R /\
    map (fun t => (tr_name t, tr_y t)) (nth 1 (jv_figs (jviz_run 2 ([JCreate; JAdd 0 "s"] ++ JCreate :: [JUpdate 1 "s" 1 0; JAdd 1 "s"; JAdd 1 "s"; JUpdate 1 "s" 5 1; JUpdate 0 "s" 8 2]))) [])
      = [("s", [5%R]); ("s", [])] /\
    (let ops := [CPanel [("a", ("float", 1)); ("b", ("color", 2)); ("c", ("int", 3))]; CCallback 0; CChange "b" 9; CChange "a" 4; CCallback 1; CChange "c" 5] in
     panels_ok ops /\ ct_calls (control_run ops) = [(0, [("a", 4); ("c", 3)]); (0, [("a", 4); ("c", 5)]); (1, [("a", 4); ("c", 5)])]) /\
    Debug.contains " Data" "Load" = false /\ Debug.contains " Data" "Raw Data Loader" = true /\
    flow_round (tracker_run (new_tracker 5 true true true 0) [TRecord 1 "Load" "output" (VNum 7) []; TStep; TRecord 2 "Raw Data Loader" "output" (VNum 8) []])
      (flow_traces ["Load"; "Raw Data Loader"]) = [FlowTrace "Load Data" [(0, VNum 7)]; FlowTrace "Raw Data Loader Data" []].
  Proof.
    split; [reflexivity|split; [reflexivity|split; [split; [|reflexivity]|split; [reflexivity|split; reflexivity]]]].
    intros ps [E|I]; [injection E as <-; repeat constructor; cbn; intuition discriminate|]. cbn in I. intuition discriminate.
  Qed.
End DemoStreams.

Print Assumptions C100_history. Print Assumptions C100_module_history. Print Assumptions C100_recent. Print Assumptions C100_clear.
Print Assumptions C100_recent_zero_refuted. Print Assumptions C100_flags_refuted. Print Assumptions C100_parts_refuted. Print Assumptions C100_curves.
Print Assumptions C100_flow_rate. Print Assumptions C100_flow_rate_refuted. Print Assumptions C100_animation. Print Assumptions C100_last_step_refuted.
Print Assumptions C100_failed_frame_refuted.
Print Assumptions C101_data. Print Assumptions C101_tracker. Print Assumptions C101_unregistered. Print Assumptions C101_performance. Print Assumptions C101_alerts.
Print Assumptions C101_alerts_refuted. Print Assumptions C101_broadcast. Print Assumptions C101_silent. Print Assumptions C101_clients.
Print Assumptions C102_bokeh. Print Assumptions C102_bokeh_unknown. Print Assumptions C102_bokeh_zero_refuted. Print Assumptions C102_jupyter.
Print Assumptions C102_parameters. Print Assumptions C102_callbacks. Print Assumptions C102_quiet. Print Assumptions C102_flow. Print Assumptions C102_flow_refuted. Print Assumptions C102_stages.
Print Assumptions C100_shapes. Print Assumptions C100_sizes. Print Assumptions C100_values.
