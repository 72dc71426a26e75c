(** Proofs about the data flow plots. *)
From Coq Require Import String List Bool Arith Lia ZArith Reals.
From Verif Require Import Model.FlaxOptim Model.Viz Model.FlowPlot Spec.StreamSpec Spec.VizSpec Spec.FlowPlotSpec Proofs.VizProofs Proofs.SplitProofs.
Import ListNotations.
Local Open Scope string_scope.
Local Open Scope nat_scope.
Local Open Scope list_scope.

Definition opb (s : string) (H : s <> "matplotlib") := proj2 (String.eqb_neq s "matplotlib") H.

Lemma set_last_frozen {A} (x : A) l i : i + 1 < length l -> nth_error (set_last x l) i = nth_error l i /\ length (set_last x l) = length l.
Proof.
  intros H. unfold set_last. assert (N : l <> []) by (intros ->; cbn in H; lia). destruct (exists_last N) as (a & y & ->). rewrite removelast_last.
  rewrite app_length in H. cbn [length] in H. rewrite !nth_error_app1 by lia. rewrite !app_length. auto.
Qed.
Section Plots.
  Variable order : list string -> list string.
  Notation "'run'" := (plot_run order) (only parsing).

  Lemma run_app ops : forall z ops', run z (ops ++ ops') = (fst (run (fst (run z ops)) ops'), snd (run z ops) ++ snd (run (fst (run z ops)) ops')).
  Proof.
    induction ops as [|o ops IH]; intros z ops'; cbn [app plot_run fst snd]; [destruct (run z ops'); reflexivity|].
    destruct (plot_do order z o) as [z1 a]. rewrite IH. destruct (run z1 ops) as [z2 l]. reflexivity.
  Qed.
  Lemma do_const z o : vz_backend (fst (plot_do order z o)) = vz_backend z /\ vz_max (fst (plot_do order z o)) = vz_max z /\
    (vz_attached z = true -> vz_attached (fst (plot_do order z o)) = true) /\
    vz_tracker (fst (plot_do order z o)) = tracker_run (vz_tracker z) (tracker_calls [o]).
  Proof.
    destruct o as [t| |n ty k|]; cbn [plot_do tracker_calls flat_map app tracker_run fold_left]; [cbn; auto|cbn; auto| |].
    - destruct (vz_attached z) eqn:A; cbn [negb]; [|cbn; rewrite A; auto]. destruct (String.eqb _ _); [cbn; rewrite A; auto|]. destruct (String.eqb _ _); cbn; rewrite ?A; auto.
    - destruct (vz_attached z && _); [|cbn; auto]. destruct (vz_figures z); [cbn; auto|]. destruct (get_recent _ _); cbn; auto.
  Qed.
  Lemma run_const ops : forall z, vz_backend (fst (run z ops)) = vz_backend z /\ vz_max (fst (run z ops)) = vz_max z /\
    (vz_attached z = true -> vz_attached (fst (run z ops)) = true) /\
    vz_tracker (fst (run z ops)) = tracker_run (vz_tracker z) (tracker_calls ops).
  Proof.
    induction ops as [|o ops IH]; intros z; [cbn; auto|].
    destruct (do_const z o) as (A & B & C & D). destruct (IH (fst (plot_do order z o))) as (A' & B' & C' & D').
    assert (E : fst (run z (o :: ops)) = fst (run (fst (plot_do order z o)) ops)).
    { cbn [plot_run]. destruct (plot_do order z o) as [z1 a]. cbn [fst]. destruct (run z1 ops). reflexivity. }
    rewrite E. split; [congruence|]. split; [congruence|]. split; [auto|].
    rewrite D', D. unfold tracker_run. rewrite <- fold_left_app. unfold tracker_calls. cbn [flat_map]. rewrite app_nil_r. reflexivity.
  Qed.

  (** attaching *)
  Lemma attached_spec ops z : vz_attached (fst (run z ops)) = vz_attached z || existsb (fun o => match o with PAttach => true | _ => false end) ops.
  Proof.
    revert z. induction ops as [|o ops IH]; intros z; [cbn; rewrite orb_false_r; reflexivity|].
    cbn [plot_run existsb]. destruct (plot_do order z o) as [z1 a] eqn:E. specialize (IH z1). destruct (run z1 ops) as [z2 l]. cbn [fst] in *. rewrite IH.
    assert (A : vz_attached z1 = vz_attached z || match o with PAttach => true | _ => false end).
    { replace z1 with (fst (plot_do order z o)) by (rewrite E; reflexivity). clear.
      destruct o as [t| |n ty k|]; cbn [plot_do]; rewrite ?orb_false_r; [reflexivity|cbn; destruct (vz_attached z); reflexivity| |].
      - destruct (vz_attached z) eqn:A; cbn [negb]; [|cbn; exact A]. destruct (String.eqb _ _); [cbn; exact A|]. destruct (String.eqb _ _); cbn; try exact A; reflexivity.
      - destruct (vz_attached z && _); [|reflexivity]. destruct (vz_figures z); [reflexivity|]. destruct (get_recent _ _); reflexivity. }
    rewrite A, orb_assoc. reflexivity.
  Qed.
  Lemma create_error z n ty k : snd (plot_do order z (PCreate n ty k)) = OError <-> vz_attached z = false.
  Proof.
    cbn [plot_do]. destruct (vz_attached z); cbn [negb]; [|split; reflexivity].
    destruct (String.eqb _ _); [cbn; split; discriminate|]. destruct (String.eqb _ _); cbn; split; discriminate.
  Qed.
  Lemma update_shows z l : vz_attached z = true -> vz_backend z = "matplotlib" -> vz_figures z <> [] ->
    get_recent (vz_max z) (vz_tracker z) = l -> l <> [] ->
    vz_figures (fst (plot_do order z PUpdate)) = removelast (vz_figures z) ++ [draw_points order l].
  Proof.
    intros A B F G L. cbn [plot_do]. rewrite A, B. cbn [andb String.eqb]. change (String.eqb "matplotlib" "matplotlib") with true. cbv iota.
    destruct (vz_figures z) as [|f r] eqn:EF; [contradiction|]. rewrite G. destruct l as [|p l]; [contradiction|]. rewrite <- EF. cbn [fst with_figures vz_figures]. unfold set_last. rewrite EF. reflexivity.
  Qed.
  (** nothing is redrawn when nothing is recorded *)
  Lemma update_nothing z : get_recent (vz_max z) (vz_tracker z) = [] -> plot_do order z PUpdate = (z, ONone).
  Proof. intros G. cbn [plot_do]. destruct (vz_attached z && _); [|reflexivity]. rewrite G. destruct (vz_figures z); reflexivity. Qed.
  Lemma update_other z : vz_backend z <> "matplotlib" -> plot_do order z PUpdate = (z, ONone).
  Proof. intros N. cbn [plot_do]. rewrite (opb _ N), andb_false_r. reflexivity. Qed.
  Lemma figures_other ops : forall z, vz_backend z <> "matplotlib" -> vz_figures (fst (run z ops)) = vz_figures z.
  Proof.
    induction ops as [|o ops IH]; intros z N; [reflexivity|]. cbn [plot_run].
    destruct (plot_do order z o) as [z1 a] eqn:E. specialize (IH z1). destruct (run z1 ops) as [z2 l]. cbn [fst] in *.
    assert (E' : z1 = fst (plot_do order z o)) by (rewrite E; reflexivity). destruct (do_const z o) as (B & _). rewrite <- E' in B. rewrite IH by congruence.
    subst z1. destruct o as [t| |n ty k|]; [reflexivity|reflexivity| |].
    - cbn [plot_do]. destruct (vz_attached z); cbn [negb]; [|reflexivity]. rewrite (opb _ N). destruct (String.eqb _ _); reflexivity.
    - rewrite (update_other z N). reflexivity.
  Qed.
  (** a figure is never touched once another one was created *)
  Lemma do_frozen z o i : i + 1 < length (vz_figures z) ->
    nth_error (vz_figures (fst (plot_do order z o))) i = nth_error (vz_figures z) i /\ length (vz_figures z) <= length (vz_figures (fst (plot_do order z o))).
  Proof.
    intros H. destruct o as [t| |n ty k|]; cbn [plot_do]; [auto|auto| |].
    - destruct (vz_attached z); cbn [negb]; [|auto]. destruct (String.eqb _ _).
      + cbn [fst with_figures vz_figures]. rewrite app_length, nth_error_app1 by lia. split; [reflexivity|lia].
      + destruct (String.eqb _ _); auto.
    - destruct (vz_attached z && _); [|auto]. destruct (vz_figures z) as [|f r] eqn:EF; [cbn in H; lia|].
      destruct (get_recent _ _) as [|p l]; [cbn [fst]; rewrite EF; auto|]. cbn [fst with_figures vz_figures]. rewrite <- EF in H |- *. destruct (set_last_frozen (draw_points order (p :: l)) _ _ H) as (-> & ->). split; [reflexivity|lia].
  Qed.
  Lemma run_frozen ops : forall z i, i + 1 < length (vz_figures z) ->
    nth_error (vz_figures (fst (run z ops))) i = nth_error (vz_figures z) i.
  Proof.
    induction ops as [|o ops IH]; intros z i H; [reflexivity|]. cbn [plot_run].
    destruct (do_frozen z o i H) as (A & B). destruct (plot_do order z o) as [z1 a]. cbn [fst] in *. specialize (IH z1 i). destruct (run z1 ops) as [z2 l]. cbn [fst] in *.
    rewrite IH by lia. exact A.
  Qed.
  (** the figures only change by creating and updating *)
  Lemma run_quiet ops : forall z, creates ops = false -> redraws ops = false -> vz_figures (fst (run z ops)) = vz_figures z.
  Proof.
    induction ops as [|o ops IH]; intros z C R; [reflexivity|]. cbn [plot_run]. unfold creates, redraws in C, R. cbn [existsb] in C, R.
    apply orb_false_iff in C as (C & C'). apply orb_false_iff in R as (R & R').
    destruct o as [t| |n ty k|]; try discriminate; cbn [plot_do].
    - specialize (IH (Visualizer (vz_backend z) (vz_max z) (vz_attached z) (tracker_do (vz_tracker z) t) (vz_figures z) (vz_plotly z)) C' R').
      destruct (run _ ops). exact IH.
    - specialize (IH (Visualizer (vz_backend z) (vz_max z) true (vz_tracker z) (vz_figures z) (vz_plotly z)) C' R').
      destruct (run _ ops). exact IH.
  Qed.
  (** a figure created and then updated shows the last points *)
  Lemma shown_points backend mx k a names types kind b c l :
    let z0 := new_visualizer backend mx k in
    backend = "matplotlib" -> In PAttach a -> creates b = false -> creates c = false -> redraws c = false ->
    get_recent mx (tracker_run k (tracker_calls (a ++ PCreate names types kind :: b))) = l -> l <> [] ->
    exists before, vz_figures (fst (run z0 (a ++ PCreate names types kind :: b ++ PUpdate :: c))) = before ++ [draw_points order l] /\
      length before = length (vz_figures (fst (run z0 a))).
  Proof.
    intros z0 EB IA CB CC RC G L. set (z1 := fst (run z0 a)).
    assert (AT : vz_attached z1 = true).
    { unfold z1. rewrite attached_spec. cbn [new_visualizer vz_attached z0 orb]. apply existsb_exists. exists PAttach. auto. }
    assert (B1 : vz_backend z1 = "matplotlib") by (unfold z1; rewrite (proj1 (run_const a z0)); exact EB).
    rewrite run_app. cbn [fst]. fold z1. change (PCreate names types kind :: b ++ PUpdate :: c) with ([PCreate names types kind] ++ b ++ PUpdate :: c).
    rewrite run_app. cbn [fst].
    assert (E2 : fst (run z1 [PCreate names types kind]) = with_figures (vz_figures z1 ++ [blank]) z1).
    { cbn [plot_run plot_do]. rewrite AT, B1. reflexivity. }
    set (z2 := fst (run z1 [PCreate names types kind])) in *. rewrite run_app. cbn [fst]. set (z3 := fst (run z2 b)).
    change (PUpdate :: c) with ([PUpdate] ++ c). rewrite run_app. cbn [fst]. rewrite (run_quiet c _ CC RC).
    assert (LEN : forall ops z n, creates ops = false -> length (vz_figures z) = n -> length (vz_figures (fst (run z ops))) = n).
    { clear. intros ops. induction ops as [|o ops IH]; intros z n C N; [exact N|]. unfold creates in C. cbn [existsb] in C. apply orb_false_iff in C as (C & C').
      cbn [plot_run]. destruct (plot_do order z o) as [z1 x] eqn:E. specialize (IH z1 n C'). destruct (run z1 ops) as [z2 y]. cbn [fst] in *. apply IH. clear IH.
      replace z1 with (fst (plot_do order z o)) by (rewrite E; reflexivity). destruct o as [t| |nm ty k|]; try discriminate; cbn [plot_do]; try exact N.
      destruct (vz_attached z && _); [|exact N]. destruct (vz_figures z) as [|f r] eqn:EF; [cbn [fst]; rewrite EF; exact N|]. destruct (get_recent _ _); [cbn [fst]; rewrite EF; exact N|].
      cbn [fst with_figures vz_figures]. unfold set_last. destruct (@exists_last _ (f :: r)) as (q & w & Q); [discriminate|]. rewrite Q in *. rewrite removelast_last, app_length in *. exact N. }
    assert (L3 : length (vz_figures z3) = length (vz_figures z1) + 1).
    { unfold z3. apply LEN; [exact CB|]. rewrite E2. cbn [with_figures vz_figures]. rewrite app_length. reflexivity. }
    assert (AT3 : vz_attached z3 = true) by (apply (run_const b z2); rewrite E2; exact AT).
    assert (B3 : vz_backend z3 = "matplotlib") by (unfold z3; rewrite (proj1 (run_const b z2)), E2; exact B1).
    assert (M3 : vz_max z3 = mx).
    { unfold z3. rewrite (proj1 (proj2 (run_const b z2))), E2. cbn [with_figures vz_max]. unfold z1. rewrite (proj1 (proj2 (run_const a z0))). reflexivity. }
    assert (T3 : vz_tracker z3 = tracker_run k (tracker_calls (a ++ PCreate names types kind :: b))).
    { unfold z3. destruct (run_const b z2) as (_ & _ & _ & ->). rewrite E2. cbn [with_figures vz_tracker]. unfold z1. destruct (run_const a z0) as (_ & _ & _ & ->).
      unfold tracker_run, tracker_calls. cbn [new_visualizer vz_tracker z0]. rewrite flat_map_app, fold_left_app. cbn [flat_map]. reflexivity. }
    assert (NE : vz_figures z3 <> []) by (intros E; rewrite E in L3; cbn in L3; lia).
    exists (removelast (vz_figures z3)). split.
    - cbn [plot_run]. destruct (plot_do order z3 PUpdate) as [z4 x] eqn:E4. cbn [fst]. replace z4 with (fst (plot_do order z3 PUpdate)) by (rewrite E4; reflexivity).
      apply update_shows; try assumption. rewrite M3, T3. exact G.
    - destruct (exists_last NE) as (q & w & Q). rewrite Q in *. rewrite removelast_last, app_length in *. cbn in L3. lia.
  Qed.
  (** the modules, types and kind asked for do not matter *)
  Lemma filters_ignored ops : forall ops' z, Forall2 same_but_filters ops ops' -> run z ops = run z ops'.
  Proof.
    induction ops as [|o ops IH]; intros ops' z F; inversion F as [|? o' ? r' S F']; subst; [reflexivity|]. cbn [plot_run].
    assert (E : plot_do order z o = plot_do order z o') by (destruct S; reflexivity). rewrite E. destruct (plot_do order z o') as [z1 a]. rewrite (IH r' z1 F'). reflexivity.
  Qed.
  Lemma plotly_empty z n ty k traces : snd (plot_do order z (PCreate n ty k)) = OPlotly traces -> length traces = 4 /\ Forall (fun t => snd t = []) traces.
  Proof.
    cbn [plot_do]. destruct (vz_attached z); cbn [negb]; [|discriminate]. destruct (String.eqb _ _); [discriminate|]. destruct (String.eqb _ _); [|discriminate].
    cbn [snd]. intros E. injection E as <-. split; [reflexivity|]. repeat constructor.
  Qed.

  (** what a figure shows *)
  Lemma row_spec m rows : In m rows -> nth_error rows (row_of m rows) = Some m.
  Proof.
    induction rows as [|x r IH]; intros I; [destruct I|]. cbn [row_of]. destruct (String.eqb_spec m x) as [->|N]; [reflexivity|].
    destruct I as [E|I]; [congruence|]. cbn [nth_error]. exact (IH I).
  Qed.
  Lemma color_spec ty : has_color ty (type_color ty).
  Proof.
    unfold type_color. destruct (String.eqb_spec ty "input") as [->|A]; [reflexivity|]. destruct (String.eqb_spec ty "output") as [->|B]; [reflexivity|]. split; assumption.
  Qed.
  Lemma draw_spec l : set_order order ->
    let g := draw_points order l in
    (forall m, sget m (fg_values g) = curve_of scalar_point m l) /\ (forall m, sget m (fg_sizes g) = curve_of size_point m l) /\
    (NoDup (fg_rows g) /\ forall m, In m (fg_rows g) <-> exists p, In p l /\ pt_module p = m) /\
    (length (fg_activity g) = length l /\
     forall i p, nth_error l i = Some p -> exists row c, nth_error (fg_activity g) i = Some (pt_time p, row, c) /\
       nth_error (fg_rows g) row = Some (pt_module p) /\ has_color (pt_type p) c) /\
    fg_rates g = flow_rates l.
  Proof.
    intros O g. unfold g, draw_points. cbn [fg_values fg_sizes fg_rows fg_activity fg_rates]. destruct (O (map pt_module l)) as (ND & IN).
    split; [intros m; apply group_spec|]. split; [intros m; apply group_spec|]. split; [split; [exact ND|]|split; [split|]].
    - intros m. rewrite IN. rewrite in_map_iff. split; intros (p & A & B); exists p; auto.
    - apply map_length.
    - intros i p N. exists (row_of (pt_module p) (order (map pt_module l))), (type_color (pt_type p)). split; [|split].
      + rewrite nth_error_map, N. reflexivity.
      + apply row_spec. apply IN. apply in_map. exact (nth_error_In _ _ N).
      + apply color_spec.
    - destruct (Nat.ltb_spec 1 (length l)) as [H|H]; [reflexivity|]. unfold flow_rates. replace (length l - 10) with 0 by lia. reflexivity.
  Qed.

  (** the text *)
  Lemma text_empty k : text_plot order k = [TTitle; TNothing] <-> tk_history k = [].
  Proof.
    unfold text_plot. assert (E : get_recent 20 k = [] <-> tk_history k = []).
    { unfold get_recent. rewrite from_end_pos by lia. unfold lastn. split; intros H; [|rewrite H; reflexivity].
      apply (f_equal (@length _)) in H. rewrite skipn_length in H. cbn [length] in H. destruct (tk_history k); [reflexivity|]. cbn [length] in H. lia. }
    rewrite <- E. destruct (get_recent 20 k); split; intros H; try reflexivity; try discriminate H.
  Qed.
  Lemma text_spec k : tk_history k <> [] -> set_order order ->
    let recent := lastn 20 (tk_history k) in
    exists modules types points,
      text_plot order k = [TTitle; TModules (length modules); TTypes types; TSteps (tk_steps k); TRecent (Nat.min 20 (length (tk_history k)))] ++ points /\
      (NoDup modules /\ forall m, In m modules <-> exists p, In p recent /\ pt_module p = m) /\
      (NoDup types /\ forall t, In t types <-> exists p, In p recent /\ pt_type p = t) /\
      points = map (fun p => TPoint (pt_step p) (pt_module p) (pt_type p) (display_value (pt_value p))) (lastn 10 (tk_history k)).
  Proof.
    intros N O recent. assert (E : get_recent 20 k = recent) by (unfold get_recent; rewrite from_end_pos by lia; reflexivity).
    assert (LR : length recent = Nat.min 20 (length (tk_history k))) by (unfold recent, lastn; rewrite skipn_length; lia).
    unfold text_plot. rewrite E. destruct recent as [|p0 r] eqn:R.
    - exfalso. cbn [length] in LR. destruct (tk_history k); [contradiction|cbn in LR; lia].
    - rewrite <- R in *. exists (order (map pt_module recent)), (order (map pt_type recent)), (map (fun p => TPoint (pt_step p) (pt_module p) (pt_type p) (display_value (pt_value p))) (lastn 10 (tk_history k))).
      destruct (O (map pt_module recent)) as (ND & IN). destruct (O (map pt_type recent)) as (ND' & IN'). split; [|split; [split; [exact ND|]|split; [split; [exact ND'|]|reflexivity]]].
      + rewrite LR. rewrite from_end_pos by lia. unfold recent. rewrite lastn_lastn. reflexivity.
      + intros m. rewrite IN, in_map_iff. split; intros (p & A & B); exists p; auto.
      + intros m. rewrite IN', in_map_iff. split; intros (p & A & B); exists p; auto.
  Qed.
End Plots.
Lemma display_value_spec (v : value) :
  (forall x, display_value v = ShowNumber x <-> v = VNum x \/ exists shape, v = VArray shape [x]) /\
  (forall shape, display_value v = ShowArray shape <-> exists d, v = VArray shape d /\ length d <> 1) /\
  (forall n, display_value v = ShowSized n <-> v = VSized n) /\
  (forall name, display_value v = ShowType name <-> v = VObject name).
Proof.
  split; [|split; [|split]]; intros z; split; intros H.
  - destruct v as [s [|a [|b d]]|y|m|t]; cbn [display_value] in H; try discriminate; injection H as <-; [right; exists s; reflexivity|left; reflexivity].
  - destruct H as [->|[s ->]]; reflexivity.
  - destruct v as [s [|a [|b d]]|y|m|t]; cbn [display_value] in H; try discriminate; injection H as <-.
    + exists []. split; [reflexivity|cbn [length]; lia].
    + exists (a :: b :: d). split; [reflexivity|cbn [length]; lia].
  - destruct H as (d & -> & L). destruct d as [|a [|b d]]; [reflexivity|cbn [length] in L; lia|reflexivity].
  - destruct v as [s [|a [|b d]]|y|m|t]; cbn [display_value] in H; try discriminate; injection H as <-; reflexivity.
  - subst v. reflexivity.
  - destruct v as [s [|a [|b d]]|y|m|t]; cbn [display_value] in H; try discriminate; injection H as <-; reflexivity.
  - subst v. reflexivity.
Qed.
