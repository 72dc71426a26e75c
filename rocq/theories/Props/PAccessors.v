(** Property theorems C87-C91: modules applied to labelled data (accessors.py, Stream.prepare). *)
From Coq Require Import String ZArith List Bool Arith Lia Reals.
From Verif Require Import Model.Tree Model.Unroll Model.Stream Model.Format Model.Float Model.Modules Model.Ewm Model.Accessors
  Spec.StreamSpec Spec.FormatSpec Spec.EwmSpec Spec.AccessorSpec Proofs.EwmProofs
  Proofs.AccessorProofs Proofs.AccessorProofs2 Proofs.AccessorProofs3 Proofs.AccessorProofs4 Proofs.AccessorProofs5
  Proofs.AccessorProofs6 Proofs.AccessorProofs7 Proofs.AccessorProofs8 Proofs.AccessorProofs9.
Import ListNotations.
Local Open Scope list_scope.

(** C87: an array whose only time axis is its first dimension: the module is unrolled on the rows, in order. *)
Theorem C87_rows_in_order :
  forall (K P S A C Y : Type) (split : K -> K * K) (datetimes : C -> option (list Z)) cfg (a : array_in A C)
    (module : transformed K P S (seen A) Y) skip_first rng params state time rest ts,
  only_time datetimes (in_coords a) time ts -> local_time cfg = ""%string \/ local_time cfg = time ->
  in_dims a = time :: rest -> length ts = length (in_rows a) ->
  stream_apply split datetimes cfg (as_dataset a) (in_coords a) (on_array module) skip_first rng params state =
  unroll split module skip_first rng params state (map SOne (in_rows a)).
Proof. exact @stream_apply_single. Qed.
Print Assumptions C87_rows_in_order.

(** C87: outputs of the shape of the rows get the dims and the coordinates of the input. *)
Theorem C87_dataarray_labels :
  forall (K P S A B C : Type) (split : K -> K * K) (datetimes : C -> option (list Z)) cfg (a : array_in A C)
    (module : transformed K P S (seen A) (list B)) time rest ts size shape rng params state outputs sF,
  only_time datetimes (in_coords a) time ts -> local_time cfg = ""%string \/ local_time cfg = time ->
  in_dims a = time :: rest -> length ts = length (in_rows a) ->
  coords_of_dims size (in_dims a) (in_coords a) -> map size (in_dims a) = length (in_rows a) :: shape ->
  unroll split module false rng params state (map SOne (in_rows a)) = Some (map (fun b => [b]) outputs, sF) ->
  dataarray_apply split datetimes cfg a module (Leaf shape) false rng params state (in_dims a) =
  Some (Leaf (labelled_by (in_coords a) (in_dims a) (NdArray (length (in_rows a) :: shape) outputs)), sF).
Proof. intros. eapply dataarray_same_shape; eauto. Qed.
Print Assumptions C87_dataarray_labels.

(** C87: one number per step: the time labels. *)
Theorem C87_dataarray_reduced :
  forall (K P S A B C : Type) (split : K -> K * K) (datetimes : C -> option (list Z)) cfg (a : array_in A C)
    (module : transformed K P S (seen A) (list B)) time rest ts size rng params state outputs sF,
  only_time datetimes (in_coords a) time ts -> local_time cfg = ""%string \/ local_time cfg = time ->
  in_dims a = time :: rest -> length ts = length (in_rows a) -> rest <> [] ->
  coords_of_dims size (in_dims a) (in_coords a) -> size time = length (in_rows a) ->
  unroll split module false rng params state (map SOne (in_rows a)) = Some (map (fun b => [b]) outputs, sF) ->
  dataarray_apply split datetimes cfg a module (Leaf []) false rng params state (in_dims a) =
  Some (Leaf (labelled_by (in_coords a) [time] (NdArray [length (in_rows a)] outputs)), sF).
Proof. intros. eapply dataarray_reduced; eauto. Qed.
Print Assumptions C87_dataarray_reduced.

(** C87: nested outputs: each leaf stacks the leaves of the steps; all get the dims, else all get the first one. *)
Theorem C87_dataarray_trees :
  forall (K P S A B C : Type) (split : K -> K * K) (datetimes : C -> option (list Z)) cfg (a : array_in A C)
    (module : transformed K P S (seen A) (list B)) time rest ts shapes skip_first rng params state ys sF dims result sF',
  only_time datetimes (in_coords a) time ts -> local_time cfg = ""%string \/ local_time cfg = time ->
  in_dims a = time :: rest -> length ts = length (in_rows a) ->
  ~ same_structure shapes (names_tree dims) -> ~ same_structure shapes (names_tree (firstn 1 dims)) ->
  unroll split module skip_first rng params state (map SOne (in_rows a)) = Some (ys, sF) ->
  Forall (fun y => length y = length (tree_leaves shapes)) ys ->
  dataarray_apply split datetimes cfg a module shapes skip_first rng params state dims = Some (result, sF') <->
  sF' = sF /\ exists outputs, stacked shapes ys outputs /\
   (((forall x, In x (tree_leaves outputs) -> fits (in_coords a) dims x) /\
     result = tree_map (labelled_by (in_coords a) dims) outputs) \/
    (~ (forall x, In x (tree_leaves outputs) -> fits (in_coords a) dims x) /\
     exists first others, dims = first :: others /\
     (forall x, In x (tree_leaves outputs) -> fits (in_coords a) [first] x) /\
     result = tree_map (labelled_by (in_coords a) [first]) outputs)).
Proof. intros. eapply dataarray_trees; eauto. Qed.
Print Assumptions C87_dataarray_trees.

(** C87: a DataFrame gives a DataFrame with its index and columns, ... *)
Theorem C87_dataframe_labels :
  forall (K P S A B C : Type) (split : K -> K * K) (datetimes : C -> option (list Z)) cfg (a : array_in A C)
    (module : transformed K P S (seen A) (list B)) time column ts size dim_name rng params state outputs sF,
  only_time datetimes (in_coords a) time ts -> local_time cfg = ""%string \/ local_time cfg = time ->
  in_dims a = [time; column] -> length ts = length (in_rows a) ->
  coords_of_dims size (in_dims a) (in_coords a) -> size time = length (in_rows a) ->
  unroll split module false rng params state (map SOne (in_rows a)) = Some (map (fun b => [b]) outputs, sF) ->
  dataframe_apply split datetimes cfg a module (Leaf [size column]) false rng params state dim_name (in_dims a) =
  Some (Leaf (Frame (labelled_by (in_coords a) [time; column] (NdArray [length (in_rows a); size column] outputs))
                    [time] [column]), sF).
Proof. intros. eapply dataframe_same_shape; eauto. Qed.
Print Assumptions C87_dataframe_labels.

(** ... or a Series with its index when the module gives one number per step; *)
Theorem C87_dataframe_reduced :
  forall (K P S A B C : Type) (split : K -> K * K) (datetimes : C -> option (list Z)) cfg (a : array_in A C)
    (module : transformed K P S (seen A) (list B)) time column ts size dim_name rng params state outputs sF,
  only_time datetimes (in_coords a) time ts -> local_time cfg = ""%string \/ local_time cfg = time ->
  in_dims a = [time; column] -> length ts = length (in_rows a) ->
  coords_of_dims size (in_dims a) (in_coords a) -> size time = length (in_rows a) ->
  unroll split module false rng params state (map SOne (in_rows a)) = Some (map (fun b => [b]) outputs, sF) ->
  dataframe_apply split datetimes cfg a module (Leaf []) false rng params state dim_name (in_dims a) =
  Some (Leaf (Series (labelled_by (in_coords a) [time] (NdArray [length (in_rows a)] outputs)) [time]), sF).
Proof. intros. eapply dataframe_reduced; eauto. Qed.
Print Assumptions C87_dataframe_reduced.

(** ... a Series gives a Series with its index. *)
Theorem C87_series_labels :
  forall (K P S A B C : Type) (split : K -> K * K) (datetimes : C -> option (list Z)) cfg (a : array_in A C)
    (module : transformed K P S (seen A) (list B)) time ts size rng params state outputs sF,
  only_time datetimes (in_coords a) time ts -> local_time cfg = ""%string \/ local_time cfg = time ->
  in_dims a = [time] -> length ts = length (in_rows a) ->
  coords_of_dims size (in_dims a) (in_coords a) -> size time = length (in_rows a) ->
  unroll split module false rng params state (map SOne (in_rows a)) = Some (map (fun b => [b]) outputs, sF) ->
  series_apply split datetimes cfg a module (Leaf []) false rng params state (in_dims a) =
  Some (Leaf (Series (labelled_by (in_coords a) [time] (NdArray [length (in_rows a)] outputs)) [time]), sF).
Proof. intros. eapply series_same_shape; eauto. Qed.
Print Assumptions C87_series_labels.

(** C87: with skip_first the outputs cannot be labelled (one output less than time labels): always an exception. *)
Theorem C87_skip_first_refuted :
  forall (K P S A B C : Type) (split : K -> K * K) (datetimes : C -> option (list Z)) cfg (a : array_in A C)
    (module : transformed K P S (seen A) (list B)) time rest ts size shapes rng params state c ys sF,
  only_time datetimes (in_coords a) time ts -> local_time cfg = ""%string \/ local_time cfg = time ->
  in_dims a = time :: rest -> length ts = length (in_rows a) ->
  In c (in_coords a) -> c_name c = time ->
  coords_of_dims size (in_dims a) (in_coords a) -> size time = length (in_rows a) ->
  unroll split module true rng params state (map SOne (in_rows a)) = Some (ys, sF) ->
  Forall (fun y => length y = length (tree_leaves shapes)) ys -> tree_leaves shapes <> [] ->
  dataarray_apply split datetimes cfg a module shapes true rng params state (in_dims a) = None.
Proof. intros. eapply skip_first_fails; eauto. Qed.
Print Assumptions C87_skip_first_refuted.

(** C87: the input must have a time axis; several need local_time; the time axis must come first. *)
Theorem C87_no_time_axis :
  forall (A C : Type) (datetimes : C -> option (list Z)) cfg (vars : list (dvar A)) (coords : list (coord C)),
  (forall c, In c coords -> datetimes (c_val c) = None) -> prepare datetimes cfg vars coords = None.
Proof. exact @no_time_axis. Qed.
Print Assumptions C87_no_time_axis.
Theorem C87_ambiguous_time_axis :
  forall (A C : Type) (datetimes : C -> option (list Z)) cfg (vars : list (dvar A)) (coords : list (coord C)) i j c c' ts ts',
  i <> j -> nth_error coords i = Some c -> nth_error coords j = Some c' ->
  datetimes (c_val c) = Some ts -> datetimes (c_val c') = Some ts' -> local_time cfg = ""%string ->
  prepare datetimes cfg vars coords = None.
Proof. exact @two_time_axes. Qed.
Print Assumptions C87_ambiguous_time_axis.
Theorem C87_time_not_first :
  forall (A C : Type) (datetimes : C -> option (list Z)) cfg (a : array_in A C) time ts d rest,
  only_time datetimes (in_coords a) time ts -> local_time cfg = ""%string \/ local_time cfg = time ->
  in_dims a = d :: rest -> d <> time -> In time rest ->
  prepare datetimes cfg (as_dataset a) (in_coords a) = None.
Proof. exact @time_not_first. Qed.
Print Assumptions C87_time_not_first.

Module DemoA.
  Local Open Scope string_scope.
  Definition dt (c : option (list Z)) := c.
  Definition a : array_in nat (option (list Z)) :=
    ArrayIn ["time"; "asset"] 6 2 [[1; 2]; [3; 4]; [5; 6]] 0
      [Coord "time" ["time"] [3] (Some [0; 10; 20]%Z); Coord "asset" ["asset"] [2] None].
  Definition size (d : string) := if String.eqb d "time" then 3 else 2.
  (** the running sum of each column *)
  Definition cumsum : transformed unit unit (list nat) (seen nat) (list (list nat)) :=
    @Transformed unit unit (list nat) (seen nat) (list (list nat)) (fun _ _ => (tt, [0; 0]))
      (fun _ s _ x => match x with
                      | SOne r => let s' := map (fun p => fst p + snd p) (combine s r) in ([s'], s')
                      | SMany _ => ([], s)
                      end).
End DemoA.
Example C87_example :
  only_time DemoA.dt (in_coords DemoA.a) "time" [0; 10; 20]%Z /\
  coords_of_dims DemoA.size (in_dims DemoA.a) (in_coords DemoA.a) /\
  dataarray_apply (fun k : unit => (k, k)) DemoA.dt default_cfg DemoA.a DemoA.cumsum (Leaf [2]) false None None None
    (in_dims DemoA.a) =
  Some (Leaf (DataArray (NdArray [3; 2] [[1; 2]; [4; 6]; [9; 12]]) ["time"; "asset"]%string (in_coords DemoA.a)), [9; 12]) /\
  dataarray_apply (fun k : unit => (k, k)) DemoA.dt default_cfg DemoA.a DemoA.cumsum (Leaf [2]) true None None None
    (in_dims DemoA.a) = None.
Proof.
  split; [|split; [|split; reflexivity]].
  - exists [], (Coord "time"%string ["time"%string] [3] (Some [0; 10; 20]%Z)), [Coord "asset"%string ["asset"%string] [2] None].
    split; [reflexivity|]. split; [reflexivity|]. split; [reflexivity|]. intros c [<-|[]]. reflexivity.
  - intros c [<-|[<-|[]]] _; split; reflexivity.
Qed.

(** C88: x.wax.ewm(...).mean(): same labels as the input, and each column is the EWMA of the column. *)
Theorem C88_ewm_dataarray :
  forall (C : Type) (datetimes : C -> option (list Z)) fm (a : array_in fl C) time rest ts size width
    com_ alpha c min_periods_ adjust_ ignore_na_ initial_value_,
  only_time datetimes (in_coords a) time ts -> in_dims a = time :: rest -> length ts = length (in_rows a) ->
  in_rows a <> [] -> Forall (fun r => length r = width) (in_rows a) ->
  coords_of_dims size (in_dims a) (in_coords a) -> size time = length (in_rows a) ->
  com_of com_ alpha = Some c ->
  exists rows,
    ewm_dataarray datetimes fm com_ alpha min_periods_ adjust_ ignore_na_ initial_value_ a (map size rest) =
    Some (Leaf (labelled_by (in_coords a) (in_dims a) (NdArray (map size (in_dims a)) rows))) /\
    length rows = length (in_rows a) /\ Forall (fun b => length b = width) rows /\
    forall j column, j < width -> is_column j (in_rows a) column ->
      exists out sj, run (EWMA fm (EwmaCfg c min_periods_ adjust_ ignore_na_ initial_value_)) column = Some (out, sj) /\
        is_column j rows out.
Proof. intros. eapply ewm_dataarray_spec; eauto. Qed.
Print Assumptions C88_ewm_dataarray.

Theorem C88_ewm_dataframe :
  forall (C : Type) (datetimes : C -> option (list Z)) fm (a : array_in fl C) time column_dim ts size width dim_name
    com_ alpha c min_periods_ adjust_ ignore_na_ initial_value_,
  only_time datetimes (in_coords a) time ts -> in_dims a = [time; column_dim] -> length ts = length (in_rows a) ->
  in_rows a <> [] -> Forall (fun r => length r = width) (in_rows a) ->
  coords_of_dims size (in_dims a) (in_coords a) -> size time = length (in_rows a) ->
  com_of com_ alpha = Some c ->
  exists rows,
    ewm_dataframe datetimes fm com_ alpha min_periods_ adjust_ ignore_na_ initial_value_ dim_name a [size column_dim] =
    Some (Leaf (Frame (labelled_by (in_coords a) [time; column_dim] (NdArray [length (in_rows a); size column_dim] rows))
                      [time] [column_dim])) /\
    length rows = length (in_rows a) /\ Forall (fun b => length b = width) rows /\
    forall j column, j < width -> is_column j (in_rows a) column ->
      exists out sj, run (EWMA fm (EwmaCfg c min_periods_ adjust_ ignore_na_ initial_value_)) column = Some (out, sj) /\
        is_column j rows out.
Proof. intros. eapply ewm_dataframe_spec; eauto. Qed.
Print Assumptions C88_ewm_dataframe.

Theorem C88_ewm_series :
  forall (C : Type) (datetimes : C -> option (list Z)) fm (a : array_in fl C) time ts size
    com_ alpha c min_periods_ adjust_ ignore_na_ initial_value_,
  only_time datetimes (in_coords a) time ts -> in_dims a = [time] -> length ts = length (in_rows a) ->
  in_rows a <> [] -> Forall (fun r => length r = 1) (in_rows a) ->
  coords_of_dims size (in_dims a) (in_coords a) -> size time = length (in_rows a) ->
  com_of com_ alpha = Some c ->
  exists rows,
    ewm_series datetimes fm com_ alpha min_periods_ adjust_ ignore_na_ initial_value_ a =
    Some (Leaf (Series (labelled_by (in_coords a) [time] (NdArray [length (in_rows a)] rows)) [time])) /\
    length rows = length (in_rows a) /\ Forall (fun b => length b = 1) rows /\
    forall column, is_column 0 (in_rows a) column ->
      exists out sj, run (EWMA fm (EwmaCfg c min_periods_ adjust_ ignore_na_ initial_value_)) column = Some (out, sj) /\
        is_column 0 rows out.
Proof.
  intros C datetimes fm a time ts size com_ alpha c mp adj ig iv H1 H2 H3 H4 H5 H6 H7 H8.
  destruct (ewm_series_spec datetimes fm a time [] ts size 1 H1 H2 H3 H4 H5 H6 H7 com_ alpha c mp adj ig iv eq_refl H8)
    as (rows & E & L & F & Hc). exists rows. repeat split; auto.
Qed.
Print Assumptions C88_ewm_series.

(** C88: hence the entries: with adjust=True the exponentially weighted average of the values up to the row. *)
Theorem C88_ewm_weighted_average :
  forall (C : Type) (datetimes : C -> option (list Z)) fm (a : array_in fl C) time column_dim ts size width dim_name
    com_ alpha c min_periods_ ignore_na_ initial_value_,
  only_time datetimes (in_coords a) time ts -> in_dims a = [time; column_dim] -> length ts = length (in_rows a) ->
  in_rows a <> [] -> Forall (fun r => length r = width) (in_rows a) ->
  coords_of_dims size (in_dims a) (in_coords a) -> size time = length (in_rows a) ->
  com_of com_ alpha = Some c -> (0 < c)%R ->
  exists da,
    ewm_dataframe datetimes fm com_ alpha min_periods_ AdjTrue ignore_na_ initial_value_ dim_name a [size column_dim] =
    Some (Leaf (Frame da [time] [column_dim])) /\
    forall j column t, j < width -> is_column j (in_rows a) column -> t < length (in_rows a) ->
      let os := map (observation fm) (firstn (t + 1) column) in
      exists row, nth_error (nd_data (da_data da)) t = Some row /\
        nth_error row j = Some (when_enough min_periods_ os
          (exp_average ignore_na_ (1 / (1 + c))%R (observation fm initial_value_ :: os))).
Proof.
  intros C datetimes fm a time cd ts size width dim_name com_ alpha c mp ig iv H1 H2 H3 H4 H5 H6 H7 H8 H9.
  destruct (C88_ewm_dataframe C datetimes fm a time cd ts size width dim_name com_ alpha c mp AdjTrue ig iv H1 H2 H3 H4 H5 H6 H7 H8)
    as (rows & E & L & _ & Hc).
  eexists. split; [exact E|]. intros j column t Hj Hcol Ht os. cbn [labelled_by da_data nd_data].
  destruct (Hc j column Hj Hcol) as (out & sj & Hr & Ho).
  destruct (ewma_adjust_true fm (EwmaCfg c mp AdjTrue ig iv) column out sj H9 eq_refl Hr) as [Hl Hn].
  assert (Hlc : length column = length (in_rows a)).
  { apply (f_equal (@length _)) in Hcol. rewrite !map_length in Hcol. exact Hcol. }
  cbv zeta in Hn. pose proof (Hn t) as Hnt. rewrite Hlc in Hnt. specialize (Hnt Ht). clear Hn. cbn [com ignore_na initial_value min_periods] in Hnt.
  assert (Hrow : exists row, nth_error rows t = Some row).
  { destruct (nth_error rows t) eqn:En; [eauto|]. apply nth_error_None in En. lia. }
  destruct Hrow as (row & Hrow). exists row. split; [exact Hrow|].
  apply (f_equal (fun l => nth_error l t)) in Ho. rewrite !nth_error_map, Hrow, Hnt in Ho. cbn [option_map] in Ho.
  unfold os. rewrite <- firstn_map. congruence.
Qed.
Print Assumptions C88_ewm_weighted_average.

(** C88: neither or both of com and alpha: an exception. *)
Theorem C88_ewm_arguments :
  forall (C : Type) (datetimes : C -> option (list Z)) fm (a : array_in fl C) com_ alpha mp adj ig iv shape dim_name,
  (com_ = None <-> alpha = None) ->
  ewm_dataarray datetimes fm com_ alpha mp adj ig iv a shape = None /\
  ewm_dataframe datetimes fm com_ alpha mp adj ig iv dim_name a shape = None /\
  ewm_series datetimes fm com_ alpha mp adj ig iv a = None.
Proof.
  intros C datetimes fm a com_ alpha mp adj ig iv shape dim_name H.
  assert (E : com_of com_ alpha = None).
  { destruct com_ as [x|], alpha as [y|]; try reflexivity; exfalso.
    - assert (X := proj2 H eq_refl). discriminate X.
    - assert (X := proj1 H eq_refl). discriminate X. }
  unfold ewm_dataarray, ewm_dataframe, ewm_series. rewrite E. auto.
Qed.
Print Assumptions C88_ewm_arguments.

Example C88_example :
  let a := ArrayIn ["time"; "asset"]%string 4 2 [[Fin 1; Fin 2]; [Fin 3; NaN]] NaN
      [Coord "time"%string ["time"%string] [2] (Some [0; 10]%Z); Coord "asset"%string ["asset"%string] [2] None] in
  only_time DemoA.dt (in_coords a) "time" [0; 10]%Z /\
  coords_of_dims (fun _ => 2) (in_dims a) (in_coords a) /\
  is_column 1 (in_rows a) [Fin 2; NaN] /\ com_of (Some 3%R) None = Some 3%R.
Proof.
  cbn. split; [|split; [|split; reflexivity]].
  - exists [], (Coord "time"%string ["time"%string] [2] (Some [0; 10]%Z)), [Coord "asset"%string ["asset"%string] [2] None].
    split; [reflexivity|]. split; [reflexivity|]. split; [reflexivity|]. intros c [<-|[]]. reflexivity.
  - intros c [<-|[<-|[]]] _; split; reflexivity.
Qed.

(** C89: several time axes.  Applying a module is unrolling it on what it reads at each step of the local time. *)
Theorem C89_apply_is_unroll :
  forall (K P S A C Y : Type) (split : K -> K * K) (datetimes : C -> option (list Z)) cfg (vars : list (dvar A)) coords
    (module : transformed K P S (list (string * seen A)) Y) skip_first rng params state,
  stream_apply split datetimes cfg vars coords module skip_first rng params state =
  match prepare datetimes cfg vars coords with
  | Some views => unroll split module skip_first rng params state views
  | None => None
  end.
Proof. exact @stream_apply_views. Qed.
Print Assumptions C89_apply_is_unroll.

(** C89: one step per local time, and at step t the row t of the variables of the local time. *)
Theorem C89_local_rows :
  forall (A C : Type) (datetimes : C -> option (list Z)) cfg (vars : list (dvar A)) coords views local lts t i v row,
  NoDup (map c_name coords) -> prepare datetimes cfg vars coords = Some views ->
  time_axis datetimes coords local lts ->
  local_time cfg = local \/ (forall d ts, time_axis datetimes coords d ts -> d = local) ->
  nth_error vars i = Some v -> hd_error (dv_dims v) = Some local ->
  nth_error (dv_rows v) t = Some row -> t < length lts ->
  length views = length lts /\ reads views t i (SOne row).
Proof. intros. eapply (@reads_local) with (local := local) (lts := lts); eauto. Qed.
Print Assumptions C89_local_rows.

(** C89: scalars are read unchanged at each step. *)
Theorem C89_constants :
  forall (A C : Type) (datetimes : C -> option (list Z)) cfg (vars : list (dvar A)) coords views t i v row,
  NoDup (map c_name coords) -> prepare datetimes cfg vars coords = Some views ->
  nth_error vars i = Some v -> dv_dims v = [] -> dv_rows v = [row] -> t < length views ->
  reads views t i (SOne row).
Proof. intros. eapply reads_constant; eauto. Qed.
Print Assumptions C89_constants.

(** C89: vectors without time are not: the j-th element read at step t is the one of position min(t*j, m-1). *)
Theorem C89_constant_vectors_refuted :
  forall (A C : Type) (datetimes : C -> option (list Z)) cfg (vars : list (dvar A)) coords views t i v xs,
  NoDup (map c_name coords) -> prepare datetimes cfg vars coords = Some views ->
  nth_error vars i = Some v -> length (dv_dims v) = 1 ->
  (forall d ts, time_axis datetimes coords d ts -> ~ In d (dv_dims v)) ->
  dv_rows v = map (fun x => [x]) xs -> dv_size v = length xs -> t < length views ->
  exists ys, reads views t i (SMany (map (fun y => [y]) ys)) /\ length ys = length xs /\
    forall j, j < length xs -> nth_error ys j = nth_error xs (Nat.min (t * j) (length xs - 1)).
Proof. intros. eapply reads_constant_vector; eauto. Qed.
Print Assumptions C89_constant_vectors_refuted.

(** C89: a forward-filled variable of another time axis: the latest row strictly before the local time (at the frequency of the axis), else the default value. *)
Theorem C89_latest_row :
  forall (A C : Type) (datetimes : C -> option (list Z)) cfg (vars : list (dvar A)) coords views local lts i v d ts rest width t T,
  NoDup (map c_name coords) -> prepare datetimes cfg vars coords = Some views ->
  time_axis datetimes coords local lts -> local_time cfg = local ->
  nth_error vars i = Some v -> time_axis datetimes coords d ts -> d <> local -> dv_dims v = d :: rest ->
  in_order lts -> in_order ts -> monotone_on lts (embedding cfg d) ->
  length ts = length (dv_rows v) -> Forall (fun r => length r = width) (dv_rows v) -> (index_fill cfg < 0)%Z ->
  nth_error lts t = Some T -> ffills cfg d = true -> buffer_maxlen cfg d = None ->
  reads views t i (SOne (last (map snd (strictly_before (embedding cfg d T) (timed ts (dv_rows v))))
                              (repeat (dv_default v) width))).
Proof. intros. eapply (@reads_ffill) with (local := local) (lts := lts) (d := d) (ts := ts); eauto. Qed.
Print Assumptions C89_latest_row.

(** C89: without ffill: the latest row since the previous local time, else the default value. *)
Theorem C89_new_row :
  forall (A C : Type) (datetimes : C -> option (list Z)) cfg (vars : list (dvar A)) coords views local lts i v d ts rest width t T0 T,
  NoDup (map c_name coords) -> prepare datetimes cfg vars coords = Some views ->
  time_axis datetimes coords local lts -> local_time cfg = local ->
  nth_error vars i = Some v -> time_axis datetimes coords d ts -> d <> local -> dv_dims v = d :: rest ->
  in_order lts -> in_order ts -> monotone_on lts (embedding cfg d) ->
  length ts = length (dv_rows v) -> Forall (fun r => length r = width) (dv_rows v) -> (index_fill cfg < 0)%Z ->
  nth_error lts t = Some T0 -> nth_error lts (S t) = Some T -> ffills cfg d = false -> buffer_maxlen cfg d = None ->
  reads views (S t) i (SOne (last (map snd (between (embedding cfg d T0) (embedding cfg d T) (timed ts (dv_rows v))))
                                  (repeat (dv_default v) width))).
Proof. intros. eapply (@reads_no_ffill) with (local := local) (lts := lts) (d := d) (ts := ts); eauto. Qed.
Print Assumptions C89_new_row.

(** C89: a buffered, forward-filled variable with no other dimension: the window of the latest rows, the very first one counted twice (see C43). *)
Theorem C89_window :
  forall (A C : Type) (datetimes : C -> option (list Z)) cfg (vars : list (dvar A)) coords views local lts i v d ts width t T n,
  NoDup (map c_name coords) -> prepare datetimes cfg vars coords = Some views ->
  time_axis datetimes coords local lts -> local_time cfg = local ->
  nth_error vars i = Some v -> time_axis datetimes coords d ts -> d <> local -> dv_dims v = [d] ->
  in_order lts -> in_order ts -> monotone_on lts (embedding cfg d) ->
  length ts = length (dv_rows v) -> Forall (fun r => length r = width) (dv_rows v) -> (index_fill cfg < 0)%Z ->
  nth_error lts t = Some T -> ffills cfg d = true -> buffer_maxlen cfg d = Some n ->
  exists first, hd_error (timed ts (dv_rows v)) = Some first /\
  reads views t i (SMany (map snd (padded_window n (None, repeat (dv_default v) width)
    (strictly_before (embedding cfg d T) (first :: timed ts (dv_rows v)))))).
Proof. intros. eapply (@reads_window) with (local := local) (lts := lts) (d := d) (ts := ts); eauto. Qed.
Print Assumptions C89_window.

(** C89: no exception on datasets of readable variables. *)
Theorem C89_no_exception :
  forall (A C : Type) (datetimes : C -> option (list Z)) cfg (vars : list (dvar A)) coords local lts,
  NoDup (map c_name coords) -> time_axis datetimes coords local lts ->
  (local_time cfg = local /\ local <> ""%string) \/
  (local_time cfg = ""%string /\ forall d ts, time_axis datetimes coords d ts -> d = local) ->
  (forall d ts, time_axis datetimes coords d ts -> ts <> [] /\ (d <> local -> buffer_maxlen cfg d <> Some 0)) ->
  Forall (readable datetimes cfg local coords) vars ->
  exists views, prepare datetimes cfg vars coords = Some views.
Proof. exact @prepare_defined. Qed.
Print Assumptions C89_no_exception.

Module DemoB.
  Local Open Scope string_scope.
  Definition coords : list (coord (option (list Z))) :=
    [Coord "day" ["day"] [3] (Some [10; 20; 30]%Z); Coord "release" ["release"] [2] (Some [12; 20]%Z)].
  Definition cfg : stream_cfg := StreamCfg "day" (fun _ => false) (fun _ => true) (fun _ => None) index_default.
  Definition price := DVar "price" ["day"; "asset"] 6 2 [[1; 2]; [3; 4]; [5; 6]] 0.
  Definition earnings := DVar "earnings" ["release"; "asset"] 4 2 [[7; 8]; [9; 10]] 0.
  Definition fee := DVar "fee" [] 1 1 [[4]] 0.
End DemoB.
Example C89_example :
  prepare DemoA.dt DemoB.cfg [DemoB.price; DemoB.earnings; DemoB.fee] DemoB.coords =
  Some [ [("price", SOne [1; 2]); ("earnings", SOne [0; 0]); ("fee", SOne [4])];
         [("price", SOne [3; 4]); ("earnings", SOne [7; 8]); ("fee", SOne [4])];
         [("price", SOne [5; 6]); ("earnings", SOne [9; 10]); ("fee", SOne [4])] ]%string /\
  time_axis DemoA.dt DemoB.coords "day" [10; 20; 30]%Z /\ time_axis DemoA.dt DemoB.coords "release" [12; 20]%Z /\
  NoDup (map c_name DemoB.coords) /\ in_order [10; 20; 30]%Z /\ monotone_on [10; 20; 30]%Z (embedding DemoB.cfg "release") /\
  Forall (readable DemoA.dt DemoB.cfg "day" DemoB.coords) [DemoB.price; DemoB.earnings; DemoB.fee].
Proof.
  assert (T1 : time_axis DemoA.dt DemoB.coords "day" [10; 20; 30]%Z).
  { eexists. split; [left; reflexivity|]. split; reflexivity. }
  assert (T2 : time_axis DemoA.dt DemoB.coords "release" [12; 20]%Z).
  { eexists. split; [right; left; reflexivity|]. split; reflexivity. }
  split; [reflexivity|]. split; [exact T1|]. split; [exact T2|]. split; [|split; [|split]].
  - repeat constructor; cbn; [intros [E|[]]; discriminate|tauto].
  - intros i j a b Hij Ha Hb. destruct i as [|[|[|i]]]; cbn in Ha; try (destruct i; discriminate Ha);
      destruct j as [|[|[|j]]]; cbn in Hb; try (destruct j; discriminate Hb); try lia;
      injection Ha as <-; injection Hb as <-; lia.
  - intros a b _ _ H. exact H.
  - constructor; [|constructor; [|constructor; [|constructor]]].
    + left. do 3 eexists. split; [reflexivity|]. split; [exact T1|]. left. reflexivity.
    + left. do 3 eexists. split; [reflexivity|]. split; [exact T2|]. right. left. reflexivity.
    + right. split; [intros d ts []|cbn; lia].
Qed.

(** C90: no look-ahead.  Two datasets which agree on the first n local rows and, along every other time axis, on what is before these n local times, give the same first n outputs, for every module. *)
Theorem C90_no_look_ahead :
  forall (K P S A C Y : Type) (split : K -> K * K) (datetimes : C -> option (list Z)) cfg known local n
    (vars vars' : list (dvar A)) coords coords' lts lts' (module : transformed K P S (list (string * seen A)) Y)
    rng params state ys ys' sF sF',
  NoDup (map c_name coords) ->
  time_axis datetimes coords local lts -> time_axis datetimes coords' local lts' ->
  local_time cfg = local \/ (forall d ts, time_axis datetimes coords d ts -> d = local) ->
  known local = n -> n <= length lts -> n <= length lts' ->
  same_known_times datetimes known coords coords' -> Forall2 (same_known_rows datetimes known coords) vars vars' ->
  unknown_is_later datetimes cfg known local (firstn n lts) coords ->
  unknown_is_later datetimes cfg known local (firstn n lts) coords' ->
  Forall (rows_match_times datetimes coords) vars -> Forall (rows_match_times datetimes coords') vars' ->
  (index_fill cfg < 0)%Z -> Forall (readable datetimes cfg local coords) vars ->
  stream_apply split datetimes cfg vars coords module false rng params state = Some (ys, sF) ->
  stream_apply split datetimes cfg vars' coords' module false rng params state = Some (ys', sF') ->
  firstn n ys = firstn n ys'.
Proof. exact @outputs_same. Qed.
Print Assumptions C90_no_look_ahead.

Module DemoC.
  Local Open Scope string_scope.
  (** one more day, and another second release *)
  Definition coords : list (coord (option (list Z))) :=
    [Coord "day" ["day"] [4] (Some [10; 20; 31; 40]%Z); Coord "release" ["release"] [3] (Some [12; 21; 25]%Z)].
  Definition price := DVar "price" ["day"; "asset"] 8 2 [[1; 2]; [3; 4]; [50; 60]; [7; 7]] 0.
  Definition earnings := DVar "earnings" ["release"; "asset"] 6 2 [[7; 8]; [90; 100]; [1; 1]] 0.
  Definition known (d : string) : nat := if String.eqb d "day" then 2 else 1.
End DemoC.
Example C90_example :
  same_known_times DemoA.dt DemoC.known DemoB.coords DemoC.coords /\
  Forall2 (same_known_rows DemoA.dt DemoC.known DemoB.coords) [DemoB.price; DemoB.earnings; DemoB.fee] [DemoC.price; DemoC.earnings; DemoB.fee] /\
  unknown_is_later DemoA.dt DemoB.cfg DemoC.known "day" [10; 20]%Z DemoB.coords /\
  unknown_is_later DemoA.dt DemoB.cfg DemoC.known "day" [10; 20]%Z DemoC.coords /\
  Forall (rows_match_times DemoA.dt DemoB.coords) [DemoB.price; DemoB.earnings; DemoB.fee] /\
  Forall (rows_match_times DemoA.dt DemoC.coords) [DemoC.price; DemoC.earnings; DemoB.fee].
Proof.
  assert (Hax : forall d ts, time_axis DemoA.dt DemoB.coords d ts -> (d = "day"%string /\ ts = [10; 20; 30]%Z) \/ (d = "release"%string /\ ts = [12; 20]%Z)).
  { intros d ts (c & [<-|[<-|[]]] & <- & H); cbn in H; injection H as <-; auto. }
  assert (Hax' : forall d ts, time_axis DemoA.dt DemoC.coords d ts -> (d = "day"%string /\ ts = [10; 20; 31; 40]%Z) \/ (d = "release"%string /\ ts = [12; 21; 25]%Z)).
  { intros d ts (c & [<-|[<-|[]]] & <- & H); cbn in H; injection H as <-; auto. }
  split; [|split; [|split; [|split; [|split]]]].
  - constructor; [|constructor; [|constructor]]; split; reflexivity.
  - assert (T1 : time_axis DemoA.dt DemoB.coords "day" [10; 20; 30]%Z).
    { eexists. split; [left; reflexivity|]. split; reflexivity. }
    assert (T2 : time_axis DemoA.dt DemoB.coords "release" [12; 20]%Z).
    { eexists. split; [right; left; reflexivity|]. split; reflexivity. }
    constructor; [|constructor; [|constructor; [|constructor]]].
    + split; [reflexivity|]. split; [reflexivity|]. split; [reflexivity|]. split; [exists 2; repeat constructor|]. split.
      * intros d ts E _. cbn in E. injection E as <-. reflexivity.
      * intros Hno. exfalso. eapply Hno; [|exact T1]. left. reflexivity.
    + split; [reflexivity|]. split; [reflexivity|]. split; [reflexivity|]. split; [exists 2; repeat constructor|]. split.
      * intros d ts E _. cbn in E. injection E as <-. reflexivity.
      * intros Hno. exfalso. eapply Hno; [|exact T2]. left. reflexivity.
    + split; [reflexivity|]. split; [reflexivity|]. split; [reflexivity|]. split; [exists 1; repeat constructor|].
      split; [intros d ts E; discriminate E|]. intros _. repeat split.
  - intros d ts T t H Hd HT Ht. destruct (Hax _ _ H) as [[-> ->]|[-> ->]]; [tauto|].
    destruct Ht as [<-|[]]. destruct HT as [<-|[<-|[]]]; cbn; lia.
  - intros d ts T t H Hd HT Ht. destruct (Hax' _ _ H) as [[-> ->]|[-> ->]]; [tauto|].
    destruct Ht as [<-|[<-|[]]]; destruct HT as [<-|[<-|[]]]; cbn; lia.
  - constructor; [|constructor; [|constructor; [|constructor]]]; intros d ts E H; cbn in E; try discriminate E;
      injection E as <-; destruct (Hax _ _ H) as [[E' ->]|[E' ->]]; try discriminate E'; reflexivity.
  - constructor; [|constructor; [|constructor; [|constructor]]]; intros d ts E H; cbn in E; try discriminate E;
      injection E as <-; destruct (Hax' _ _ H) as [[E' ->]|[E' ->]]; try discriminate E'; reflexivity.
Qed.

(** C91: variables with several dimensions and several indices: exceptions, unless a size happens to be equal. *)
Theorem C91_constant_matrix_refuted :
  forall (A C : Type) (datetimes : C -> option (list Z)) cfg (vars : list (dvar A)) coords local lts v,
  NoDup (map c_name coords) -> time_axis datetimes coords local lts -> lts <> [] ->
  local_time cfg = local \/ (forall d ts, time_axis datetimes coords d ts -> d = local) ->
  In v vars -> (forall d ts, In d (dv_dims v) -> ~ time_axis datetimes coords d ts) ->
  2 <= length (dv_dims v) -> dv_size v <> dv_last v -> dv_size v <> 1 -> dv_last v <> 1 ->
  prepare datetimes cfg vars coords = None.
Proof. exact @constant_matrix_fails. Qed.
Print Assumptions C91_constant_matrix_refuted.

Theorem C91_buffered_matrix_refuted :
  forall (A C : Type) (datetimes : C -> option (list Z)) cfg (vars : list (dvar A)) coords local lts v d e rest ts k,
  NoDup (map c_name coords) -> time_axis datetimes coords local lts -> lts <> [] -> local_time cfg = local ->
  In v vars -> dv_dims v = d :: e :: rest -> time_axis datetimes coords d ts -> d <> local ->
  buffer_maxlen cfg d = Some k -> k <> dv_last v -> k <> 1 -> dv_last v <> 1 ->
  prepare datetimes cfg vars coords = None.
Proof. exact @buffered_matrix_fails. Qed.
Print Assumptions C91_buffered_matrix_refuted.

(** C91: a window as long as the rows is wide, not yet full (q rows known, the first one counted twice): the
    mask of the missing rows is applied to the columns.  The missing rows show values of the first row, and
    the rows which are there lose their first values. *)
Theorem C91_square_window_refuted :
  forall (A C : Type) (datetimes : C -> option (list Z)) cfg (vars : list (dvar A)) coords views local lts i v d e ts k t T first q,
  NoDup (map c_name coords) -> prepare datetimes cfg vars coords = Some views ->
  time_axis datetimes coords local lts -> local_time cfg = local ->
  nth_error vars i = Some v -> time_axis datetimes coords d ts -> d <> local -> dv_dims v = [d; e] ->
  in_order lts -> in_order ts -> monotone_on lts (embedding cfg d) ->
  length ts = length (dv_rows v) -> Forall (fun r => length r = k) (dv_rows v) -> dv_last v = k ->
  buffer_maxlen cfg d = Some k -> ffills cfg d = true ->
  nth_error lts t = Some T -> hd_error (timed ts (dv_rows v)) = Some first ->
  q = length (strictly_before (embedding cfg d T) (first :: timed ts (dv_rows v))) -> q <= k ->
  (index_fill cfg < 0)%Z -> (index_fill cfg + Z.of_nat (length (dv_rows v)) <= 0)%Z ->
  exists rows, reads views t i (SMany rows) /\ length rows = k /\
    (forall m j row, nth_error rows m = Some row -> m < k - q -> k - q <= j < k ->
       nth_error row j = nth_error (snd first) j) /\
    (forall m j row, nth_error rows m = Some row -> k - q <= m -> j < k - q -> nth_error row j = Some (dv_default v)).
Proof. intros. eapply (@reads_square) with (local := local) (lts := lts) (d := d) (ts := ts); eauto. Qed.
Print Assumptions C91_square_window_refuted.

Module DemoD.
  Local Open Scope string_scope.
  Definition cfg k : stream_cfg := StreamCfg "day" (fun _ => false) (fun _ => true) (fun d => if String.eqb d "release" then Some k else None) index_default.
  Definition earnings := DVar "earnings" ["release"; "item"] 6 3 [[7; 8; 9]; [10; 11; 12]] 0.
  Definition weights := DVar "weights" ["item"; "other"] 6 2 [[1; 2]; [3; 4]; [5; 6]] 0.
End DemoD.
Example C91_example :
  prepare DemoA.dt (DemoD.cfg 3) [DemoD.earnings] DemoB.coords =
  Some [ [("earnings", SMany [[0; 0; 0]; [0; 0; 0]; [0; 0; 0]])];
         [("earnings", SMany [[0; 8; 9]; [0; 8; 9]; [0; 8; 9]])];
         [("earnings", SMany [[7; 8; 9]; [7; 8; 9]; [10; 11; 12]])] ]%string /\
  prepare DemoA.dt (DemoD.cfg 2) [DemoD.earnings] DemoB.coords = None /\
  prepare DemoA.dt DemoB.cfg [DemoB.price; DemoD.weights] DemoB.coords = None.
Proof. split; [|split]; reflexivity. Qed.

(** C97: the Dataset accessor: one output per local time (one less with skip_first) ... *)
Theorem C97_one_output_per_local_time :
  forall (K P S A B C : Type) (split : K -> K * K) (datetimes : C -> option (list Z)) cfg (vars : list (dvar A)) coords
    (module : transformed K P S (list (string * seen A)) (list B)) local lts rng params state skip_first ys sF,
  NoDup (map c_name coords) -> time_axis datetimes coords local lts ->
  local_time cfg = local \/ (forall d ts, time_axis datetimes coords d ts -> d = local) ->
  stream_apply split datetimes cfg vars coords module skip_first rng params state = Some (ys, sF) ->
  length ys = length lts - (if skip_first then 1 else 0).
Proof. exact @dataset_outputs_length. Qed.
Print Assumptions C97_one_output_per_local_time.

(** ... labelled with the format_dims given and the coordinates of the dataset, when the shapes agree, ... *)
Theorem C97_dataset_labels :
  forall (K P S A B C : Type) (split : K -> K * K) (datetimes : C -> option (list Z)) cfg (vars : list (dvar A)) coords
    (module : transformed K P S (list (string * seen A)) (list B)) local lts rest size shape rng params state outputs sF,
  NoDup (map c_name coords) -> time_axis datetimes coords local lts ->
  local_time cfg = local \/ (forall d ts, time_axis datetimes coords d ts -> d = local) ->
  coords_of_dims size (local :: rest) coords -> size local = length lts -> map size rest = shape ->
  stream_apply split datetimes cfg vars coords module false rng params state = Some (map (fun b => [b]) outputs, sF) ->
  dataset_apply split datetimes cfg vars coords module (Leaf shape) false rng params state (local :: rest) =
  Some (Leaf (labelled_by coords (local :: rest) (NdArray (length lts :: shape) outputs)), sF).
Proof. exact @dataset_same_shape. Qed.
Print Assumptions C97_dataset_labels.

(** ... nested outputs: all of them with format_dims, else all of them with the first of format_dims, else an exception. *)
Theorem C97_dataset_trees :
  forall (K P S A B C : Type) (split : K -> K * K) (datetimes : C -> option (list Z)) cfg (vars : list (dvar A)) coords
    (module : transformed K P S (list (string * seen A)) (list B)) shapes rng params state skip_first ys sF result sF' dims,
  ~ same_structure shapes (names_tree dims) -> ~ same_structure shapes (names_tree (firstn 1 dims)) ->
  stream_apply split datetimes cfg vars coords module skip_first rng params state = Some (ys, sF) ->
  Forall (fun y => length y = length (tree_leaves shapes)) ys ->
  dataset_apply split datetimes cfg vars coords module shapes skip_first rng params state dims = Some (result, sF') <->
  sF' = sF /\ exists outputs, stacked shapes ys outputs /\
   (((forall x, In x (tree_leaves outputs) -> fits coords dims x) /\
     result = tree_map (labelled_by coords dims) outputs) \/
    (~ (forall x, In x (tree_leaves outputs) -> fits coords dims x) /\ exists first others, dims = first :: others /\
     (forall x, In x (tree_leaves outputs) -> fits coords [first] x) /\
     result = tree_map (labelled_by coords [first]) outputs)).
Proof. exact @dataset_trees. Qed.
Print Assumptions C97_dataset_trees.

(** C97 fails without format_dims: with its default value () formatting raises, for every dataset and every module with outputs. *)
Theorem C97_default_format_dims_refuted :
  forall (K P S A B C : Type) (split : K -> K * K) (datetimes : C -> option (list Z)) cfg (vars : list (dvar A)) coords
    (module : transformed K P S (list (string * seen A)) (list B)) shapes rng params state skip_first ys sF,
  stream_apply split datetimes cfg vars coords module skip_first rng params state = Some (ys, sF) ->
  Forall (fun y => length y = length (tree_leaves shapes)) ys -> tree_leaves shapes <> [] ->
  dataset_apply split datetimes cfg vars coords module shapes skip_first rng params state [] = None.
Proof. exact @dataset_default_fails. Qed.
Print Assumptions C97_default_format_dims_refuted.

Module DemoE.
  (** adds the first two variables *)
  Definition add : transformed unit unit unit (list (string * seen nat)) (list (list nat)) :=
    @Transformed unit unit unit (list (string * seen nat)) (list (list nat)) (fun _ _ => (tt, tt))
      (fun _ _ _ view => match view with
                         | (_, SOne a) :: (_, SOne b) :: _ => ([map (fun p => fst p + snd p) (combine a b)], tt)
                         | _ => ([[]], tt)
                         end).
  Definition coords : list (coord (option (list Z))) := DemoB.coords ++ [Coord "asset" ["asset"] [2] None]%string.
End DemoE.
Example C97_example :
  dataset_apply (fun k : unit => (k, k)) DemoA.dt DemoB.cfg [DemoB.price; DemoB.earnings; DemoB.fee] DemoE.coords DemoE.add
    (Leaf [2]) false None None None ["day"; "asset"]%string =
  Some (Leaf (labelled_by DemoE.coords ["day"; "asset"]%string (NdArray [3; 2] [[1; 2]; [10; 12]; [14; 16]])), tt) /\
  dataset_apply (fun k : unit => (k, k)) DemoA.dt DemoB.cfg [DemoB.price; DemoB.earnings; DemoB.fee] DemoE.coords DemoE.add
    (Leaf [2]) false None None None [] = None.
Proof. split; reflexivity. Qed.
