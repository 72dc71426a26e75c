(** Texts and dates in the datasets given to modules (stream.py get_dataset_schema and prepare). *)
From Coq Require Import String ZArith List Bool Arith Reals Lia.
From Verif Require Import Model.Float Model.Encode Model.Unroll Model.Stream Model.Format Model.Accessors Model.Schema
  Spec.StreamSpec Spec.AccessorSpec Spec.SchemaSpec Proofs.SchemaProofs Proofs.SchemaProofs2 Proofs.SchemaProofs3 Proofs.SchemaProofs4.
Import ListNotations.
Local Open Scope list_scope.

(** C121: the schema raises exactly when a variable or a coordinate is a text without dimension; otherwise it has an
    encoder for each array of texts or dates, and for nothing else. *)
Theorem C121_schema_raises : forall vars coords,
  get_dataset_schema false vars coords = None <-> exists v, In v (vars ++ coords) /\ is_text v /\ np_shape v = [].
Proof. exact @schema_none. Qed.
Print Assumptions C121_schema_raises.
Theorem C121_schema_names : forall check vars coords encs,
  get_dataset_schema check vars coords = Some encs -> map fst encs = map np_name (filter encodable (vars ++ coords)).
Proof. exact @schema_names. Qed.
Print Assumptions C121_schema_names.
(** With check=True: exactly when the texts have a dimension, and the dates exactly one, an entry, and no NaT. *)
Theorem C121_schema_check : forall vars coords, Forall well_formed (vars ++ coords) ->
  ((exists encs, get_dataset_schema true vars coords = Some encs) <->
   forall v, In v (vars ++ coords) ->
     (is_text v -> np_shape v <> []) /\
     (forall l, np_values v = Dates l -> List.length (np_shape v) = 1 /\ l <> [] /\ ~ In nat_value l)).
Proof. exact @schema_check. Qed.
Print Assumptions C121_schema_check.

(** C121: along the local time, a module reads at each step the code of the text, the two words of the date, or
    the row of numbers of this step. *)
Theorem C121_text : forall cfg vars coords views local lts i v l t s,
  NoDup (map np_name (vars ++ coords)) -> prepare_raw cfg vars coords = Some views ->
  axis coords local lts -> is_local cfg coords local -> nth_error vars i = Some v ->
  np_values v = Texts l -> np_dims v = [local] -> t < List.length lts -> nth_error l t = Some s ->
  reads views t i (SOne [Int (text_code l s)]).
Proof. intros. eapply (reads_text cfg vars coords views local lts); eauto. rewrite H5. reflexivity. Qed.
Print Assumptions C121_text.
Theorem C121_date : forall cfg vars coords views local lts i v l t ns,
  NoDup (map np_name (vars ++ coords)) -> prepare_raw cfg vars coords = Some views ->
  axis coords local lts -> is_local cfg coords local -> nth_error vars i = Some v -> well_formed v ->
  np_values v = Dates l -> np_dims v = [local] -> t < List.length lts -> nth_error l t = Some ns ->
  reads views t i (SOne (date_words ns)).
Proof. intros. eapply (reads_date cfg vars coords views local lts); eauto. rewrite H6. reflexivity. Qed.
Print Assumptions C121_date.
Theorem C121_number : forall cfg vars coords views local lts i v l n rest t,
  NoDup (map np_name (vars ++ coords)) -> prepare_raw cfg vars coords = Some views ->
  axis coords local lts -> is_local cfg coords local -> nth_error vars i = Some v ->
  np_values v = Numbers l -> np_shape v = n :: rest -> hd_error (np_dims v) = Some local -> t < List.length lts -> t < n ->
  reads views t i (SOne (map Num (firstn (lsize rest) (skipn (t * lsize rest) l)))).
Proof. intros. eapply (reads_number cfg vars coords views local lts); eauto. Qed.
Print Assumptions C121_number.

(** C121: nothing is lost: different texts have different codes, in the order of the texts, from 0 to the number
    of distinct texts; different dates have different words. *)
Theorem C121_codes : forall l a b, In a l -> In b l ->
  (0 <= text_code l a < Z.of_nat (List.length (nodup string_dec l)))%Z /\
  ((text_code l a < text_code l b)%Z <-> String.ltb a b = true) /\
  (text_code l a = text_code l b -> a = b).
Proof.
  intros l a b Ha Hb. split; [apply text_code_range; auto|]. split; [apply text_code_lt; auto|apply text_code_inj; auto].
Qed.
Print Assumptions C121_codes.
Theorem C121_words : forall a b, (- 2 ^ 63 <= a < 2 ^ 63)%Z -> (- 2 ^ 63 <= b < 2 ^ 63)%Z ->
  date_words a = date_words b -> a = b.
Proof. exact @date_words_inj. Qed.
Print Assumptions C121_words.

(** C121: along another time axis, forward-filled: the last text or date strictly before the local time; when there
    is none, the code -99999 or the words (0, 0). *)
Theorem C121_text_ffill : forall cfg vars coords views local lts i v d ts l t T,
  NoDup (map np_name (vars ++ coords)) -> prepare_raw cfg vars coords = Some views ->
  axis coords local lts -> local_time cfg = local -> nth_error vars i = Some v -> axis coords d ts -> d <> local ->
  np_dims v = [d] -> in_order lts -> in_order ts -> monotone_on lts (embedding cfg d) -> (index_fill cfg < 0)%Z ->
  buffer_maxlen cfg d = None -> np_values v = Texts l -> List.length ts = List.length l ->
  ffills cfg d = true -> nth_error lts t = Some T ->
  reads views t i (SOne [last (map (fun s => Int (text_code l s))
    (map snd (strictly_before (embedding cfg d T) (combine ts l)))) (Int (-99999))]).
Proof. intros. eapply (reads_text_ffill cfg vars coords views local lts); eauto. Qed.
Print Assumptions C121_text_ffill.
Theorem C121_date_ffill : forall cfg vars coords views local lts i v d ts l t T,
  NoDup (map np_name (vars ++ coords)) -> prepare_raw cfg vars coords = Some views ->
  axis coords local lts -> local_time cfg = local -> nth_error vars i = Some v -> axis coords d ts -> d <> local ->
  np_dims v = [d] -> in_order lts -> in_order ts -> monotone_on lts (embedding cfg d) -> (index_fill cfg < 0)%Z ->
  buffer_maxlen cfg d = None -> well_formed v -> np_values v = Dates l -> List.length ts = List.length l ->
  ffills cfg d = true -> nth_error lts t = Some T ->
  reads views t i (SOne (last (map date_words
    (map snd (strictly_before (embedding cfg d T) (combine ts l)))) [Word 0; Word 0])).
Proof. intros. eapply (reads_date_ffill cfg vars coords views local lts); eauto. Qed.
Print Assumptions C121_date_ffill.
(** Without forward fill: the last one since the previous step. *)
Theorem C121_text_no_ffill : forall cfg vars coords views local lts i v d ts l t T0 T,
  NoDup (map np_name (vars ++ coords)) -> prepare_raw cfg vars coords = Some views ->
  axis coords local lts -> local_time cfg = local -> nth_error vars i = Some v -> axis coords d ts -> d <> local ->
  np_dims v = [d] -> in_order lts -> in_order ts -> monotone_on lts (embedding cfg d) -> (index_fill cfg < 0)%Z ->
  buffer_maxlen cfg d = None -> np_values v = Texts l -> List.length ts = List.length l ->
  ffills cfg d = false -> nth_error lts t = Some T0 -> nth_error lts (S t) = Some T ->
  reads views (S t) i (SOne [last (map (fun s => Int (text_code l s))
    (map snd (between (embedding cfg d T0) (embedding cfg d T) (combine ts l)))) (Int (-99999))]).
Proof. intros. eapply (reads_text_no_ffill cfg vars coords views local lts); eauto. Qed.
Print Assumptions C121_text_no_ffill.
Theorem C121_date_no_ffill : forall cfg vars coords views local lts i v d ts l t T0 T,
  NoDup (map np_name (vars ++ coords)) -> prepare_raw cfg vars coords = Some views ->
  axis coords local lts -> local_time cfg = local -> nth_error vars i = Some v -> axis coords d ts -> d <> local ->
  np_dims v = [d] -> in_order lts -> in_order ts -> monotone_on lts (embedding cfg d) -> (index_fill cfg < 0)%Z ->
  buffer_maxlen cfg d = None -> well_formed v -> np_values v = Dates l -> List.length ts = List.length l ->
  ffills cfg d = false -> nth_error lts t = Some T0 -> nth_error lts (S t) = Some T ->
  reads views (S t) i (SOne (last (map date_words
    (map snd (between (embedding cfg d T0) (embedding cfg d T) (combine ts l)))) [Word 0; Word 0])).
Proof. intros. eapply (reads_date_no_ffill cfg vars coords views local lts); eauto. Qed.
Print Assumptions C121_date_no_ffill.

(** C121: no date is not told from 1970-01-01, whereas no text is told from every text. *)
Theorem C121_missing_date_refuted : date_words 0 = [Word 0; Word 0] /\ forall l s, In s l -> text_code l s <> (-99999)%Z.
Proof. split; [reflexivity|]. intros l s H. pose proof (text_code_range l s H). lia. Qed.
Print Assumptions C121_missing_date_refuted.

(** C121: a matrix of texts is read as its list of entries, row after row: at step t, one code, of the entry number t
    of this list, and not the row of the step. *)
Theorem C121_text_matrix_refuted : forall cfg vars coords views local lts i v l e rest t s,
  NoDup (map np_name (vars ++ coords)) -> prepare_raw cfg vars coords = Some views ->
  axis coords local lts -> is_local cfg coords local -> nth_error vars i = Some v ->
  np_values v = Texts l -> np_dims v = local :: e :: rest -> t < List.length lts -> nth_error l t = Some s ->
  reads views t i (SOne [Int (text_code l s)]).
Proof. intros. eapply (reads_text cfg vars coords views local lts); eauto. rewrite H5. reflexivity. Qed.
Print Assumptions C121_text_matrix_refuted.

(** C121: numbers without dimension are read unchanged at each step; vectors of texts without time are not: the j-th
    code read at step t is that of the text number min(t*j, m-1). *)
Theorem C121_constant : forall cfg vars coords views i v x t,
  NoDup (map np_name (vars ++ coords)) -> prepare_raw cfg vars coords = Some views -> nth_error vars i = Some v ->
  np_values v = Numbers [x] -> np_dims v = [] -> np_shape v = [] -> t < List.length views -> reads views t i (SOne [Num x]).
Proof. exact @reads_number_constant. Qed.
Print Assumptions C121_constant.
Theorem C121_constant_texts_refuted : forall cfg vars coords views i v l t,
  NoDup (map np_name (vars ++ coords)) -> prepare_raw cfg vars coords = Some views -> nth_error vars i = Some v ->
  well_formed v -> np_values v = Texts l -> timeless coords v -> t < List.length views ->
  exists ys, reads views t i (SMany (map (fun z => [Int z]) ys)) /\ List.length ys = List.length l /\
    forall j, j < List.length l -> nth_error ys j = nth_error (map (text_code l) l) (Nat.min (t * j) (List.length l - 1)).
Proof. exact @reads_text_constant. Qed.
Print Assumptions C121_constant_texts_refuted.

(** C121: the datasets which raise: a text without dimension, dates of another dimension than 1 (a coordinate left by
    isel for instance), dates without entry, objects; and dates along a buffered time axis, unless the buffer
    has one or two entries. *)
Theorem C121_raises : forall cfg vars coords, NoDup (map np_name (vars ++ coords)) ->
  (exists v, In v (vars ++ coords) /\ is_text v /\ np_shape v = []) \/
  (exists v, In v (vars ++ coords) /\ is_date v /\ List.length (np_shape v) <> 1) \/
  (exists v, In v vars /\ (np_values v = Objects \/ np_values v = Dates [])) ->
  prepare_raw cfg vars coords = None.
Proof. exact @raw_none. Qed.
Print Assumptions C121_raises.
Theorem C121_buffered_dates_refuted : forall cfg vars coords local lts v d ts l k,
  NoDup (map np_name (vars ++ coords)) -> axis coords local lts -> lts <> [] -> local_time cfg = local ->
  In v vars -> np_values v = Dates l -> well_formed v -> hd_error (np_dims v) = Some d -> axis coords d ts -> d <> local ->
  buffer_maxlen cfg d = Some k -> k <> 1 -> k <> 2 -> prepare_raw cfg vars coords = None.
Proof. exact @buffered_dates_fail. Qed.
Print Assumptions C121_buffered_dates_refuted.
(** C121: the datasets which do not raise. *)
Theorem C121_no_exception : forall cfg vars coords local lts,
  NoDup (map np_name (vars ++ coords)) -> Forall well_formed vars -> axis coords local lts -> is_local cfg coords local ->
  (forall d ts, axis coords d ts -> ts <> [] /\ (d <> local -> buffer_maxlen cfg d <> Some 0)) ->
  (forall c, In c coords -> is_date c -> List.length (np_shape c) = 1) ->
  (forall c, In c coords -> is_text c -> np_shape c <> []) ->
  Forall (can_read cfg local coords) vars ->
  exists views, prepare_raw cfg vars coords = Some views.
Proof. exact @raw_total. Qed.
Print Assumptions C121_no_exception.

Module DemoSchema.
  Local Open Scope string_scope.
  Local Open Scope list_scope.
  Definition time := NpVar "time" ["time"] [3] (Dates [10; 20; 30]%Z).
  Definition day := NpVar "day" ["day"] [2] (Dates [5; 20]%Z).
  Definition asset := NpVar "asset" ["asset"] [2] (Texts ["X"; "Y"]).
  Definition sym := NpVar "sym" ["time"] [3] (Texts ["b"; "a"; "b"]).
  Definition due := NpVar "due" ["time"] [3] (Dates [-1; 4294967296; 7]%Z).
  Definition state := NpVar "state" ["day"] [2] (Texts ["open"; "closed"]).
  Definition since := NpVar "since" ["day"] [2] (Dates [3; 4]%Z).
  Definition grid := NpVar "grid" ["time"; "asset"] [3; 2] (Texts ["p"; "q"; "r"; "s"; "t"; "u"]).
  Definition cfg := StreamCfg "time" (fun _ => false) (fun _ => true) (fun _ => None) (-1)%Z.
  Definition vars := [sym; due; state; since; grid].
  Definition coords := [time; day; asset].
  Example C121_example :
    prepare_raw cfg vars coords =
      Some [ [("sym", SOne [Int 1]); ("due", SOne [Word 4294967295; Word 4294967295]);
              ("state", SOne [Int 1]); ("since", SOne [Word 0; Word 3]); ("grid", SOne [Int 0])];
             [("sym", SOne [Int 0]); ("due", SOne [Word 1; Word 0]);
              ("state", SOne [Int 1]); ("since", SOne [Word 0; Word 3]); ("grid", SOne [Int 1])];
             [("sym", SOne [Int 1]); ("due", SOne [Word 0; Word 7]);
              ("state", SOne [Int 0]); ("since", SOne [Word 0; Word 4]); ("grid", SOne [Int 2])] ]%Z /\
    NoDup (map np_name (vars ++ coords)) /\ axis coords "time" [10; 20; 30]%Z /\ is_local cfg coords "time" /\
    Forall well_formed (vars ++ coords) /\ Forall (can_read cfg "time" coords) vars.
  Proof.
    assert (Ht : axis coords "time" [10; 20; 30]%Z) by (exists time; cbn; auto).
    assert (Hd : axis coords "day" [5; 20]%Z) by (exists day; cbn; auto).
    split; [vm_compute; reflexivity|]. split.
    - repeat (constructor; [cbn; intuition discriminate|]). constructor.
    - split; [auto|]. split; [left; split; [reflexivity|discriminate]|]. split.
      + unfold well_formed. repeat apply Forall_cons; try apply Forall_nil; cbn; (split; [|reflexivity]); try reflexivity;
          (split; [reflexivity|]); repeat (apply Forall_cons; [lia|]); apply Forall_nil.
      + unfold vars. repeat apply Forall_cons; try apply Forall_nil; cbn; (split; [discriminate|]); try (left; eexists; split; [reflexivity|eauto]);
          (split; [reflexivity|]); eexists; (split; [split; [reflexivity|eauto]|]); auto.
  Qed.
  (** before the first day, nothing is known; with check=True, NaT is refused; a date left by isel raises *)
  Example C121_missing_example :
    prepare_raw cfg [state; since] [NpVar "time" ["time"] [2] (Dates [5; 6]%Z); day] =
      Some [ [("state", SOne [Int (-99999)]); ("since", SOne [Word 0; Word 0])];
             [("state", SOne [Int 1]); ("since", SOne [Word 0; Word 3])] ]%Z /\
    get_dataset_schema true [NpVar "due" ["time"] [1] (Dates [nat_value])] [] = None /\
    (exists e, get_dataset_schema true [due] [time; asset] = Some e) /\
    prepare_raw cfg [sym] [time; NpVar "day" [] [] (Dates [5]%Z)] = None.
  Proof.
    split; [vm_compute; reflexivity|]. split; [vm_compute; reflexivity|]. split; [|vm_compute; reflexivity].
    destruct (get_dataset_schema true [due] [time; asset]) as [e|] eqn:E; [eauto|exfalso].
    assert (H : match get_dataset_schema true [due] [time; asset] with None => false | _ => true end = true) by (vm_compute; reflexivity).
    rewrite E in H. discriminate.
  Qed.
  Example C121_buffered_example :
    prepare_raw (StreamCfg "time" (fun _ => false) (fun _ => true) (fun _ => Some 3) (-1)%Z) [since] coords = None /\
    text_code ["b"; "a"; "b"] "b" = 1%Z.
  Proof. split; vm_compute; reflexivity. Qed.
  Example C121_constant_example :
    prepare_raw cfg [NpVar "k" [] [] (Numbers [Fin 7]); NpVar "names" ["asset"] [3] (Texts ["n"; "p"; "o"])] [time] =
      Some (map (fun c => [("k", SOne [Num (Fin 7)]); ("names", SMany (map (fun z => [Int z]) c))]) [[0; 0; 0]; [0; 2; 1]; [0; 1; 1]]%Z).
  Proof. reflexivity. Qed.
End DemoSchema.
