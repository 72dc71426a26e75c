(** Property theorems C135-C137: the progress bar, tree_lag, the dictionaries of flax variables. *)
From Coq Require Import String List Bool Arith Lia.
From Verif Require Import Model.Tree Model.Unroll Model.Modules Model.FlaxOptim Model.Gym Model.Progress Model.TreeLag Model.Variables
  Spec.TreeSpec Spec.GymSpec Spec.MiscSpec
  Proofs.GymProofs3 Proofs.TreeLagProofs Proofs.VariablesProofs.
Import ListNotations.
Local Open Scope list_scope.

(** C135: after an unroll the bar is closed and shows the number of env.step calls made, with the total len(env) of the
    environment after its reset; a bar which was open already goes on counting; one which was closed does not move. *)
Theorem C135_counts_steps :
  forall (W O A R I : Type) (ag : @agent W O A) (env : @environment W O A R I) (cbs1 cbs2 : list (@callback W O A R I))
    (get : W -> pbar_obj) (set : pbar_obj -> W -> W) (len : W -> option nat) o fuel (w : W) s w' l,
  (forall v w, get (set v w) = v) -> untouched get ag env -> callbacks_leave get (cbs1 ++ cbs2) -> callbacks_leave len cbs1 ->
  gym_unroll ag env o (cbs1 ++ progress_bar get set len :: cbs2) fuel w = Some (s, w', l) ->
  let n := length (filter is_env_step l) in
  get w' = match p_bar (get w) with
           | None => Pbar (Some (Tqdm (len (before_start env o w)) n true)) (p_error (get w))
           | Some b => Pbar (Some (Tqdm (b_total b) (if b_closed b then b_n b else b_n b + n) true)) (p_error (get w))
           end.
Proof. exact @bar_counts. Qed.
Print Assumptions C135_counts_steps.

(** C135: the bar never asks to stop. *)
Theorem C135_never_stops :
  forall (W O A R I : Type) (ag : @agent W O A) (env : @environment W O A R I) (cbs1 cbs2 : list (@callback W O A R I))
    (get : W -> pbar_obj) (set : pbar_obj -> W -> W) (len : W -> option nat) o fuel (w : W) s w' l st b,
  (forall v w, get (set v w) = v) -> untouched get ag env -> callbacks_leave get (cbs1 ++ cbs2) -> callbacks_leave len cbs1 ->
  gym_unroll ag env o (cbs1 ++ progress_bar get set len :: cbs2) fuel w = Some (s, w', l) ->
  In (EOnStep (count_some (map on_step cbs1)) st b) l -> b = false.
Proof. exact @bar_silent. Qed.
Print Assumptions C135_never_stops.

(** C135 fails for a bar used again: after a first unroll it shows nothing of the following ones. *)
Theorem C135_second_run_refuted :
  forall (W O A R I : Type) (ag : @agent W O A) (env : @environment W O A R I) (cbs1 cbs2 : list (@callback W O A R I))
    (get : W -> pbar_obj) (set : pbar_obj -> W -> W) (len : W -> option nat) o1 o2 fuel1 fuel2 (w1 w2 : W) s1 s2 w1' w2' l1 l2,
  (forall v w, get (set v w) = v) -> untouched get ag env -> callbacks_leave get (cbs1 ++ cbs2) -> callbacks_leave len cbs1 ->
  gym_unroll ag env o1 (cbs1 ++ progress_bar get set len :: cbs2) fuel1 w1 = Some (s1, w1', l1) ->
  get w2 = get w1' ->
  gym_unroll ag env o2 (cbs1 ++ progress_bar get set len :: cbs2) fuel2 w2 = Some (s2, w2', l2) ->
  get w2' = get w1'.
Proof.
  intros W O A R I ag env cbs1 cbs2 get set len o1 o2 fuel1 fuel2 w1 w2 s1 s2 w1' w2' l1 l2 H1 H2 H3 H4 E1 E E2.
  pose proof (bar_counts _ _ _ _ _ _ _ _ _ _ _ _ _ H1 H2 H3 H4 E1) as G1.
  pose proof (bar_counts _ _ _ _ _ _ _ _ _ _ _ _ _ H1 H2 H3 H4 E2) as G2. cbv zeta in G1, G2.
  rewrite E in G2. rewrite G2, G1. destruct (p_bar (get w1)) as [b|]; reflexivity.
Qed.
Print Assumptions C135_second_run_refuted.

(** C135: over a HaikuEnv, with the bar alone, the bar ends at the number of items of the generator, its total being the
    length announced with the first item. *)
Theorem C135_haiku :
  forall (Q K P S P' S' O A R I : Type) (next_key : Q -> K * Q) (a0 : A) (rw0 : R)
    (ag : transformed K P S O A) (env : transformed K P' S' (A * O) (R * O)) (maxlen : I -> option nat)
    fuel qa (es : @env_obj Q P' S' O I) d0 i0 data s w' l,
  e_data es = (d0, i0) :: data ->
  gym_unroll (haiku_agent (X := pbar_obj) (T := @env_obj Q P' S' O I) next_key a0 ag)
    (haiku_env (I := I) (X := pbar_obj) (T := @agent_obj Q P S) next_key rw0 env) None [the_bar maxlen] fuel
    (pbar_new, (AgentObj qa None, es)) = Some (s, w', l) ->
  fst w' = Pbar (Some (Tqdm (maxlen i0) (length (e_data es)) true)) false.
Proof. exact @haiku_bar. Qed.
Print Assumptions C135_haiku.

(** C135 fails for [with ProgressBar() as bar]: unlike the other callbacks the name is bound to None. *)
Theorem C135_with_target_refuted : progress_enter <> callback_enter.
Proof. discriminate. Qed.
Print Assumptions C135_with_target_refuted.

Example C135_example :
  let next := fun q : nat => (q, S q) in
  let ag : transformed nat unit nat nat nat := Transformed (fun _ _ => (tt, 0)) (fun _ s _ o => (o + s, S s)) in
  let env : transformed nat unit unit (nat * nat) (nat * nat) :=
    Transformed (fun _ _ => (tt, tt)) (fun _ _ _ x => ((fst x, snd x), tt)) in
  match gym_unroll (haiku_agent (X := pbar_obj) next 0 ag) (haiku_env next 0 env) None [the_bar (fun n => n)] 9
    (pbar_new, (AgentObj 0 None, EnvObj 0 None [(10, Some 3); (20, None); (30, None)] None)) with
  | Some (s, w, l) => fst w = Pbar (Some (Tqdm (Some 3) 3 true)) false /\ length (filter is_env_step l) = 3
  | None => False
  end.
Proof. vm_compute. split; reflexivity. Qed.

(** C136: mapping a module over a nested structure, one module per leaf: each leaf of the outputs is what the module alone
    returns on the values of that leaf, in the structure of the inputs. *)
Theorem C136_leafwise :
  forall (S A B : Type) (init : A -> S) (step : S -> A -> B * S) (x0 : tree A) (xs : list (tree A)) ys sF,
  Forall (fun t => tree_def t = tree_def x0) xs ->
  run (TreeMapped init step) (x0 :: xs) = Some (ys, sF) ->
  length ys = length (x0 :: xs) /\
  forall t y, nth_error ys t = Some y -> exists tr,
    y = Some tr /\ tree_def tr = tree_def x0 /\
    forall i zs sG, i < length (tree_leaves x0) ->
      run (hk_module init step) (column i (x0 :: xs)) = Some (zs, sG) ->
      nth_error (tree_leaves tr) i = nth_error zs t.
Proof. exact @tree_mapped_run. Qed.
Print Assumptions C136_leafwise.

(** C136: tree_lag returns the arguments of [shift] steps before, structure and all, as a tuple (even for one argument);
    before that the filling values in the structure of the first arguments. *)
Theorem C136_tree_lag :
  forall (A : Type) (shift : nat) (full : A -> A) (x0 : list (tree A)) xs ys sF,
  Forall (fun x => tree_def (Node x) = tree_def (Node x0)) xs ->
  run (tree_lag shift full) (x0 :: xs) = Some (ys, sF) ->
  length ys = length (x0 :: xs) /\
  forall t, t < length (x0 :: xs) -> exists args,
    nth_error ys t = Some (Some (Node (map (tree_map Some) args))) /\
    (t < shift -> args = map (tree_map full) x0) /\
    (shift <= t -> nth_error (x0 :: xs) (t - shift) = Some args).
Proof. exact @tree_lag_run. Qed.
Print Assumptions C136_tree_lag.

Example C136_example :
  let x := fun n => [Node [Leaf n; Leaf (n + 10)]; Leaf (n + 20)] in
  exists s, run (tree_lag 2 (fun _ : nat => 0)) (map x [1; 2; 3; 4]) =
    Some ([Some (Node [Node [Leaf (Some 0); Leaf (Some 0)]; Leaf (Some 0)]);
           Some (Node [Node [Leaf (Some 0); Leaf (Some 0)]; Leaf (Some 0)]);
           Some (Node [Node [Leaf (Some 1); Leaf (Some 11)]; Leaf (Some 21)]);
           Some (Node [Node [Leaf (Some 2); Leaf (Some 12)]; Leaf (Some 22)])], s).
Proof. eexists. reflexivity. Qed.

(** C137: splitting what was combined gives it back, provided the state has no "params" of its own ... *)
Theorem C137_split_combine :
  forall (C : Type) (empty p : C) (s : variables C),
  NoDup (map fst s) -> ~ In "params"%string (map fst s) ->
  split_variables empty (combine_variables p s) = (p, s).
Proof. exact @split_combine. Qed.
Print Assumptions C137_split_combine.

(** C137 ... and if it has one, the parameters passed are ignored. *)
Theorem C137_shadow_refuted :
  forall (C : Type) (p : C) (s : variables C) (c : C), NoDup (map fst s) -> sget "params" s = Some c ->
  sget "params" (combine_variables p s) = Some c.
Proof. exact @combine_shadow. Qed.
Print Assumptions C137_shadow_refuted.

(** C137: combining what was split gives the same collections, with an empty "params" if there was none. *)
Theorem C137_combine_split :
  forall (C : Type) (empty : C) (v : variables C) (k : string), NoDup (map fst v) ->
  let '(p, s) := split_variables empty v in
  sget k (combine_variables p s) =
  if String.eqb k "params" then Some (match sget "params" v with Some p => p | None => empty end) else sget k v.
Proof. exact @combine_split. Qed.
Print Assumptions C137_combine_split.

(** C137: over successive calls of a transformed flax module, each call sees the parameters passed and the collections left
    by the previous one; updates of "params" by the module are dropped; what is returned at the end holds no "params". *)
Theorem C137_history :
  forall (C K X Y : Type) (mi : option K -> X -> variables C) (ma : variables C -> option K -> X -> Y * variables C) (empty p : C)
    (s : variables C) xs ys sF,
  (forall v k x, NoDup (map fst v) -> NoDup (map fst (snd (ma v k x)))) ->
  clean s -> applies (dict_transform mi ma empty) p s xs = (ys, sF) ->
  clean sF /\ length ys = length xs /\
  exists vs, length vs = length xs /\
    (forall t v k x, nth_error vs t = Some v -> nth_error xs t = Some (k, x) ->
       sget "params" v = Some p /\ nth_error ys t = Some (fst (ma v k x)) /\
       (forall v' key, nth_error vs (t + 1) = Some v' -> key <> "params"%string -> sget key v' = sget key (snd (ma v k x))) /\
       (t + 1 = length xs -> forall key, sget key sF = if String.eqb key "params" then None else sget key (snd (ma v k x)))) /\
    (forall v key, nth_error vs 0 = Some v -> key <> "params"%string -> sget key v = sget key s).
Proof. exact @history. Qed.
Print Assumptions C137_history.

(** C137: make_streaming_compatible computes what create_streaming_module_wrapper does, on the collections nested under the
    name of the wrapped module and with keys folded once more. *)
Theorem C137_wrapper :
  forall (V K X Y : Type) (mi : option K -> X -> variables (ptree V))
    (ma : variables (ptree V) -> option K -> X -> Y * variables (ptree V)) (fold : K -> K) (p : ptree V) xs s,
  applies (make_streaming_compatible mi ma fold) (nest p) (wrap s) xs =
  let '(ys, s') := applies (create_streaming_module_wrapper mi ma) p s (map (fun kx => (option_map fold (fst kx), snd kx)) xs) in
  (ys, wrap s').
Proof. exact @wrapper_history. Qed.
Print Assumptions C137_wrapper.

Theorem C137_wrapper_init :
  forall (V K X Y : Type) (mi : option K -> X -> variables (ptree V))
    (ma : variables (ptree V) -> option K -> X -> Y * variables (ptree V)) (fold : K -> K) (k : option K) (x : X),
  let '(p, s) := t_init (create_streaming_module_wrapper mi ma) (option_map fold k) x in
  t_init (make_streaming_compatible mi ma fold) k x =
  (match sget "params" (mi (option_map fold k) x) with Some _ => nest p | None => PDict [] end, wrap s).
Proof. exact @wrapper_init_eq. Qed.
Print Assumptions C137_wrapper_init.

(** a counter: "params" holds the increment, "state" the count; the module also tries to double its parameter *)
Example C137_example :
  let mi := fun (_ : option unit) (_ : nat) => [("params"%string, 2); ("state"%string, 0)] in
  let ma := fun (v : variables nat) (_ : option unit) (x : nat) =>
    let p := match sget "params" v with Some p => p | None => 0 end in
    let n := match sget "state" v with Some n => n | None => 0 end in
    (n + x, [("params"%string, p + p); ("state"%string, n + p)]) in
  t_init (dict_transform mi ma 0) None 5 = (2, [("state"%string, 0)]) /\
  clean [("state"%string, 0)] /\
  (forall v k x, NoDup (map fst v) -> NoDup (map fst (snd (ma v k x)))) /\
  applies (dict_transform mi ma 0) 2 [("state"%string, 0)] [(None, 10); (None, 20); (None, 30)] =
    ([10; 22; 34], [("state"%string, 6)]).
Proof.
  cbv zeta. split; [reflexivity|]. split.
  { split; [repeat constructor; intros []|]. intros [H|[]]. discriminate. }
  split; [|reflexivity]. intros v k x _. cbn [snd map fst]. constructor; [intros [H|[]]; discriminate|]. constructor; [intros []|constructor].
Qed.
