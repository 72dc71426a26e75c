From Coq Require Import String List Bool Arith Lia Reals Permutation Sorted Relations.
From Verif Require Import Model.Unroll Model.Float Model.FlaxModules Model.FlaxCore Model.Compressed Model.FlaxDecor Spec.FlaxSpec Spec.FlaxCoreSpec
  Proofs.ListFacts Proofs.FlaxProofs Proofs.FlaxCoreProofs3 Proofs.HsmProofs Proofs.HsmProofs2 Proofs.FlaxCoreProofs Proofs.FlaxCoreProofs2 Proofs.FlaxDecorProofs.
Import ListNotations.

Lemma decorated_iff {SP SF X O Y} (pattern : SP -> X -> option (O * SP)) (fn : flax_module SF (O * X) Y) xs sp sf :
  (forall ys sp' sf', calls (decorated pattern fn) (sp, sf) xs = Some (ys, (sp', sf')) <->
     exists os, calls pattern sp xs = Some (os, sp') /\ alone fn sf (combine os xs) = (ys, sf')) /\
  (calls (decorated pattern fn) (sp, sf) xs = None <-> calls pattern sp xs = None).
Proof.
  rewrite decorated_runs. destruct (calls pattern sp xs) as [[os sp1]|]; split.
  - intros ys sp' sf'. destruct (alone fn sf (combine os xs)) as [ys1 sf1] eqn:E. split.
    + intros H. exists os. split; congruence.
    + intros (os' & H1 & H2). congruence.
  - destruct (alone fn sf (combine os xs)). split; discriminate.
  - intros. split; [discriminate|]. intros (os & H & _). discriminate.
  - tauto.
Qed.

Lemma machine_decorator {S SF X Y} (mods : list (string * flax_module S X (pyval + string))) deps pick strategy
  (fn : flax_module SF (list (string * pyval) * X) Y) st sf x :
  NoDup (map fst mods) -> any_order pick -> strategy <> "hierarchical"%string ->
  exists outs st' y sf', streaming_state_machine pick mods deps strategy fn (st, sf) x = Some (y, (st', sf')) /\
    fx_call fn sf (outs, x) = (y, sf') /\
    Permutation (map fst outs) (map fst mods) /\
    (forall n m, In (n, m) mods -> lookup n outs = Some (shown (fst (fx_call m (st n) x))) /\
                                   st' n = snd (fx_call m (st n) x)) /\
    (forall n, ~ In n (map fst mods) -> st' n = st n).
Proof.
  intros ND AO Hs.
  assert (Hc : coordination_of strategy <> Hierarchical).
  { unfold coordination_of. destruct (String.eqb strategy "sequential"); [discriminate|].
    destruct (String.eqb_spec strategy "hierarchical"); [contradiction|discriminate]. }
  destruct (hsm_plain mods deps ND pick (coordination_of strategy) st x AO Hc) as (outs & st' & H & P1 & P2 & P3).
  destruct (fx_call fn sf (outs, x)) as [y sf'] eqn:Ef. exists outs, st', y, sf'.
  split; [|repeat (split; [assumption|]); assumption].
  unfold streaming_state_machine, decorated. cbn [fst snd]. rewrite H, Ef. reflexivity.
Qed.

Lemma machine_hierarchical {S SF X Y} (mods : list (string * flax_module S X (pyval + string))) deps pick
  (fn : flax_module SF (list (string * pyval) * X) Y) st sf x y st' sf' :
  NoDup (map fst mods) -> any_order pick ->
  streaming_state_machine pick mods deps "hierarchical" fn (st, sf) x = Some (y, (st', sf')) ->
  exists c, fx_call fn sf (c, x) = (y, sf') /\ Permutation (map fst c) (map fst mods) /\
    (forall n m, In (n, m) mods -> st' n = snd (fx_call m (st n) x)) /\
    exists level : string -> nat,
      (acyclic (needs deps) -> forall n, longest_path deps n (level n)) /\
      forall n m, In (n, m) mods -> exists above,
        NoDup above /\ (forall h, In h above <-> In h (map fst mods) /\ level h < level n) /\
        StronglySorted (fun a b => level a <= level b) above /\
        match shown (fst (fx_call m (st n) x)) with
        | PDict d => exists d', lookup n c = Some (PDict d') /\ map fst d' = map fst d /\
            forall k, lookup k d' = match lookup k d with
                                    | Some (PNum a) => Some (PNum (nudged (signals c k above) a))
                                    | v => v end
        | o => lookup n c = Some o
        end.
Proof.
  intros ND AO. unfold streaming_state_machine, decorated. cbn [fst snd]. change (coordination_of "hierarchical") with Hierarchical.
  destruct (hsm_call mods pick deps Hierarchical st x) as [[c st1]|] eqn:E; [|discriminate].
  destruct (fx_call fn sf (c, x)) as [y1 sf1] eqn:Ef. intros H. assert (y1 = y /\ st1 = st' /\ sf1 = sf') as (-> & -> & ->) by (repeat split; congruence).
  exists c. split; [exact Ef|]. destruct (hsm_hierarchical mods deps pick st x c st' ND AO E) as [P L].
  split; [exact P|]. split; [|exact L]. exact (proj1 (hsm_states mods deps pick Hierarchical st x c st' ND AO E)).
Qed.

Lemma attention_decorator {SF X A E Y} (N : nat) (encode : X -> E) attend zero (fn : flax_module SF (selector_out E * (X * A)) Y) s f xs :
  calls (streaming_attention_state N encode attend zero fn) (s, f) xs =
  let '(os, s') := alone (Selector N encode attend zero true) s (map fst xs) in
  let '(ys, f') := alone fn f (combine os xs) in Some (ys, (s', f')).
Proof. exact (decorated_module (Selector N encode attend zero true) fn s f xs). Qed.

Lemma compressed_decorator {SF A Y} fm ti (N : nat) st (fn : flax_module SF (cb_out * (fl * A)) Y) f (xs : list (fl * A)) x0 :
  calls (streaming_compressed_memory fm ti N st fn) (fx_vars (CompressedBuffer fm ti N st (Fin 0)) x0, f) xs =
  let '(os, s') := alone (CompressedBuffer fm ti N st (Fin 0)) (fx_vars (CompressedBuffer fm ti N st (Fin 0)) x0) (map fst xs) in
  let '(ys, f') := alone fn f (combine os xs) in Some (ys, (s', f')).
Proof. exact (decorated_module (CompressedBuffer fm ti N st (Fin 0)) fn _ f xs). Qed.

Lemma hierarchical_decorator {SF A Y} fm ti (a b c : nat) m l (fn : flax_module SF (hb_out * (fl * A)) Y) f (xs : list (fl * A)) x0 :
  let H := HierarchicalBuffer fm ti a b c m l (Fin 0) in
  calls (streaming_hierarchical_memory fm ti a b c m l fn) (fx_vars H x0, f) xs =
  let '(os, s') := alone H (fx_vars H x0) (map fst xs) in
  let '(ys, f') := alone fn f (combine os xs) in Some (ys, (s', f')).
Proof. exact (decorated_module (HierarchicalBuffer fm ti a b c m l (Fin 0)) fn _ f xs). Qed.

Lemma compose_decorator {S SF A Y} (ms : list (flax_module S pyval pyval)) strategy
  (fn : flax_module SF (list (string * pyval) * (pyval * A)) Y) st sf (x : pyval) (a : A) :
  streaming_compose_states ms strategy fn (st, sf) (x, a) =
  match composite_call (numbered ms) strategy st x with
  | None => None
  | Some (c, st') => let '(y, sf') := fx_call fn sf (c, (x, a)) in Some (y, (st', sf'))
  end.
Proof. reflexivity. Qed.

Lemma compose_parallel {S SF A Y} (ms : list (flax_module S pyval pyval))
  (fn : flax_module SF (list (string * pyval) * (pyval * A)) Y) st sf (x : pyval) (a : A) :
  exists outs st', streaming_compose_states ms "parallel" fn (st, sf) (x, a) =
    (let '(y, sf') := fx_call fn sf (outs, (x, a)) in Some (y, (st', sf'))) /\
    length outs = length ms /\
    forall i m, nth_error ms i = Some m -> exists o,
      nth_error outs i = Some (pattern_name i, o) /\ fx_call m (st (pattern_name i)) x = (o, st' (pattern_name i)).
Proof.
  destruct (numbered_spec ms) as (ND & Sn & Nt).
  destruct (composite_call (numbered ms) "parallel" st x) as [[outs st']|] eqn:E; [|discriminate E].
  destruct (parallel_spec (numbered ms) ND st x outs st' E) as [H1 H2].
  exists outs, st'. split; [rewrite compose_decorator, E; reflexivity|]. split.
  - rewrite <- (map_length fst outs), H1, map_length, <- (map_length snd (numbered ms)), Sn. reflexivity.
  - intros i m Hm. exact (H2 i (pattern_name i) m (Nt i m Hm)).
Qed.

Lemma compose_pipeline {S SF A Y} (ms : list (flax_module S pyval pyval))
  (fn : flax_module SF (list (string * pyval) * (pyval * A)) Y) st sf (x : pyval) (a : A) :
  (forall m s x d, In m ms -> fst (fx_call m s x) = PDict d -> NoDup (map fst d)) ->
  exists outs st' inputs, streaming_compose_states ms "pipeline" fn (st, sf) (x, a) =
    (let '(y, sf') := fx_call fn sf (outs, (x, a)) in Some (y, (st', sf'))) /\
    length outs = length ms /\ nth_error inputs 0 = Some x /\
    forall i m, nth_error ms i = Some m -> exists c c' o,
      nth_error inputs i = Some c /\ nth_error inputs (i + 1) = Some c' /\ nth_error outs i = Some (pattern_name i, o) /\
      fx_call m (st (pattern_name i)) c = (o, st' (pattern_name i)) /\ passed_on c o c'.
Proof.
  intros Hd. destruct (numbered_spec ms) as (ND & Sn & Nt).
  destruct (composite_call (numbered ms) "pipeline" st x) as [[outs st']|] eqn:E; [|discriminate E].
  destruct (pipeline_spec (numbered ms) ND st x outs st') as [H1 (inputs & H2 & H3)]; [|exact E|].
  { intros n m s x' d Hin. apply Hd. rewrite <- Sn. apply (in_map snd) in Hin. exact Hin. }
  exists outs, st', inputs. split; [rewrite compose_decorator, E; reflexivity|]. split; [|split; [exact H2|]].
  - rewrite <- (map_length fst outs), H1, map_length, <- (map_length snd (numbered ms)), Sn. reflexivity.
  - intros i m Hm. exact (H3 i (pattern_name i) m (Nt i m Hm)).
Qed.

Lemma compose_unknown {S SF A Y} (ms : list (flax_module S pyval pyval)) strategy
  (fn : flax_module SF (list (string * pyval) * (pyval * A)) Y) st sf (x : pyval) (a : A) :
  strategy <> "pipeline"%string -> strategy <> "parallel"%string -> strategy <> "hierarchical"%string ->
  streaming_compose_states ms strategy fn (st, sf) (x, a) = None.
Proof. intros. rewrite compose_decorator, composite_unknown by assumption. reflexivity. Qed.

Lemma target_of_spec {V} (args : list V) :
  target_of args = match nth_error args 1 with Some t => Some t | None => nth_error args 0 end.
Proof. destruct args as [|a [|b r]]; reflexivity. Qed.

Lemma state_vector_dict d i (k : string) e :
  nth_error d i = Some (k, e) -> exists v pre post,
  state_vector (CDict d) = Some v /\ v = pre ++ match e with ENum r => [r] | EArr l => l | EOther => [0%R] end ++ post /\
  length pre = list_sum (map (fun kv => match snd kv with EArr l => length l | _ => 1 end) (firstn i d)).
Proof.
  intros H. destruct (nth_error_split d i H) as (l1 & l2 & E & L). subst d i.
  exists (concat (map (fun kv => entry_values (snd kv)) (l1 ++ (k, e) :: l2))), (concat (map (fun kv => entry_values (snd kv)) l1)),
    (concat (map (fun kv => entry_values (snd kv)) l2)).
  split; [destruct l1; reflexivity|]. split.
  - rewrite map_app, concat_app. reflexivity.
  - rewrite firstn_app, Nat.sub_diag, firstn_all, app_nil_r. clear. induction l1 as [|[k [r|l|]] l1 IH]; cbn [map concat snd entry_values list_sum fold_right app length] in *; auto.
    rewrite app_length, IH. reflexivity.
Qed.
