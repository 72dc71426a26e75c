(** Property theorems C46, C47, C59: the gym loop (gym/).  [gym_unroll ag env o cbs fuel w] is the run from
    the world [w] with the callbacks [cbs]: the returned state, the world after, and the log of the calls;
    [None]: more than [fuel] iterations. *)
From Coq Require Import List Bool ZArith Lia.
From Verif Require Import Model.Unroll Model.Gym Spec.DynSpec Spec.GymSpec Proofs.GymProofs Proofs.GymProofs2.
Import ListNotations.

(** C46: every run: reset, each on_train_start once, the iterations, each on_train_end once, close; each iteration is the agent, each on_act, the environment, each on_step; it begins with the observation of the previous one; the loop ends at the first iteration where the environment is done or a callback asks to stop; the result is the state of the last one. *)
Theorem C46_every_call_in_order :
  forall (W O A R I : Type) ag (env : (@environment W O A R I)) o (cbs : list (@callback W O A R I)) fuel (w : W) s w' l,
  gym_unroll ag env o cbs fuel w = Some (s, w', l) ->
    exists o0 its,
      match o with Some o => o0 = o | None => o0 = fst (reset env w) end /\
      chained o0 its /\
      (forall it, In it its -> length (answers it) = count_some (map on_step cbs)) /\
      option_map state (hd_error (rev its)) = Some s /\
      l = run_log (match o with Some _ => true | None => false end) o0 (count_some (map on_train_start cbs))
            (count_some (map on_act cbs)) (count_some (map on_train_end cbs)) its.
Proof. exact @gym_unroll_log. Qed.
Print Assumptions C46_every_call_in_order.

(** C46: a run does not depend on the bound on iterations. *)
Theorem C46_deterministic :
  forall (W O A R I : Type) ag (env : (@environment W O A R I)) o (cbs : list (@callback W O A R I)) fuel fuel' (w : W) x,
  gym_unroll ag env o cbs fuel w = Some x -> fuel <= fuel' -> gym_unroll ag env o cbs fuel' w = Some x.
Proof. exact @gym_unroll_fuel. Qed.
Print Assumptions C46_deterministic.

(** C46: a run ends if the environment ends (a measure decreases until done). *)
Theorem C46_environment_terminates :
  forall (W O A R I : Type) (ag : (@agent W O A)) (env : (@environment W O A R I)) (cbs : list (@callback W O A R I)) (m : W -> nat) o (w : W),
  (forall w, m (snd (reset env w)) <= m w) -> (forall o w, m (snd (act ag o w)) = m w) ->
    (forall a w, snd (fst (fst (step env a w))) = true \/ m (snd (step env a w)) < m w) ->
    callbacks_leave m cbs ->
    exists r, gym_unroll ag env o cbs (S (m w)) w = Some r.
Proof. exact @env_terminates. Qed.
Print Assumptions C46_environment_terminates.

(** C46: with Stop(n), whose counter _t nobody else changes, the run ends, ... *)
Theorem C46_stop_terminates :
  forall (W O A R I : Type) (ag : (@agent W O A)) (env : (@environment W O A R I)) (cbs1 cbs2 : list (@callback W O A R I)) (t : W -> Z) (set_t : Z -> W -> W) (n : Z) o (w : W),
  (forall v w, t (set_t v w) = v) -> untouched t ag env -> callbacks_leave t (cbs1 ++ cbs2) ->
  exists r, gym_unroll ag env o (cbs1 ++ stop_callback t set_t n :: cbs2) (Z.to_nat (Z.max 1 (n - t w))) w = Some r.
Proof. intros; apply stop_terminates; auto. Qed.
Print Assumptions C46_stop_terminates.

(** ... after at most max(1, n - _t) iterations, _t being increased by their number ... *)
Theorem C46_stop_answers :
  forall (W O A R I : Type) (ag : (@agent W O A)) (env : (@environment W O A R I)) (cbs1 cbs2 : list (@callback W O A R I)) (t : W -> Z) (set_t : Z -> W -> W) (n : Z) o fuel (w : W) s w' l,
  (forall v w, t (set_t v w) = v) -> untouched t ag env -> callbacks_leave t (cbs1 ++ cbs2) ->
  gym_unroll ag env o (cbs1 ++ stop_callback t set_t n :: cbs2) fuel w = Some (s, w', l) ->
      exists o0 its,
        l = run_log (match o with Some _ => true | None => false end) o0 (count_some (map on_train_start (cbs1 ++ stop_callback t set_t n :: cbs2)))
            (count_some (map on_act (cbs1 ++ stop_callback t set_t n :: cbs2))) (count_some (map on_train_end (cbs1 ++ stop_callback t set_t n :: cbs2))) its /\
        chained o0 its /\
        t w' = (t w + Z.of_nat (length its))%Z /\
        (Z.of_nat (length its) <= Z.max 1 (n - t w))%Z /\
        (forall i it, nth_error its i = Some it ->
          nth_error (answers it) (count_some (map on_step cbs1)) = Some (n <=? t w + Z.of_nat i + 1)%Z).
Proof. intros; eapply stop_unroll; eauto. Qed.
Print Assumptions C46_stop_answers.

(** ... and exactly that many unless the environment or another callback ended it.  The counter is not reset: a Stop used before stops earlier. *)
Theorem C46_stop_exact :
  forall (W O A R I : Type) (ag : (@agent W O A)) (env : (@environment W O A R I)) (cbs1 cbs2 : list (@callback W O A R I)) (t : W -> Z) (set_t : Z -> W -> W) (n : Z) o fuel (w : W) s w' l,
  (forall v w, t (set_t v w) = v) -> untouched t ag env -> callbacks_leave t (cbs1 ++ cbs2) ->
  gym_unroll ag env o (cbs1 ++ stop_callback t set_t n :: cbs2) fuel w = Some (s, w', l) ->
      exists o0 its it,
        l = run_log (match o with Some _ => true | None => false end) o0 (count_some (map on_train_start (cbs1 ++ stop_callback t set_t n :: cbs2)))
            (count_some (map on_act (cbs1 ++ stop_callback t set_t n :: cbs2))) (count_some (map on_train_end (cbs1 ++ stop_callback t set_t n :: cbs2))) its /\
        chained o0 its /\ hd_error (rev its) = Some it /\
        (Z.of_nat (length its) = Z.max 1 (n - t w)%Z \/ done (state it) = true \/
         exists k, k <> count_some (map on_step cbs1) /\ nth_error (answers it) k = Some true).
Proof. intros; eapply stop_exact; eauto. Qed.
Print Assumptions C46_stop_exact.

(** C46: Record adds one row for each iteration where the environment is not done (and the action not None), in order: also for the last one when a callback ended the run. *)
Theorem C46_record :
  forall (W O A R I : Type) (ag : (@agent W O A)) (env : (@environment W O A R I)) (cbs1 cbs2 : list (@callback W O A R I))
    (is_none : A -> bool) (return_obs return_action : bool)
    (rows : W -> list (@row O A R)) (set_rows : list (@row O A R) -> W -> W) o fuel (w : W) s w' l,
  (forall v w, rows (set_rows v w) = v) -> untouched rows ag env -> callbacks_leave rows (cbs1 ++ cbs2) ->
  gym_unroll ag env o (cbs1 ++ record_callback is_none return_obs return_action rows set_rows :: cbs2) fuel w = Some (s, w', l) ->
      exists o0 its,
        l = run_log (match o with Some _ => true | None => false end) o0 (count_some (map on_train_start (cbs1 ++ record_callback is_none return_obs return_action rows set_rows :: cbs2)))
            (count_some (map on_act (cbs1 ++ record_callback is_none return_obs return_action rows set_rows :: cbs2))) (count_some (map on_train_end (cbs1 ++ record_callback is_none return_obs return_action rows set_rows :: cbs2))) its /\
        chained o0 its /\
        rows w' = rows w ++
          map (fun it => recorded_row return_obs return_action (rw (state it)) (obs (state it)) (action (state it)))
            (filter (fun it => negb (done (state it)) && negb (is_none (action (state it)))) its).
Proof. intros; eapply record_unroll; eauto. Qed.
Print Assumptions C46_record.

(** C46: get_outputs after a run of a new Record gives the recorded rows; it fails exactly when nothing was recorded. *)
Theorem C46_get_outputs :
  forall (W O A R I : Type) (ag : (@agent W O A)) (env : (@environment W O A R I)) (cbs1 cbs2 : list (@callback W O A R I))
    (is_none : A -> bool) (return_obs return_action : bool)
    (rows : W -> list (@row O A R)) (set_rows : list (@row O A R) -> W -> W) o fuel (w : W) s w' l,
  (forall v w, rows (set_rows v w) = v) -> untouched rows ag env -> callbacks_leave rows (cbs1 ++ cbs2) -> rows w = [] ->
  gym_unroll ag env o (cbs1 ++ record_callback is_none return_obs return_action rows set_rows :: cbs2) fuel w = Some (s, w', l) ->
      exists o0 its,
        l = run_log (match o with Some _ => true | None => false end) o0 (count_some (map on_train_start (cbs1 ++ record_callback is_none return_obs return_action rows set_rows :: cbs2)))
            (count_some (map on_act (cbs1 ++ record_callback is_none return_obs return_action rows set_rows :: cbs2))) (count_some (map on_train_end (cbs1 ++ record_callback is_none return_obs return_action rows set_rows :: cbs2))) its /\
        chained o0 its /\
        let recorded := filter (fun it => negb (done (state it)) && negb (is_none (action (state it)))) its in
        (get_outputs rows w' = None <-> recorded = []) /\
        (forall out, get_outputs rows w' = Some out ->
           out = map (fun it => recorded_row return_obs return_action (rw (state it)) (obs (state it)) (action (state it))) recorded).
Proof.
  intros until l. intros H1 H2 H3 H0 H4.
  edestruct @record_unroll as (o0 & its & E1 & E2 & E3); [exact H1|exact H2|exact H3|exact H4|].
  exists o0, its. split; [exact E1|split; [exact E2|]]. rewrite H0 in E3. cbn [app] in E3. cbv zeta.
  unfold get_outputs. rewrite E3. set (rc := filter _ its).
  destruct rc as [|it r].
  - cbn [map]. split; [tauto|discriminate].
  - split; [split; discriminate|]. cbn [map]. intros out [= <-]. reflexivity.
Qed.
Print Assumptions C46_get_outputs.

(** An environment which counts down from its state, an agent which returns what it sees; the world is the
    state of the environment, the counter of Stop and the rows of Record. *)
Definition ex_world : Type := (nat * Z * list (@row nat nat nat))%type.
Definition ex_agent : @agent ex_world nat nat := Agent (fun o w => (o, w)).
Definition ex_env : @environment ex_world nat nat nat unit :=
  Env (fun w => (fst (fst w), w))
      (fun a w => let '(n, t, r) := w in ((pred n, a, Nat.eqb n 1, tt), (pred n, t, r)))
      (fun w => w).
Definition ex_stop := stop_callback (O := nat) (A := nat) (R := nat) (I := unit)
  (fun w : ex_world => snd (fst w)) (fun v w => (fst (fst w), v, snd w)).
Definition ex_record := record_callback (I := unit) (fun _ => false) false false
  (fun w : ex_world => snd w) (fun v w => (fst w, v)).
Example C46_example :
  (* the environment ends *)
  (exists l, gym_unroll ex_agent ex_env None [ex_record] 9 (3, 0%Z, []) =
    Some (GymState 1 0 1 true tt, (0, 0%Z, [[FReward 3]; [FReward 2]]), l)) /\
  (* Stop(2) ends, the result says not done, the last step is recorded *)
  (exists l, gym_unroll ex_agent ex_env None [ex_stop 2; ex_record] 9 (5, 0%Z, []) =
    Some (GymState 4 3 4 false tt, (3, 2%Z, [[FReward 5]; [FReward 4]]), l)) /\
  untouched (fun w : ex_world => snd (fst w)) ex_agent ex_env /\
  callbacks_leave (fun w : ex_world => snd (fst w)) ([] ++ [ex_record]).
Proof.
  split; [eexists; reflexivity|]. split; [eexists; reflexivity|]. split.
  - repeat split; try reflexivity. intros a [[n t] r]. reflexivity.
  - intros c [<-|[]]. cbn. repeat split; try discriminate.
    intros f s w [= <-]. destruct (done s); reflexivity.
Qed.

(** C47: [with] blocks and unrolls, however nested and whatever they raise, leave the active set as it was, provided no block installs a callback which is active already. *)
Theorem C47_scopes_restore :
  forall p,
  forall active s e l, scoped p -> no_reinstall (fun c => active c = true) p ->
  exec p active = (s, e, l) -> forall c, s c = active c.
Proof. exact @scoped_restores. Qed.
Print Assumptions C47_scopes_restore.

(** C47: after a block its callbacks are not active, whatever happened inside. *)
Theorem C47_with_removes :
  forall cbs p active s e l,
  exec (With cbs p) active = (s, e, l) ->
  forall c, In c cbs -> s c = false.
Proof. exact @with_removes. Qed.
Print Assumptions C47_with_removes.

(** C47: an unroll in a block uses its callbacks besides the active ones. *)
Theorem C47_with_installs :
  forall cbs p active s e l,
  exec (With cbs (Unroll None p)) active = (s, e, l) ->
  exists used r, l = used :: r /\ forall c, used c = true <-> active c = true \/ In c cbs.
Proof. exact @with_installs. Qed.
Print Assumptions C47_with_installs.

(** C47: an unroll without explicit callbacks uses the active ones and restores them, even if its body registers or unregisters, or raises. *)
Theorem C47_unroll_restores :
  forall p active,
  exists e l, exec (Unroll None p) active = (active, e, active :: l).
Proof. exact @unroll_restores. Qed.
Print Assumptions C47_unroll_restores.

(** C47: unrolls nested in it use only the callbacks its own body mentions. *)
Theorem C47_nested_unrolls :
  forall p active s e l,
  exec (Unroll None p) active = (s, e, active :: l) ->
  forall used c, In used l -> used c = true -> mentions p c.
Proof. exact @nested_unrolls. Qed.
Print Assumptions C47_nested_unrolls.

(** C47: explicit callbacks are not combined with the active ones: they replace them, and an unroll nested in the body uses the active ones. *)
Theorem C47_explicit_callbacks_refuted :
  forall cbs p q active s e l,
  exec (Unroll (Some cbs) (Seq (Unroll None p) q)) active = (s, e, l) ->
  exists u1 u2 r, l = u1 :: u2 :: r /\ (forall c, u1 c = true <-> In c cbs) /\ u2 = active.
Proof. exact @explicit_callbacks. Qed.
Print Assumptions C47_explicit_callbacks_refuted.

(** C47: a callback already active which is installed by a block is not active after the block. *)
Theorem C47_reinstall_refuted :
  forall c p active,
  active c = true ->
  forall s e l, exec (With [c] p) active = (s, e, l) -> s c = false.
Proof. exact @reinstall_removes. Qed.
Print Assumptions C47_reinstall_refuted.

Example C47_example :
  let p := Try (With [1; 2] (Seq (Unroll None (With [3] (Unroll None Raise))) Skip)) in
  scoped p /\ no_reinstall (fun c => update empty [7] c = true) p /\
  exists l1 l2, snd (exec p (update empty [7])) = [l1; l2] /\
    map l1 [1; 2; 3; 7; 8] = [true; true; false; true; false] /\
    map l2 [1; 2; 3; 7; 8] = [false; false; true; false; false].
Proof.
  cbn. split; [auto|]. split.
  - split; [intros c [<-|[<-|[]]]; discriminate|]. split; [tauto|]. auto.
  - do 2 eexists. split; [reflexivity|]. split; reflexivity.
Qed.

(** C59: successive calls of a HaikuAgent are the successive applications of the pure function, initialised on the first observation with the first key, with the following keys of the sequence. *)
Theorem C59_agent_is_unroll :
  forall (Q K P S O A : Type) (next_key : Q -> K * Q) (ag : transformed K P S O A) o os q k0 ks p s,
  take_keys next_key q (length (o :: os) + 1) = k0 :: ks -> t_init ag (Some k0) o = (p, s) ->
    fst (agent_calls next_key ag (o :: os) (AgentObj q None)) =
    fst (drive ag p s (combine (map Some ks) (o :: os))).
Proof. exact @agent_is_unroll. Qed.
Print Assumptions C59_agent_is_unroll.

(** C59: reset forgets params and state; the sequence of keys goes on (so functions which use keys do not restart from scratch) ... *)
Theorem C59_agent_reset :
  forall (Q K P S O A : Type) (next_key : Q -> K * Q) (ag : transformed K P S O A) (o : O) (before after : list O) q,
  let st := snd (agent_calls next_key ag (o :: before) (AgentObj q None)) in
    exists q',
      (forall n, take_keys next_key q' n =
                 skipn (length (o :: before) + 1) (take_keys next_key q (length (o :: before) + 1 + n))) /\
      fst (agent_calls next_key ag after (agent_reset st)) =
      fst (agent_calls next_key ag after (AgentObj q' None)).
Proof. exact @agent_reset_restarts. Qed.
Print Assumptions C59_agent_reset.

(** ... which does not show on functions which do not use keys. *)
Theorem C59_agent_reset_keyless :
  forall (Q K P S O A : Type) (next_key : Q -> K * Q) (ag : transformed K P S O A),
  (forall k k' o, t_init ag k o = t_init ag k' o) ->
    (forall p s k k' o, t_apply ag p s k o = t_apply ag p s k' o) ->
    forall os q q' ps, fst (agent_calls next_key ag os (AgentObj q ps)) =
                       fst (agent_calls next_key ag os (AgentObj q' ps)).
Proof. exact @agent_calls_keyless. Qed.
Print Assumptions C59_agent_reset_keyless.

(** C59: the same for HaikuEnv, as long as there is data. *)
Theorem C59_env_is_unroll :
  forall (Q K P S O A R D I : Type) (next_key : Q -> K * Q) (rw0 : R) (env : transformed K P S (A * D) (R * O)) a as_ q k0 ks p s d i0 (data : list (D * I)) i,
  length as_ <= length data ->
    take_keys next_key q (length (a :: as_) + 1) = k0 :: ks -> t_init env (Some k0) (a, d) = (p, s) ->
    fst (env_steps next_key rw0 env (a :: as_) (EnvObj q None ((d, i0) :: data) i)) =
    map (fun xi => (Some (snd (fst xi)), fst (fst xi), false, snd xi))
      (combine (fst (drive env p s (combine (map Some ks) (combine (a :: as_) (d :: map fst data)))))
               (i0 :: map snd data)).
Proof. exact @env_is_unroll. Qed.
Print Assumptions C59_env_is_unroll.

(** C59: a step is done exactly when the data is exhausted; then it returns no observation, reward 0 and the last info. *)
Theorem C59_env_done :
  forall (Q K P S O A R D I : Type) (next_key : Q -> K * Q) (rw0 : R) (env : transformed K P S (A * D) (R * O)) as_,
  forall (st : @env_obj Q P S D I) j x,
    nth_error (fst (env_steps next_key rw0 env as_ st)) j = Some x ->
    snd (fst x) = (length (e_data st) <=? j) /\
    (length (e_data st) <= j -> fst (fst x) = (None, rw0) /\
       snd x = last (map snd (e_data st)) (e_info st)).
Proof. exact @env_done. Qed.
Print Assumptions C59_env_done.

(** C59: gym_unroll of both: the actions are those of the agent function on the observations, the results those of the environment function on the actions and data; there is one iteration per datum after the first, and a last one, unless a callback stops before. *)
Theorem C59_gym_unroll :
  forall (Q K P S P' S' O A R I X : Type) (next_key : Q -> K * Q) (a0 : A) (rw0 : R)
    (ag : transformed K P S O A) (env : transformed K P' S' (A * O) (R * O)) (cbs : list (@callback (X * (@agent_obj Q P S * @env_obj Q P' S' O I))%type (option O) A R I)) fuel (x : X) qa (es : @env_obj Q P' S' O I) d0 i0 data s w' l,
  callbacks_leave snd cbs -> e_data es = (d0, i0) :: data ->
    gym_unroll (haiku_agent (X := X) (T := @env_obj Q P' S' O I) next_key a0 ag) (haiku_env (I := I) (X := X) (T := @agent_obj Q P S) next_key rw0 env) None cbs fuel (x, (AgentObj qa None, es)) = Some (s, w', l) ->
    exists its os,
      l = run_log false (Some d0) (count_some (map on_train_start cbs))
            (count_some (map on_act cbs)) (count_some (map on_train_end cbs)) its /\
      chained (Some d0) its /\
      map seen its = map Some os /\
      map (fun it => action (state it)) its = fst (agent_calls next_key ag os (AgentObj qa None)) /\
      map (fun it => (obs (state it), rw (state it), done (state it), info (state it))) its =
        fst (env_steps next_key rw0 env (map (fun it => action (state it)) its) (EnvObj (e_seq es) None data i0)) /\
      (length its <= length data + 1) /\
      (length its = length data + 1 \/ exists it, hd_error (rev its) = Some it /\ In true (answers it)).
Proof. exact @haiku_unroll. Qed.
Print Assumptions C59_gym_unroll.

(** C59: and it ends. *)
Theorem C59_gym_unroll_terminates :
  forall (Q K P S P' S' O A R I X : Type) (next_key : Q -> K * Q) (a0 : A) (rw0 : R)
    (ag : transformed K P S O A) (env : transformed K P' S' (A * O) (R * O)) (cbs : list (@callback (X * (@agent_obj Q P S * @env_obj Q P' S' O I))%type (option O) A R I)) (x : X) (st : @agent_obj Q P S) (es : @env_obj Q P' S' O I) o,
  callbacks_leave (fun w : (X * (@agent_obj Q P S * @env_obj Q P' S' O I))%type => length (e_data (snd (snd w)))) cbs ->
    exists r, gym_unroll (haiku_agent (X := X) (T := @env_obj Q P' S' O I) next_key a0 ag) (haiku_env (I := I) (X := X) (T := @agent_obj Q P S) next_key rw0 env) o cbs (length (e_data es) + 1) (x, (st, es)) = Some r.
Proof. exact @haiku_unroll_runs. Qed.
Print Assumptions C59_gym_unroll_terminates.

Example C59_example :
  let next := fun q : nat => (q, S q) in
  let ag : transformed nat unit nat nat nat := Transformed (fun _ _ => (tt, 0)) (fun _ s _ o => (o + s, S s)) in
  let env : transformed nat unit unit (nat * nat) (nat * nat) :=
    Transformed (fun _ _ => (tt, tt)) (fun _ _ _ x => ((fst x, snd x), tt)) in
  exists w l, gym_unroll (haiku_agent (X := unit) next 0 ag) (haiku_env next 0 env) None [] 9
    (tt, (AgentObj 0 None, EnvObj 0 None [(10, tt); (20, tt); (30, tt)] tt)) =
    Some (GymState 0 None 32 true tt, w, l).
Proof. do 2 eexists. reflexivity. Qed.
(** C59: reset does not restart from scratch functions which use their key. *)
Theorem C59_reset_keys_refuted :
  exists (Q K P S O A : Type) (next_key : Q -> K * Q) (ag : transformed K P S O A) (o : O) (q : Q),
    let '(first, st) := agent_calls next_key ag [o] (AgentObj q None) in
    fst (agent_calls next_key ag [o] (agent_reset st)) <> first.
Proof.
  exists nat, nat, unit, unit, unit, (option nat), (fun q => (q, S q)),
    (Transformed (fun _ _ => (tt, tt)) (fun _ _ k _ => (k, tt))), tt, 0. cbn. discriminate.
Qed.
Print Assumptions C59_reset_keys_refuted.
