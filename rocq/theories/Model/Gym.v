(** Model of the gym loop, its callbacks and wrappers: /repo/src/wax/gym.
    Agents, environments and callbacks are Python objects with mutable state; the states of all of them
    form one world of type [W], which the agent, the environment and the callbacks transform. *)
From Coq Require Import List Bool ZArith Lia.
From Verif Require Import Model.Unroll.
Import ListNotations.

Section Gym.
  Context {W O A R I : Type}.

  (** gym_unroll.py line 43: GymUnrollState *)
  Record gym_state := GymState { rw : R; obs : O; action : A; done : bool; info : I }.

  (** callbacks/callbacks.py lines 84-96: the four fields of a callback; a field may be None.  The result
      of on_step is its truth value (None is false). *)
  Record callback := Cb {
    on_train_start : option (O -> W -> W);
    on_act : option (O -> A -> W -> W);
    on_step : option (gym_state -> W -> bool * W);
    on_train_end : option (W -> W) }.
  Record agent := Agent { act : O -> W -> A * W }.
  (** env.py: reset, step (observation, reward, done, info) and close *)
  Record environment := Env {
    reset : W -> O * W;
    step : A -> W -> (O * R * bool * I) * W;
    close : W -> W }.

  (** What is called during an unroll, with the arguments and results: a ghost log.  Callbacks are
      numbered by their position in the lists of [unpack_callbacks]. *)
  Inductive event :=
  | EReset (o : O)
  | EStart (k : nat) (o : O)
  | EAgent (o : O) (a : A)
  | EAct (k : nat) (o : O) (a : A)
  | EStep (a : A) (o : O) (r : R) (d : bool) (i : I)
  | EOnStep (k : nat) (s : gym_state) (stop : bool)
  | EEnd (k : nat)
  | EClose.

  (** callbacks.py lines 117-122: unpack_callbacks: for each field the callbacks which have it *)
  Definition somes {B : Type} (l : list (option B)) : list B :=
    flat_map (fun o => match o with Some b => [b] | None => [] end) l.
  Definition unpack_callbacks (cbs : list callback) :=
    (somes (map on_train_start cbs), somes (map on_act cbs),
     somes (map on_step cbs), somes (map on_train_end cbs)).

  (** gym_unroll.py lines 56-57 *)
  Fixpoint run_start (k : nat) (cbs : list (O -> W -> W)) (o : O) (w : W) : W * list event :=
    match cbs with
    | [] => (w, [])
    | c :: r => let '(w', l) := run_start (S k) r o (c o w) in (w', EStart k o :: l)
    end.
  (** lines 64-65 *)
  Fixpoint run_act (k : nat) (cbs : list (O -> A -> W -> W)) (o : O) (a : A) (w : W) : W * list event :=
    match cbs with
    | [] => (w, [])
    | c :: r => let '(w', l) := run_act (S k) r o a (c o a w) in (w', EAct k o a :: l)
    end.
  (** lines 74-76: every on_step callback is called, the results are or-ed *)
  Fixpoint run_step (k : nat) (cbs : list (gym_state -> W -> bool * W)) (s : gym_state) (d : bool) (w : W)
    : bool * W * list event :=
    match cbs with
    | [] => (d, w, [])
    | c :: r => let '(step_done, w1) := c s w in
                let '(d', w', l) := run_step (S k) r s (d || step_done) w1 in
                (d', w', EOnStep k s step_done :: l)
    end.
  (** lines 82-83 *)
  Fixpoint run_end (k : nat) (cbs : list (W -> W)) (w : W) : W * list event :=
    match cbs with
    | [] => (w, [])
    | c :: r => let '(w', l) := run_end (S k) r (c w) in (w', EEnd k :: l)
    end.

  (** lines 59-79: the while loop; [None]: more than [fuel] iterations *)
  Fixpoint loop (ag : agent) (env : environment) (on_act_cbs : list (O -> A -> W -> W))
    (on_step_cbs : list (gym_state -> W -> bool * W)) (fuel : nat) (o : O) (w : W)
    : option (gym_state * W * list event) :=
    match fuel with
    | 0 => None
    | S fuel =>
        let '(a, w1) := act ag o w in
        let '(w2, l2) := run_act 0 on_act_cbs o a w1 in
        let '(o', r, d, i, w3) := step env a w2 in
        let gym_state := GymState r o' a d i in
        let '(d', w4, l4) := run_step 0 on_step_cbs gym_state d w3 in
        let l := EAgent o a :: l2 ++ EStep a o' r d i :: l4 in
        if d' then Some (gym_state, w4, l)
        else match loop ag env on_act_cbs on_step_cbs fuel o' w4 with
             | None => None
             | Some (s, w', l') => Some (s, w', l ++ l')
             end
    end.

  (** lines 21-88, given the callbacks returned by local_callbacks *)
  Definition gym_unroll (ag : agent) (env : environment) (o : option O) (cbs : list callback) (fuel : nat)
    (w : W) : option (gym_state * W * list event) :=
    let '(on_train_start_cbs, on_act_cbs, on_step_cbs, on_train_end_cbs) := unpack_callbacks cbs in
    let '(o, w0, l0) := match o with
                        | None => let '(o, w0) := reset env w in (o, w0, [EReset o])
                        | Some o => (o, w, [])
                        end in
    let '(w1, l1) := run_start 0 on_train_start_cbs o w0 in
    match loop ag env on_act_cbs on_step_cbs fuel o w1 with
    | None => None
    | Some (s, w2, l2) =>
        let '(w3, l3) := run_end 0 on_train_end_cbs w2 in
        Some (s, close env w3, l0 ++ l1 ++ l2 ++ l3 ++ [EClose])
    end.

  (** callbacks/stop.py: the callback Stop(stop); [t], [set_t] read and write its attribute _t *)
  Definition stop_callback (t : W -> Z) (set_t : Z -> W -> W) (stop : Z) : callback :=
    Cb None None
      (Some (fun _ w => let t' := (t w + 1)%Z in ((stop <=? t')%Z, set_t t' w)))
      None.

  (** callbacks/record.py lines 82-97: the callback Record; a row is what GymOutput.format returns
      (gym_feedback.py lines 44-50); [rows], [set_rows] read and write the recorded sequence (one row per
      time instead of one list per leaf); [is_none] tells if an action is None *)
  Inductive field := FReward (r : R) | FObs (o : O) | FAction (a : A).
  Definition row : Type := list field.
  Definition format_output (return_obs return_action : bool) (r : R) (o : O) (a : A) : row :=
    [FReward r] ++ (if return_obs then [FObs o] else []) ++ (if return_action then [FAction a] else []).
  Definition record_callback (is_none : A -> bool) (return_obs return_action : bool)
    (rows : W -> list row) (set_rows : list row -> W -> W) : callback :=
    Cb None None
      (Some (fun s w =>
        if done s then (false, w)
        else if is_none (action s) then (false, w)
        else (false, set_rows (rows w ++ [format_output return_obs return_action (rw s) (obs s) (action s)]) w)))
      None.
  (** record.py lines 99-122: get_outputs fails (None is not iterable) when nothing was recorded *)
  Definition get_outputs (rows : W -> list row) (w : W) : option (list row) :=
    match rows w with [] => None | l => Some l end.
End Gym.

(** *** HaikuAgent and HaikuEnv *)
Section Haiku.
  (** [Q] is the state of hk.PRNGSequence and [next_key] its __next__. *)
  Context {Q K P S O A R D I : Type}.
  Variable next_key : Q -> K * Q.

  (** haiku_agent.py lines 29-33: attributes; params and state together are None until initialized *)
  Record agent_obj := AgentObj { a_seq : Q; a_ps : option (P * S) }.
  (** lines 35-37 and 44-49 *)
  Definition agent_call (ag : transformed K P S O A) (o : O) (st : agent_obj) : A * agent_obj :=
    let '(ps, seq) :=
      match a_ps st with
      | Some ps => (ps, a_seq st)
      | None => let '(k, seq) := next_key (a_seq st) in (t_init ag (Some k) o, seq)
      end in
    let '(k, seq) := next_key seq in
    let '(a, s') := t_apply ag (fst ps) (snd ps) (Some k) o in
    (a, AgentObj seq (Some (fst ps, s'))).
  (** lines 39-42 *)
  Definition agent_reset (st : agent_obj) : agent_obj := AgentObj (a_seq st) None.

  (** haiku_env.py lines 39-44: attributes; [None] in [e_ps] is _initialized = False *)
  Record env_obj := EnvObj { e_seq : Q; e_ps : option (P * S); e_data : list (D * I); e_info : I }.
  (** lines 46-49; [None]: StopIteration *)
  Definition env_reset (st : env_obj) : option (D * env_obj) :=
    match e_data st with
    | [] => None
    | (raw_obs, i) :: r => Some (raw_obs, EnvObj (e_seq st) None r i)
    end.
  (** lines 51-72: [None] for the observation of the end, reward [rw0] = 0 *)
  Definition env_step (rw0 : R) (env : transformed K P S (A * D) (R * O)) (a : A) (st : env_obj)
    : (option O * R * bool * I) * env_obj :=
    match e_data st with
    | [] => ((None, rw0, true, e_info st), st)
    | (raw_obs, i) :: r =>
        let '(ps, seq) :=
          match e_ps st with
          | Some ps => (ps, e_seq st)
          | None => let '(k, seq) := next_key (e_seq st) in (t_init env (Some k) (a, raw_obs), seq)
          end in
        let '(k, seq) := next_key seq in
        let '((rw, o), s') := t_apply env (fst ps) (snd ps) (Some k) (a, raw_obs) in
        ((Some o, rw, false, i), EnvObj seq (Some (fst ps, s')) r i)
    end.
End Haiku.

(** The two objects as the agent and the environment of gym_unroll; the rest of the world is [X].
    Raw observations and observations have the same type; the agent is not called on the observation
    None ([a0] is not used); reset on an exhausted generator (StopIteration) is not modelled. *)
Definition haiku_agent {Q K P S O A X T : Type} (next_key : Q -> K * Q) (a0 : A) (ag : transformed K P S O A)
  : @agent (X * (@agent_obj Q P S * T)) (option O) A :=
  Agent (fun o w => match o with
    | Some o => let '(a, st) := agent_call next_key ag o (fst (snd w)) in (a, (fst w, (st, snd (snd w))))
    | None => (a0, w)
    end).
Definition haiku_env {Q K P S O A R I X T : Type} (next_key : Q -> K * Q) (rw0 : R)
  (env : transformed K P S (A * O) (R * O))
  : @environment (X * (T * @env_obj Q P S O I)) (option O) A R I :=
  Env (fun w => match env_reset (snd (snd w)) with
        | Some (d, st) => (Some d, (fst w, (fst (snd w), st)))
        | None => (None, w)
        end)
      (fun a w => let '(x, st) := env_step next_key rw0 env a (snd (snd w)) in
                  (x, (fst w, (fst (snd w), st))))
      (fun w => w).

(** *** Callback scopes: callbacks.py lines 84-177.  A callback is the number of its tuple of functions
    (equality of tuples); [Callback.active] is a set of them. *)
Definition cbset : Type := nat -> bool.
Definition empty : cbset := fun _ => false.
Definition update (s : cbset) (l : list nat) : cbset := fun c => s c || existsb (Nat.eqb c) l.
Definition discard (s : cbset) (l : list nat) : cbset := fun c => s c && negb (existsb (Nat.eqb c) l).

(** Programs which use callbacks.  The body of [Unroll] is what the agent, the environment and the
    callbacks do during the unroll. *)
Inductive prog :=
| Skip
| Seq (p q : prog)
| Raise
| Try (p : prog)                                 (* try: p except: pass *)
| With (cbs : list nat) (p : prog)               (* with add_callbacks(cbs): p *)
| Register (c : nat)
| Unregister (c : nat)
| Unroll (callbacks : option (list nat)) (p : prog).

(** The state after, whether an exception is propagating, and for each unroll, in order of their beginning,
    the callbacks it uses. *)
Fixpoint exec (p : prog) (active : cbset) : cbset * bool * list cbset :=
  match p with
  | Skip => (active, false, [])
  | Seq p q =>
      let '(s1, e1, l1) := exec p active in
      if e1 then (s1, true, l1)
      else let '(s2, e2, l2) := exec q s1 in (s2, e2, l1 ++ l2)
  | Raise => (active, true, [])
  | Try p => let '(s1, _, l1) := exec p active in (s1, false, l1)
  (* add_callbacks: lines 165-177 *)
  | With cbs p =>
      let '(s1, e1, l1) := exec p (update active cbs) in (discard s1 cbs, e1, l1)
  (* lines 109-110 *)
  | Register c => (update active [c], false, [])
  (* lines 112-113: set.remove raises KeyError *)
  | Unregister c => if active c then (discard active [c], false, []) else (active, true, [])
  (* gym_unroll and local_callbacks: lines 125-139 *)
  | Unroll None p =>
      let '(_, e1, l1) := exec p empty in (active, e1, active :: l1)
  | Unroll (Some cbs) p =>
      let '(s1, e1, l1) := exec p active in (s1, e1, update empty cbs :: l1)
  end.
