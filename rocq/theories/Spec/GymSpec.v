(** Vocabulary of the properties of the gym loop (C46, C47, C59). *)
From Coq Require Import List Bool.
From Verif Require Import Model.Unroll Model.Gym.
Import ListNotations.

Section Log.
  Context {O A R I : Type}.
  Local Notation event := (@event O A R I).
  Local Notation gym_state := (@gym_state O A R I).

  (** One iteration: the observation given to the agent, the state reported, the answers of the on_step
      callbacks. *)
  Record iteration := Iter { seen : O; state : gym_state; answers : list bool }.
  (** What is called in an iteration, [na] being the number of on_act callbacks: the agent, each on_act
      callback, the environment, each on_step callback. *)
  Definition iteration_log (na : nat) (it : iteration) : list event :=
    EAgent (seen it) (action (state it)) ::
    map (fun k => EAct k (seen it) (action (state it))) (seq 0 na) ++
    EStep (action (state it)) (obs (state it)) (rw (state it)) (done (state it)) (info (state it)) ::
    map (fun ka => EOnStep (fst ka) (state it) (snd ka)) (combine (seq 0 (length (answers it))) (answers it)).
  (** The iteration ends the loop: the environment is done or a callback asks to stop. *)
  Definition final (it : iteration) : bool := done (state it) || existsb (fun b => b) (answers it).
  (** The iterations of a loop which begins with the observation [o]: each one begins with the
      observation of the previous one; exactly the last one is final. *)
  Fixpoint chained (o : O) (its : list iteration) : Prop :=
    match its with
    | [] => False
    | it :: r => seen it = o /\
        match r with [] => final it = true | _ => final it = false /\ chained (obs (state it)) r end
    end.

  (** What is called during an unroll with the initial observation [o] (argument [obs]; obtained from
      reset when it is not given), the numbers of callbacks of each sort being given: every
      on_train_start callback once, the iterations, every on_train_end callback once, close. *)
  Definition run_log (given : bool) (o : O) (n_start n_act n_end : nat) (its : list iteration) : list event :=
    (if given then [] else [EReset o]) ++
    map (fun k => EStart k o) (seq 0 n_start) ++
    flat_map (iteration_log n_act) its ++
    map EEnd (seq 0 n_end) ++ [EClose].
End Log.
(** The number of callbacks which have a field. *)
Definition count_some {B : Type} (l : list (option B)) : nat :=
  length (filter (fun o => match o with Some _ => true | None => false end) l).

(** The objects of an unroll other than the callbacks [cbs] do not change the part [get] of the world. *)
Definition untouched {W O A R I T : Type} (get : W -> T) (ag : @agent W O A) (env : @environment W O A R I) : Prop :=
  (forall w, get (snd (reset env w)) = get w) /\ (forall w, get (close env w) = get w) /\
  (forall o w, get (snd (act ag o w)) = get w) /\ (forall a w, get (snd (step env a w)) = get w).
Definition callbacks_leave {W O A R I T : Type} (get : W -> T) (cbs : list (@callback W O A R I)) : Prop :=
  forall c, In c cbs ->
    (forall f o w, on_train_start c = Some f -> get (f o w) = get w) /\
    (forall f o a w, on_act c = Some f -> get (f o a w) = get w) /\
    (forall f s w, on_step c = Some f -> get (snd (f s w)) = get w) /\
    (forall f w, on_train_end c = Some f -> get (f w) = get w).

(** The [n] first keys of a sequence of keys. *)
Fixpoint take_keys {Q K : Type} (next_key : Q -> K * Q) (q : Q) (n : nat) : list K :=
  match n with 0 => [] | S n => let '(k, q') := next_key q in k :: take_keys next_key q' n end.

(** Programs without register and unregister: scopes only. *)
Fixpoint scoped (p : prog) : Prop :=
  match p with
  | Skip | Raise => True
  | Seq p q => scoped p /\ scoped q
  | Try p | With _ p | Unroll _ p => scoped p
  | Register _ | Unregister _ => False
  end.
(** No [with] installs a callback which is installed already, [active] being installed at the
    beginning. *)
Fixpoint no_reinstall (active : nat -> Prop) (p : prog) : Prop :=
  match p with
  | Skip | Raise | Register _ | Unregister _ => True
  | Seq p q => no_reinstall active p /\ no_reinstall active q
  | Try p => no_reinstall active p
  | With cbs p => (forall c, In c cbs -> ~ active c) /\ no_reinstall (fun c => active c \/ In c cbs) p
  | Unroll None p => no_reinstall (fun _ => False) p
  | Unroll (Some _) p => no_reinstall active p
  end.

(** The callbacks a program mentions. *)
Fixpoint mentions (p : prog) (c : nat) : Prop :=
  match p with
  | Skip | Raise | Unregister _ => False
  | Seq p q => mentions p c \/ mentions q c
  | Try p => mentions p c
  | With cbs p => In c cbs \/ mentions p c
  | Register c' => c = c'
  | Unroll cbs p => match cbs with Some cbs => In c cbs | None => False end \/ mentions p c
  end.

(** Successive calls of an agent object; successive steps of an environment object. *)
Fixpoint agent_calls {Q K P S O A : Type} (next_key : Q -> K * Q) (ag : transformed K P S O A)
  (os : list O) (st : @agent_obj Q P S) : list A * @agent_obj Q P S :=
  match os with
  | [] => ([], st)
  | o :: r => let '(a, st1) := agent_call next_key ag o st in
              let '(as_, st2) := agent_calls next_key ag r st1 in (a :: as_, st2)
  end.
Fixpoint env_steps {Q K P S O A R D I : Type} (next_key : Q -> K * Q) (rw0 : R)
  (env : transformed K P S (A * D) (R * O)) (as_ : list A) (st : @env_obj Q P S D I)
  : list (option O * R * bool * I) * @env_obj Q P S D I :=
  match as_ with
  | [] => ([], st)
  | a :: r => let '(x, st1) := env_step next_key rw0 env a st in
              let '(xs, st2) := env_steps next_key rw0 env r st1 in (x :: xs, st2)
  end.

(** A recorded row: the reward, then the observation if asked for, then the action if asked for. *)
Definition recorded_row {O A R : Type} (return_obs return_action : bool) (r : R) (o : O) (a : A) : list (@field O A R) :=
  match return_obs, return_action with
  | false, false => [FReward r]
  | true, false => [FReward r; FObs o]
  | false, true => [FReward r; FAction a]
  | true, true => [FReward r; FObs o; FAction a]
  end.
