(** Independent vocabulary for C82-C86: what a session of the debugger shows, which observed steps a
    condition accepts, how a caller drives an apply function, and the runs of profiler and tracker. *)
From Coq Require Import String List Bool Arith Reals.
From Verif Require Import Model.Float Model.FlaxOptim Model.Debug.
Import ListNotations.
Local Open Scope list_scope.

(** Two parameter trees with the same nesting and the same keys, in the same order, whose leaves correspond. *)
Inductive leafwise {A B : Type} (R : A -> B -> Prop) : ptree A -> ptree B -> Prop :=
  | leafwise_leaf a b : R a b -> leafwise R (PLeaf a) (PLeaf b)
  | leafwise_dict kas kbs :
      Forall2 (fun ka kb => fst ka = fst kb /\ leafwise R (snd ka) (snd kb)) kas kbs -> leafwise R (PDict kas) (PDict kbs).

Section Sessions.
  Context {S I O M H : Type}.

  (** One step seen by a debugger: its number, all the execution times on record by then (this step's
      included), and what was passed. *)
  Record obs := Obs { ob_step : nat; ob_times : list R; ob_module : string; ob_state : S; ob_in : I; ob_out : O;
                      ob_time : option R }.
  Inductive item := Seen (x : obs) | Cleared.

  (** The steps a debugger sees in a session, and the clear_history calls between them: steps made while
      it is disabled are not seen and not numbered; clearing forgets the times, not the numbering. *)
  Fixpoint seen (track_perf on : bool) (n : nat) (ts : list R) (ops : list (op S I O M)) : list item :=
    match ops with
    | [] => []
    | OStep name s i o t :: r =>
        if on then
          let ts' := match t with Some x => if track_perf then ts ++ [x] else ts | None => ts end in
          Seen (Obs (n + 1) ts' name s i o t) :: seen track_perf on (n + 1) ts' r
        else seen track_perf on n ts r
    | OClear :: r => Cleared :: seen track_perf on n [] r
    | OEnable :: r => seen track_perf true n ts r
    | ODisable :: r => seen track_perf false n ts r
    | OAdd _ _ :: r | ORemove _ :: r => seen track_perf on n ts r
    end.

  (** those after the last clear_history *)
  Fixpoint since_clear_from (acc : list obs) (l : list item) : list obs :=
    match l with
    | [] => acc
    | Seen x :: r => since_clear_from (acc ++ [x]) r
    | Cleared :: r => since_clear_from [] r
    end.
  Definition since_clear (l : list item) : list obs := since_clear_from [] l.
  Definition count_seen (l : list item) : nat :=
    length (filter (fun x => match x with Seen _ => true | Cleared => false end) l).

  (** the observed steps a condition accepts, its own memory running through all of them; a condition that
      raises does not accept *)
  Fixpoint accepted (c : condition S I O M) (m : M) (l : list item) : list item :=
    match l with
    | [] => []
    | Cleared :: r => Cleared :: accepted c m r
    | Seen x :: r =>
        let '(b, m') := c m (ob_times x) (ob_step x) (ob_state x) (ob_in x) (ob_out x) in
        match b with
        | Some true => Seen x :: accepted c m' r
        | _ => accepted c m' r
        end
    end.

  (** the event a hook stores for an accepted step *)
  Definition event_of (breakpoint : bool) (x : obs) : event S I O :=
    Event (ob_step x) breakpoint (ob_module x) (ob_state x) (ob_in x) (ob_out x)
      (match ob_time x with Some t => if Req_EM_T t 0 then None else Some (t * 1000)%R | None => None end).

  (** sessions that leave the hook [k] in place *)
  Definition keeps (k : string) (a : op S I O M) : Prop :=
    match a with OAdd k' _ => k' <> k | ORemove k' => k' <> k | _ => True end.
  Definition step_only (a : op S I O M) : Prop := match a with OStep _ _ _ _ _ => True | _ => False end.
End Sessions.
Arguments obs : clear implicits. Arguments item : clear implicits.

(** the last index before [t] at which [fired] is true, or 0 *)
Fixpoint last_fired (fired : list bool) (t : nat) : nat :=
  match t with
  | 0 => 0
  | S u => if nth u fired false then u else last_fired fired u
  end.
(** Euclidean distance *)
Fixpoint sq_dist (x y : list R) : R :=
  match x, y with a :: x', b :: y' => ((a - b) * (a - b) + sq_dist x' y')%R | _, _ => 0%R end.
Definition dist (x y : list R) : R := sqrt (sq_dist x y).

(** A vector of length 1 repeated to the length [n]; any other vector as it is. *)
Definition spread (n : nat) (x : list R) : list R := match x with [a] => repeat a n | _ => x end.
(** Is it a step whose state has the field? *)
Definition has_field {I O M : Type} (field : string) (a : op (list (string * list fl)) I O M) : bool :=
  match a with OStep _ s _ _ _ => match sget field s with Some _ => true | None => false end | _ => true end.

(** A caller calls an apply function on one argument after the other, threading the state, until it raises. *)
Section Drive.
  Context {O S W X : Type}.
  Variable call : S -> X -> W -> option (result O S) * W.
  Fixpoint drive (s : S) (w : W) (xs : list X) : list (result O S) * S * W :=
    match xs with
    | [] => ([], s, w)
    | x :: r =>
        match call s x w with
        | (None, w') => ([], s, w')
        | (Some res, w') =>
            let s' := match res with RPair _ s1 => s1 | ROther _ => s end in
            let '(l, s2, w2) := drive s' w' r in (res :: l, s2, w2)
        end
    end.
End Drive.

(** A sequence of take_snapshot calls: module, state, force, memory. *)
Definition call_mem : Type := string * option (ptree nat) * bool * R.
Fixpoint snapshots_run (t : tracker) (calls : list call_mem) : option tracker :=
  match calls with
  | [] => Some t
  | (name, st, force, mem) :: r =>
      match take_snapshot name st force mem t with
      | None => None
      | Some (_, t') => snapshots_run t' r
      end
  end.
(** the calls (with their number) at which a snapshot is due *)
Fixpoint due (interval n : nat) (calls : list call_mem) : list (nat * call_mem) :=
  match calls with
  | [] => []
  | c :: r => let '(_, _, force, _) := c in
              (if force || (Nat.modulo (n + 1) interval =? 0) then [(n + 1, c)] else []) ++ due interval (n + 1) r
  end.
Definition steady (name : string) (mem : nat -> R) (n : nat) : list call_mem :=
  map (fun i => (name, None, false, mem i)) (seq 1 n).

(** all bytes of the leaves below a dictionary *)
Definition dict_bytes (kvs : list (string * ptree nat)) : nat := list_sum (map (fun kv => tree_bytes (snd kv)) kvs).

(** What a decorated function reports to the debugger: one step per call that returned, with the state it
    returned (or the old one when it returned no pair). *)
Section Reported.
  Context {K A O S M : Type}.
  Fixpoint reported (name : string) (s : S) (xs : list (K * A * option R)) (l : list (result O S)) : list (op S A O M) :=
    match xs, l with
    | (k, a, t) :: xs', RPair o s' :: l' => OStep name s' a o t :: reported name s' xs' l'
    | (k, a, t) :: xs', ROther o :: l' => OStep name s a o t :: reported name s xs' l'
    | _, _ => []
    end.
End Reported.

(** A sequence of record_metrics calls: module, time, input and output bytes, jit, memory. *)
Record rec_call := Rec { q_module : string; q_time : R; q_in : nat; q_out : nat; q_jit : bool; q_mem : R }.
(** the metrics they make, numbered from [n], the memory before being [last] *)
Fixpoint metrics_of (track_mem : bool) (n : nat) (last : R) (l : list rec_call) : list metric :=
  match l with
  | [] => []
  | q :: r => Metric n (q_module q) (q_time q) (if track_mem then q_mem q else 0%R)
                (if track_mem then (q_mem q - last)%R else 0%R) (q_jit q) (q_in q) (q_out q)
              :: metrics_of track_mem (n + 1) (q_mem q) r
  end.
(** 0, t1, 0, t2, ... *)
Definition with_zeros (ts : list R) : list R := flat_map (fun t => [0%R; t]) ts.

(** The snapshots taken at the due calls, [prev] being the memory at the previous one. *)
Fixpoint snaps_of (prev : option R) (l : list (nat * call_mem)) : list snapshot :=
  match l with
  | [] => []
  | (n, (name, st, _, mem)) :: r =>
      let '(sv, pv, bv) := analyze_state_memory st in
      Snap n name mem 0 sv pv bv (match prev with Some m => (mem - m)%R | None => 0%R end) 0 :: snaps_of (Some mem) r
  end.

(** record_metrics with the sizes given as bytes *)
Definition record_q (p : profiler) (q : rec_call) : profiler :=
  record_metrics (q_module q) (q_time q) (DArr (q_in q)) (DArr (q_out q)) (q_jit q) (q_mem q) p.
Definition times_of (k : string) (l : list rec_call) : list R := map q_time (filter (fun q => String.eqb (q_module q) k) l).
Definition opt_list {A} (o : option (list A)) : list A := match o with Some l => l | None => [] end.

(** the size of a piece of data is the sum over its arrays, numbers and strings *)
Fixpoint data_leaves (d : pdata) : list nat :=
  match d with
  | DNone | DOther => []
  | DArr n => [n] | DNum => [8] | DStr n => [n]
  | DSeq l => flat_map data_leaves l
  | DDict l => flat_map (fun kv => data_leaves (snd kv)) l
  end.

(** A session of a function decorated with profile_streaming. *)
Section Profiled.
  Context {P K A O S : Type}.
  Variable apply : P -> S -> K -> A -> option (result O S).
  Variables (arg_data : A -> pdata) (result_data : result O S -> pdata).
  (** the two records of each call that returned *)
  Fixpoint two_records (name : string) (detailed : bool) (xs : list (K * A * (R * R * R))) (l : list (result O S)) : list rec_call :=
    match xs, l with
    | (k, a, (t, m1, m2)) :: xs', r :: l' =>
        Rec name 0 (if detailed then data_size (arg_data a) else 0) (if detailed then data_size (result_data r) else 0) false m1
        :: Rec name t 0 0 false m2 :: two_records name detailed xs' l'
    | _, _ => []
    end.
  Variables (name : string) (detailed : bool) (p : P) (s : S) (xs : list (K * A * (R * R * R))).
  Variables (track_mem : bool) (bott leak : R) (mx : nat).
  (** the session: [xs] gives for each call its arguments, its measured time and the two memory readings *)
  Definition profiled : list (result O S) * S * profiler :=
    drive (fun s x pr => profile_apply apply arg_data result_data name detailed (fst (fst (snd x))) (snd (fst (snd x))) (snd (snd x))
                              p s (fst (fst x)) (snd (fst x)) pr) s (new_profiler track_mem bott leak mx) xs.
  Definition call_times : list R := map (fun x => fst (fst (snd x))) xs.
End Profiled.
(** A session of a function decorated with track_memory_usage. *)
Section Tracked.
  Context {K A O S : Type}.
  Variable state_data : S -> ptree nat.
  (** the two take_snapshot calls around each call that returned *)
  Fixpoint two_calls (name : string) (detailed : bool) (xs : list (K * A * (R * R))) (l : list (result O S)) : list call_mem :=
    match xs, l with
    | (k, a, (m1, m2)) :: xs', r :: l' =>
        (name, None, false, m1) ::
        (name, match detailed, r with true, RPair _ s' => Some (state_data s') | _, _ => None end, false, m2) :: two_calls name detailed xs' l'
    | _, _ => []
    end.
End Tracked.

Definition snap0 : snapshot := Snap 0 "" 0 0 0 0 0 0 0.

(** the number value_threshold looks at, when there is one *)
Definition reading (field : string) (i : inp) : option fl :=
  match i with
  | INum x => Some x
  | IDict kvs => if String.eqb field "" then None
                 else match sget field kvs with Some (INum x) => Some x | Some _ => None | None => Some (Fin 0) end
  | IOther => None
  end.

(** The sum of the squared distances between the values, at the abscissas i, i + 1, ..., and the line a + b x. *)
Fixpoint squared_errors (a b : R) (i : nat) (ys : list R) : R :=
  match ys with
  | [] => 0%R
  | y :: r => (Rsqr (y - (a + b * INR i)) + squared_errors a b (Datatypes.S i) r)%R
  end.

(** The bytes of the arrays below a nested dictionary (whose leaves are their sizes), and in megabytes. *)
Fixpoint nbytes (t : ptree nat) : nat :=
  match t with
  | PLeaf n => n
  | PDict kvs => list_sum (map (fun kv => nbytes (snd kv)) kvs)
  end.
Definition megabytes (bytes : nat) : R := (INR bytes / (1024 * 1024))%R.
