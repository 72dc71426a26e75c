(** Model of /repo/src/wax/gym/callbacks/progressbar.py and of the bar it drives.
    Simplification: of a tqdm bar only the total, the count and whether it is closed are kept; display is not modelled. *)
From Coq Require Import List Bool.
From Verif Require Import Model.Gym.
Import ListNotations.

(** tqdm: [tqdm(total)] starts at 0; [update()] adds 1 and does nothing on a closed bar (close sets [disable]). *)
Record tqdm := Tqdm { b_total : option nat; b_n : nat; b_closed : bool }.
Definition tqdm_new (total : option nat) : tqdm := Tqdm total 0 false.
Definition tqdm_update (b : tqdm) : tqdm := if b_closed b then b else Tqdm (b_total b) (b_n b + 1) false.
Definition tqdm_close (b : tqdm) : tqdm := Tqdm (b_total b) (b_n b) true.

(** progressbar.py lines 6-9: the attribute _pbar; [p_error] is a ghost set when a method raises. *)
Record pbar_obj := Pbar { p_bar : option tqdm; p_error : bool }.
Definition pbar_new : pbar_obj := Pbar None false.

(** lines 14-19; [len] is len(env), [None] when it raises TypeError (no __len__, or haiku_env.py lines 74-75
    returning None) *)
Definition pbar_start (len : option nat) (p : pbar_obj) : pbar_obj :=
  match p_bar p with
  | None => Pbar (Some (tqdm_new len)) (p_error p)
  | Some _ => p
  end.
(** lines 21-22: AttributeError on None *)
Definition pbar_step (p : pbar_obj) : pbar_obj :=
  match p_bar p with
  | None => Pbar None true
  | Some b => Pbar (Some (tqdm_update b)) (p_error p)
  end.
(** lines 24-26 *)
Definition pbar_end (p : pbar_obj) : pbar_obj :=
  match p_bar p with
  | None => p
  | Some b => Pbar (Some (tqdm_close b)) (p_error p)
  end.

(** The callback: on_step returns None (false); [get], [set] read and write the object, [len] is len(env). *)
Definition progress_bar {W O A R I : Type} (get : W -> pbar_obj) (set : pbar_obj -> W -> W) (len : W -> option nat)
  : @callback W O A R I :=
  Cb (Some (fun _ w => set (pbar_start (len w) (get w)) w)) None
     (Some (fun _ w => (false, set (pbar_step (get w)) w)))
     (Some (fun w => set (pbar_end (get w)) w)).

(** lines 11-12: __enter__ returns nothing: the target of [with ProgressBar() as bar] is None, the one of
    [with cb as c] (callbacks.py lines 98-101) is the callback. *)
Inductive target := TNone | TSelf.
Definition callback_enter : target := TSelf.
Definition progress_enter : target := TNone.
