(** Property theorems C142: merged streams whose times are in any order. *)
From Coq Require Import ZArith List.
From Verif Require Import Model.Stream Spec.StreamSpec Spec.AnyOrderSpec Proofs.AnyOrderProofs.
Import ListNotations.

(** C142: with no hypothesis on the order of any stream, the item at position [j] shows the part of each secondary stream
    in front of its first observation at or after the furthest local time so far. *)
Theorem C142_any_order :
  forall {V : Type} (local : list (@obs V)) secs items j o outs i cfg g,
  merge local secs = Some items -> nth_error items j = Some (o, outs) -> nth_error secs i = Some (cfg, g) ->
  exists T rd, furthest (embed cfg) (firstn (S j) (tl local)) T /\ delivered T g rd /\
    (ffill cfg = true -> nth_error outs i = Some (shown cfg rd)) /\
    (ffill cfg = false -> exists old new, rd = old ++ new /\
       match j with
       | 0 => old = []
       | S k => exists T', furthest (embed cfg) (firstn (S k) (tl local)) T' /\ delivered T' g old
       end /\
       nth_error outs i = Some (shown cfg (match new with [] => [] | _ => rd end))).
Proof. exact @any_order. Qed.
Print Assumptions C142_any_order.

(** C142: an observation hides everything behind it until a local time passes it, however old what it hides is. *)
Theorem C142_blocked :
  forall {V : Type} (local : list (@obs V)) secs items j o outs i cfg a b c out t v,
  merge local secs = Some items -> nth_error items j = Some (o, outs) -> nth_error secs i = Some (cfg, a ++ b :: c) ->
  (forall x, In x (firstn (S j) (tl local)) -> (embed cfg (fst x) <= fst b)%Z) ->
  nth_error outs i = Some out -> In (Some t, v) (cells out) -> In (t, v) a.
Proof. exact @blocked. Qed.
Print Assumptions C142_blocked.

(** C142 (refuted): out of order, the value shown is not the latest one of the past: here at time 20 an observation of time 5
    waits behind one of time 25, and one of time 1 is shown. *)
Theorem C142_latest_past_refuted :
  exists items, merge [(0, 0); (10, 1); (20, 2); (30, 3)]%Z
    [(SecCfg (fun t => t) true None (-1)%Z, [(1, 100); (25, 200); (5, 300); (26, 400)]%Z)] = Some items /\
  map snd items = [[One (Some 1, 100)]; [One (Some 1, 100)]; [One (Some 26, 400)]]%Z /\
  strictly_before 20%Z [(1, 100); (25, 200); (5, 300); (26, 400)]%Z = [(1, 100); (5, 300)]%Z.
Proof. exact hidden_example. Qed.
Print Assumptions C142_latest_past_refuted.

(** C142 (refuted): the times shown may go backwards although the local times increase. *)
Theorem C142_times_increase_refuted :
  exists items, merge [(0, 0); (10, 1); (20, 2)]%Z
    [(SecCfg (fun t => t) true None (-1)%Z, [(8, 100); (12, 150); (5, 300)]%Z)] = Some items /\
  map snd items = [[One (Some 8, 100)]; [One (Some 5, 300)]]%Z.
Proof. exact backwards_example. Qed.
Print Assumptions C142_times_increase_refuted.

Example C142_example :
  furthest (fun t => t) [(10, 1); (7, 2)]%Z 10%Z /\ delivered 10%Z [(8, 100); (12, 150); (5, 300)]%Z [(8, 100)]%Z /\
  exists items, merge [(0, 0); (10, 1); (7, 2)]%Z
    [(SecCfg (fun t => t) false (Some 2) (-1)%Z, [(8, 100); (12, 150); (5, 300)]%Z)] = Some items /\
  map snd items = [[Win [(None, -1); (Some 8, 100)]]; [Win [(None, -1); (None, -1)]]]%Z.
Proof.
  split; [split; [cbn; auto|repeat constructor; cbn; discriminate]|]. split.
  - exists [(12, 150); (5, 300)]%Z. split; [reflexivity|]. split; [repeat constructor|]. cbn. discriminate.
  - eexists. split; reflexivity.
Qed.
