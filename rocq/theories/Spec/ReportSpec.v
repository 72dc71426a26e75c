(** Vocabulary for summaries and reports (C152-C153). *)
From Coq Require Import String List Bool Arith Reals Permutation Sorted.
From Verif Require Model.Debug.
From Verif Require Import Model.Reports.
Import ListNotations.
Local Open Scope list_scope.

Definition total (l : list R) : R := fold_right Rplus 0%R l.
Definition is_max (m : R) (l : list R) : Prop := In m l /\ forall x, In x l -> (x <= m)%R.
Definition is_min (m : R) (l : list R) : Prop := In m l /\ forall x, In x l -> (m <= x)%R.
Definition is_average (m : R) (l : list R) : Prop := (m * INR (length l) = total l)%R.
(** The middle of the values in order: of an even number of them, the mean of the two in the middle. *)
Definition is_median (m : R) (l : list R) : Prop :=
  exists s, Permutation l s /\ StronglySorted Rle s /\
    ((exists a b, s = a ++ m :: b /\ length a = length b) \/
     (exists a x y b, s = a ++ x :: y :: b /\ length a = length b /\ m = ((x + y) / 2)%R)).
(** The sample deviation, 0 for a single value. *)
Definition is_deviation (d : R) (l : list R) : Prop :=
  (0 <= d)%R /\ (length l <= 1 -> d = 0%R) /\
  (2 <= length l -> exists m, is_average m l /\ (Rsqr d * (INR (length l) - 1) = total (map (fun x => Rsqr (x - m)) l))%R).
(** The sum of the rises of successive readings, starting from [prev]. *)
Fixpoint rises (prev : R) (l : list R) : R :=
  match l with [] => 0%R | x :: r => (Rmax 0 (x - prev) + rises x r)%R end.

Definition is_section (l : report_line) : Prop := match l with LSection _ => True | _ => False end.

(** What a report shows under a label, in the order of its lines. *)
Definition shown (k : string) (rep : list report_line) : list R :=
  flat_map (fun l => match l with LReal k' x => if String.eqb k k' then [x] else [] | _ => [] end) rep.
Definition counted (k : string) (rep : list report_line) : list nat :=
  flat_map (fun l => match l with LCount k' n => if String.eqb k k' then [n] else [] | _ => [] end) rep.
Definition sections (rep : list report_line) : list section :=
  flat_map (fun l => match l with LSection s => [s] | _ => [] end) rep.
Definition numbered (rep : list report_line) : list (nat * Debug.advice) :=
  flat_map (fun l => match l with LAdvice i a => [(i, a)] | _ => [] end) rep.
Definition m_shown (k : string) (rep : list memory_line) : list R :=
  flat_map (fun l => match l with MReal k' x => if String.eqb k k' then [x] else [] | _ => [] end) rep.
Definition m_counted (k : string) (rep : list memory_line) : list nat :=
  flat_map (fun l => match l with MCount k' n => if String.eqb k k' then [n] else [] | _ => [] end) rep.
(** The leaks described one by one: kind, MB lost, rate, first and last step. *)
Definition described (rep : list memory_line) : list (Debug.leak_type * R * R * nat * nat) :=
  flat_map (fun l => match l with MLeak t x r a b => [(t, x, r, a, b)] | _ => [] end) rep.
Definition describe (l : Debug.leak) : Debug.leak_type * R * R * nat * nat :=
  (Debug.l_type l, Debug.l_total l, Debug.l_rate l, Debug.l_first l, Debug.l_last l).
(** A value is the average of counts. *)
Definition is_count_average (m : R) (l : list nat) : Prop := (m * INR (length l) = INR (list_sum l))%R.
