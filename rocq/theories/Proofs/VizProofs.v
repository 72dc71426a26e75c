(** Proofs for C100 (data flow tracker). *)
From Coq Require Import String List Bool Arith ZArith Lia Reals Lra.
From Verif Require Import Model.FlaxOptim Model.Viz Spec.StreamSpec Spec.VizSpec Proofs.FlaxOptimProofs Proofs.StreamProofs.
From Verif Require Proofs.DebugProofs.
From Verif Require Model.Debug.
Import ListNotations.
Local Open Scope list_scope.

Lemma recorded_snoc start ops : forall k o, recorded start k (ops ++ [o]) = recorded start k ops ++ recorded start (k + length (filter is_step ops)) [o].
Proof.
  induction ops as [|a r IH]; intros k o; [cbn; rewrite Nat.add_0_r; reflexivity|].
  destruct a; cbn [app recorded filter is_step length]; rewrite IH; cbn [app]; try reflexivity.
  rewrite <- Nat.add_assoc. reflexivity.
Qed.

Lemma module_data_record now name ty v md k m :
  module_data m (record_data now name ty v md k) =
  if String.eqb m name then Debug.dq_append (tk_max k) (module_data name k) (Point (now - tk_start k) (tk_steps k) name ty v (value_shape v) md)
  else module_data m k.
Proof. unfold module_data at 1. cbn [record_data tk_modules]. rewrite sget_sset. destruct (String.eqb m name); reflexivity. Qed.

Section Run.
  Variables (max : nat) (i o s : bool) (start : R).
  Let k0 := new_tracker max i o s start.
  Lemma tracker_inv ops : no_clear ops ->
    let k := tracker_run k0 ops in
    tk_max k = max /\ tk_start k = start /\ tk_steps k = length (filter is_step ops) /\
    tk_history k = lastn max (recorded start 0 ops) /\
    (forall m, module_data m k = lastn max (filter (of_module m) (recorded start 0 ops))).
  Proof.
    induction ops as [|a ops IH] using rev_ind; intros NC; [cbn; repeat split|].
    cbv zeta in *. unfold tracker_run in *. rewrite fold_left_app. cbn [fold_left].
    destruct IH as (Hm & Hs & Hk & Hh & Hd); [intros now H; apply (NC now), in_or_app; auto|].
    set (k := fold_left tracker_do ops k0) in *.
    assert (Rec : recorded start 0 (ops ++ [a]) = recorded start 0 ops ++ recorded start (tk_steps k) [a]) by (rewrite recorded_snoc, Hk; reflexivity).
    assert (Cnt : length (filter is_step (ops ++ [a])) = tk_steps k + length (filter is_step [a])) by (rewrite filter_app, app_length, Hk; reflexivity).
    rewrite Rec, Cnt. destruct a as [now name ty v md| |now|name ty].
    - cbn [recorded filter is_step length tracker_do]. rewrite Nat.add_0_r.
      split; [exact Hm|split; [exact Hs|split; [reflexivity|split]]].
      + cbn [record_data tk_history]. rewrite Hh, Hm, DebugProofs.dq_append_lastn, Hs. reflexivity.
      + intros m. rewrite module_data_record, filter_app. cbn [filter]. unfold of_module at 2. cbn [pt_module]. rewrite (String.eqb_sym m name).
        destruct (String.eqb_spec name m) as [->|N]; [|rewrite app_nil_r; apply Hd].
        rewrite Hd, Hm, Hs, DebugProofs.dq_append_lastn. reflexivity.
    - cbn [recorded filter is_step length tracker_do tracker_step tk_max tk_start tk_steps tk_history]. rewrite app_nil_r.
      split; [exact Hm|split; [exact Hs|split; [lia|split; [exact Hh|exact Hd]]]].
    - exfalso. apply (NC now), in_or_app. right. left. reflexivity.
    - cbn [recorded filter is_step length tracker_do]. rewrite app_nil_r, Nat.add_0_r.
      assert (E : snd (get_module_history name ty k) = Tracker (tk_max k) (tk_inputs k) (tk_outputs k) (tk_states k) (tk_history k) (sset name (module_data name k) (tk_modules k)) (tk_steps k) (tk_start k)).
      { unfold get_module_history. destruct ty as [t|]; [destruct (String.eqb t "")|]; reflexivity. }
      rewrite E. cbn [tk_max tk_start tk_steps tk_history].
      split; [exact Hm|split; [exact Hs|split; [reflexivity|split; [exact Hh|]]]].
      intros m. rewrite <- (Hd m). unfold module_data at 1. cbn [tk_modules]. rewrite sget_sset.
      destruct (String.eqb_spec m name) as [->|N]; reflexivity.
  Qed.
End Run.

(** C100 *)
Lemma history_spec max i o s start ops : no_clear ops ->
  tk_history (tracker_run (new_tracker max i o s start) ops) = lastn max (recorded start 0 ops) /\
  tk_steps (tracker_run (new_tracker max i o s start) ops) = length (filter is_step ops).
Proof. intros H. destruct (tracker_inv max i o s start ops H) as (_ & _ & A & B & _). split; assumption. Qed.

Lemma module_history_spec max i o s start ops name ty : no_clear ops ->
  fst (get_module_history name ty (tracker_run (new_tracker max i o s start) ops)) =
  filter (of_type ty) (lastn max (filter (of_module name) (recorded start 0 ops))).
Proof.
  intros H. destruct (tracker_inv max i o s start ops H) as (_ & _ & _ & _ & D). unfold get_module_history.
  set (k := tracker_run _ _) in *. rewrite (D name). set (l := lastn _ _).
  assert (T : filter (of_type None) l = l) by (clear; induction l; cbn; congruence).
  destruct ty as [t|]; [|rewrite T; reflexivity]. unfold of_type.
  destruct (String.eqb t ""); cbn [fst orb]; [|reflexivity]. symmetry. exact T.
Qed.

Lemma lastn_lastn {A} a b (l : list A) : lastn a (lastn b l) = lastn (Nat.min a b) l.
Proof.
  unfold lastn. rewrite skipn_length, skipn_skipn'. destruct (Nat.min_spec a b) as [[H ->]|[H ->]]; f_equal; lia.
Qed.
Lemma from_end_pos {A} n (l : list A) : (0 < n)%Z -> from_end n l = lastn (Z.to_nat n) l.
Proof. intros H. unfold from_end. apply Z.ltb_lt in H. rewrite H. reflexivity. Qed.

Lemma recent_spec max i o s start ops n : no_clear ops -> (0 < n)%Z ->
  get_recent n (tracker_run (new_tracker max i o s start) ops) = lastn (Nat.min (Z.to_nat n) max) (recorded start 0 ops).
Proof.
  intros H P. unfold get_recent. rewrite from_end_pos by exact P. rewrite (proj1 (history_spec _ _ _ _ _ _ H)). apply lastn_lastn.
Qed.
Lemma recent_zero k : get_recent 0 k = tk_history k.
Proof. reflexivity. Qed.

Lemma tracker_const ops : forall k, tk_max (tracker_run k ops) = tk_max k /\ tk_inputs (tracker_run k ops) = tk_inputs k /\
  tk_outputs (tracker_run k ops) = tk_outputs k /\ tk_states (tracker_run k ops) = tk_states k.
Proof.
  induction ops as [|a r IH]; intros k; [repeat split|]. unfold tracker_run in *. cbn [fold_left]. destruct (IH (tracker_do k a)) as (A & B & C & D).
  assert (E : tk_max (tracker_do k a) = tk_max k /\ tk_inputs (tracker_do k a) = tk_inputs k /\
              tk_outputs (tracker_do k a) = tk_outputs k /\ tk_states (tracker_do k a) = tk_states k).
  { destruct a as [| | |name [t|]]; cbn [tracker_do]; try (repeat split; fail); unfold get_module_history; destruct (String.eqb t ""); repeat split. }
  destruct E as (E1 & E2 & E3 & E4). repeat split; congruence.
Qed.
Lemma clear_spec max i o s start ops now : tracker_run (new_tracker max i o s start) (ops ++ [TClear now]) = new_tracker max i o s now.
Proof.
  unfold tracker_run. rewrite fold_left_app. cbn [fold_left tracker_do]. unfold clear_history, new_tracker.
  destruct (tracker_const ops (new_tracker max i o s start)) as (A & B & C & D). unfold tracker_run, new_tracker in *.
  rewrite A, B, C, D. reflexivity.
Qed.

(** the flags are not read *)
Lemma flags_spec max i o s start ops name ty n :
  let k := tracker_run (new_tracker max i o s start) ops in
  let k' := tracker_run (new_tracker max false false false start) ops in
  tk_history k = tk_history k' /\ get_recent n k = get_recent n k' /\ fst (get_module_history name ty k) = fst (get_module_history name ty k').
Proof.
  cbv zeta.
  assert (E : forall ops a b, tk_max a = tk_max b -> tk_history a = tk_history b -> tk_modules a = tk_modules b -> tk_steps a = tk_steps b -> tk_start a = tk_start b ->
            tk_history (tracker_run a ops) = tk_history (tracker_run b ops) /\ tk_modules (tracker_run a ops) = tk_modules (tracker_run b ops)).
  { clear. induction ops as [|x r IH]; intros a b E1 E2 E3 E4 E5; [split; assumption|]. unfold tracker_run in *. cbn [fold_left].
    apply IH; destruct x as [| | |nm [t|]]; cbn [tracker_do record_data tracker_step clear_history tk_max tk_history tk_modules tk_steps tk_start];
      unfold get_module_history, module_data; try (destruct (String.eqb t ""));
      cbn [snd tk_max tk_history tk_modules tk_steps tk_start]; rewrite ?E1, ?E2, ?E3, ?E4, ?E5; try reflexivity; try assumption. }
  destruct (E ops (new_tracker max i o s start) (new_tracker max false false false start)) as (H1 & H2); try reflexivity.
  split; [exact H1|split]; [unfold get_recent; rewrite H1; reflexivity|].
  unfold get_module_history, module_data. rewrite H2. destruct ty as [t|]; [destruct (String.eqb t "")|]; reflexivity.
Qed.

(** a module's points outlive the common history *)
Lemma filter_none {A} (f : A -> bool) l : (forall x, In x l -> f x = false) -> filter f l = [].
Proof. induction l as [|a r IH]; intros H; [reflexivity|]. cbn. rewrite H by (left; reflexivity). apply IH. intros x I. apply H. right. exact I. Qed.
Lemma in_lastn {A} n (l : list A) x : In x (lastn n l) -> In x l.
Proof. unfold lastn. intros H. rewrite <- (firstn_skipn (length l - n) l). apply in_or_app. auto. Qed.
Lemma module_outlives max i o s start a b name k : no_clear (a ++ b) -> k = length (filter is_step a) ->
  length (filter (of_module name) (recorded start 0 a)) <= max ->
  (forall p, In p (recorded start k b) -> pt_module p <> name) -> max <= length (recorded start k b) ->
  let t := tracker_run (new_tracker max i o s start) (a ++ b) in
  fst (get_module_history name None t) = filter (of_module name) (recorded start 0 a) /\
  filter (of_module name) (tk_history t) = [].
Proof.
  intros NC -> L O M. cbv zeta.
  assert (R : recorded start 0 (a ++ b) = recorded start 0 a ++ recorded start (length (filter is_step a)) b).
  { clear. assert (G : forall k, recorded start k (a ++ b) = recorded start k a ++ recorded start (k + length (filter is_step a)) b).
    { induction a as [|x r IH]; intros k; [cbn; rewrite Nat.add_0_r; reflexivity|].
      destruct x; cbn [app recorded filter is_step length]; rewrite IH; try reflexivity. rewrite <- Nat.add_assoc. reflexivity. }
    apply G. }
  assert (F : filter (of_module name) (recorded start (length (filter is_step a)) b) = []).
  { apply filter_none. intros p I. unfold of_module. apply String.eqb_neq. exact (O p I). }
  split.
  - rewrite module_history_spec by exact NC. rewrite R, filter_app, F, app_nil_r, DebugProofs.lastn_all by exact L.
    clear. induction (filter (of_module name) (recorded start 0 a)); cbn; congruence.
  - rewrite (proj1 (history_spec _ _ _ _ _ _ NC)), R, lastn_app by exact M.
    apply filter_none. intros p I. apply in_lastn in I. unfold of_module. apply String.eqb_neq. exact (O p I).
Qed.

(** grouping *)
Lemma group_spec {B} (f : point -> option B) m l :
  sget m (group_points f l) =
  match flat_map (fun p => if of_module m p then match f p with Some b => [b] | None => [] end else []) l with [] => None | x => Some x end.
Proof.
  unfold group_points. induction l as [|p l IH] using rev_ind; [reflexivity|].
  rewrite fold_left_app, flat_map_app. cbn [fold_left flat_map]. rewrite app_nil_r. set (d := fold_left _ l []) in *.
  unfold of_module at 2. destruct (f p) as [b|].
  - rewrite sget_sset, String.eqb_sym. destruct (String.eqb_spec (pt_module p) m) as [E|N].
    + subst m. rewrite IH. set (x := flat_map _ l). destruct x as [|y r]; reflexivity.
    + rewrite app_nil_r. exact IH.
  - destruct (String.eqb (pt_module p) m); rewrite app_nil_r; exact IH.
Qed.

(** flow rates *)
Lemma flow_rates_spec l t r : In (t, r) (flow_rates l) <->
  exists before p w q x after, l = before ++ p :: w ++ q :: x :: after /\ length w = 8 /\
    (pt_time p < pt_time q)%R /\ t = pt_time q /\ r = (10 / (pt_time q - pt_time p))%R.
Proof.
  unfold flow_rates. rewrite in_flat_map. split.
  - intros (i & Hi & H). apply in_seq in Hi.
    assert (L : length (firstn 10 (skipn (i - 10) l)) = 10) by (rewrite firstn_length, skipn_length; lia).
    destruct (firstn 10 (skipn (i - 10) l)) as [|p w] eqn:E; [destruct H|].
    cbv zeta in H. destruct (@exists_last _ w) as (w' & q & ->); [intros ->; discriminate|].
    rewrite last_last in H. destruct (Rlt_dec 0 (pt_time q - pt_time p)) as [P|P]; [|destruct H].
    destruct H as [H|[]]. rewrite L in H. assert (Ht : t = pt_time q) by congruence. assert (Hr : r = (INR 10 / (pt_time q - pt_time p))%R) by congruence. clear H. subst t r.
    assert (SK : skipn (i - 10) l = (p :: w' ++ [q]) ++ skipn i l).
    { rewrite <- E. rewrite <- (firstn_skipn 10 (skipn (i - 10) l)) at 1. rewrite skipn_skipn'. f_equal. f_equal. lia. }
    assert (NE : skipn i l <> []) by (intros Z; apply (f_equal (@length _)) in Z; rewrite skipn_length in Z; cbn in Z; lia).
    destruct (skipn i l) as [|x after] eqn:Ex; [congruence|].
    exists (firstn (i - 10) l), p, w', q, x, after. split; [|split; [|split; [|split]]].
    + rewrite <- (firstn_skipn (i - 10) l) at 1. rewrite SK. cbn [app]. rewrite <- app_assoc. reflexivity.
    + cbn [length] in L. rewrite app_length in L. cbn [length] in L. lia.
    + lra.
    + reflexivity.
    + replace (INR 10) with 10%R; [reflexivity|]. cbn. lra.
  - intros (before & p & w & q & x & after & -> & L & P & -> & ->).
    exists (length before + 10). split.
    + apply in_seq. rewrite app_length. cbn [length]. rewrite app_length. cbn [length]. lia.
    + replace (length before + 10 - 10) with (length before) by lia.
      rewrite skipn_app, skipn_all, Nat.sub_diag. cbn [skipn app].
      replace (firstn 10 (p :: w ++ q :: x :: after)) with (p :: w ++ [q]).
      2:{ replace 10 with (length (p :: w ++ [q])) by (cbn [length]; rewrite app_length; cbn [length]; lia).
          replace (p :: w ++ q :: x :: after) with ((p :: w ++ [q]) ++ x :: after) by (cbn [app]; rewrite <- app_assoc; reflexivity).
          rewrite firstn_app, firstn_all, Nat.sub_diag. cbn [firstn]. rewrite app_nil_r. reflexivity. }
      cbv zeta. rewrite last_last. destruct (Rlt_dec 0 (pt_time q - pt_time p)) as [_|N]; [|lra]. left. f_equal.
      replace (INR (length (p :: w ++ [q]))) with 10%R; [reflexivity|]. cbn [length]. rewrite app_length, L. cbn. lra.
Qed.
(** points [d] seconds apart are shown at 10/9 of their rate *)
Lemma flow_rates_regular l d t r : (0 < d)%R -> (forall i p, nth_error l i = Some p -> pt_time p = (INR i * d)%R) ->
  In (t, r) (flow_rates l) -> r = (10 / 9 * (1 / d))%R.
Proof.
  intros D E H. apply flow_rates_spec in H. destruct H as (b & p & w & q & x & a & -> & L & P & -> & ->).
  assert (Ep : pt_time p = (INR (length b) * d)%R) by (apply E; rewrite nth_error_app2, Nat.sub_diag by lia; reflexivity).
  assert (Eq : pt_time q = (INR (length b + 9) * d)%R).
  { apply E. rewrite nth_error_app2 by lia. replace (length b + 9 - length b) with 9 by lia. change (nth_error (w ++ q :: x :: a) 8 = Some q).
    rewrite nth_error_app2 by lia. replace (8 - length w) with 0 by lia. reflexivity. }
  rewrite Ep, Eq, plus_INR. replace (INR 9) with 9%R by (cbn; lra). field. lra.
Qed.

(** animation *)
Lemma refill_eq l k : length l <= tk_max k -> refill l k = with_history l k.
Proof.
  intros H. unfold refill. f_equal.
  assert (G : forall l : list point, fold_left (Debug.dq_append (tk_max k)) l [] = lastn (tk_max k) l).
  { clear. intros l. induction l as [|x l IH] using rev_ind; [reflexivity|]. rewrite fold_left_app. cbn [fold_left]. rewrite IH. apply DebugProofs.dq_append_lastn. }
  rewrite G. apply DebugProofs.lastn_all. exact H.
Qed.
Lemma filter_len {A} (f : A -> bool) l : length (filter f l) <= length l.
Proof. induction l as [|a r IH]; [auto|]. cbn. destruct (f a); cbn; lia. Qed.
Lemma with_history_same k : with_history (tk_history k) k = k.
Proof. destruct k; reflexivity. Qed.
Lemma history_bound max i o s start ops : length (tk_history (tracker_run (new_tracker max i o s start) ops)) <= max.
Proof.
  assert (G : forall ops k, length (tk_history k) <= tk_max k -> length (tk_history (tracker_run k ops)) <= tk_max k).
  { clear. induction ops as [|a r IH]; intros k H; [exact H|]. unfold tracker_run in *. cbn [fold_left].
    assert (E : tk_max (tracker_do k a) = tk_max k) by (apply (tracker_const [a] k)). rewrite <- E. apply IH. rewrite E.
    destruct a as [| | |name [t|]]; cbn [tracker_do record_data tracker_step clear_history tk_history]; try lia.
    - unfold Debug.dq_append. rewrite skipn_length. lia.
    - cbn. lia.
    - unfold get_module_history. destruct (String.eqb t ""); exact H.
    - exact H. }
  apply (G ops (new_tracker max i o s start)). cbn. lia.
Qed.
Lemma leb_div a b c : 0 < c -> Nat.leb a (b / c) = Nat.leb (a * c) b.
Proof.
  intros H. destruct (Nat.leb_spec (a * c) b) as [L|L].
  - apply Nat.leb_le. apply Nat.div_le_lower_bound; lia.
  - apply Nat.leb_gt. apply Nat.div_lt_upper_bound; lia.
Qed.
Lemma animate_shown mp draw frames frame k : 0 < frames -> (0 < mp)%Z -> length (tk_history k) <= tk_max k ->
  fst (animate mp draw frames frame k) =
  lastn (Z.to_nat mp) (filter (fun p => Nat.leb (pt_step p * frames) (frame * max_step (tk_history k))) (tk_history k)).
Proof.
  intros F M H. unfold animate. cbn [fst]. rewrite refill_eq by (pose proof (filter_len (fun p => Nat.leb (pt_step p) (frame * max_step (tk_history k) / frames)) (tk_history k)); lia).
  unfold get_recent. rewrite from_end_pos by exact M. cbn [with_history tk_history]. f_equal. apply filter_ext. intros p. apply leb_div. exact F.
Qed.
Lemma animate_restores mp draw frames frame k : length (tk_history k) <= tk_max k ->
  (forall l, draw l = true) -> snd (animate mp draw frames frame k) = k.
Proof.
  intros H D. unfold animate. cbn [snd]. rewrite D. rewrite refill_eq by (cbn [refill with_history tk_max]; exact H).
  unfold refill, with_history. cbn. destruct k; reflexivity.
Qed.
Lemma max_step_ge l p : In p l -> pt_step p <= max_step l.
Proof. unfold max_step. induction l as [|a r IH]; intros []; cbn [map fold_right]; [subst; lia|]. specialize (IH H). lia. Qed.
Lemma max_step_in l : l <> [] -> exists p, In p l /\ pt_step p = max_step l.
Proof.
  unfold max_step. induction l as [|a r IH]; [congruence|]. intros _. destruct r as [|b r].
  - exists a. split; [left; reflexivity|]. cbn. lia.
  - destruct (IH ltac:(discriminate)) as (p & I & E). cbn [map fold_right] in *. destruct (Nat.max_spec (pt_step a) (Nat.max (pt_step b) (fold_right Nat.max 0 (map pt_step r)))) as [[_ ->]|[_ ->]].
    + exists p. split; [right; exact I|exact E].
    + exists a. split; [left; reflexivity|reflexivity].
Qed.
Lemma last_step_max l n : last_step l n <-> max_step l = n.
Proof.
  destruct l as [|a r]; [cbn; split; congruence|]. set (l := a :: r). assert (Hl : l <> []) by discriminate.
  change (last_step l n) with ((exists p, In p l /\ pt_step p = n) /\ forall p, In p l -> pt_step p <= n).
  destruct (max_step_in l Hl) as (q & Iq & Eq). split.
  - intros [(p & I & E) H]. specialize (H q Iq). pose proof (max_step_ge l p I). lia.
  - intros <-. split; [exists q; auto|]. intros p I. apply max_step_ge. exact I.
Qed.
Lemma animate_last_missing mp draw frames frame k p : frame < frames -> (0 < mp)%Z -> length (tk_history k) <= tk_max k ->
  0 < max_step (tk_history k) -> In p (fst (animate mp draw frames frame k)) -> pt_step p < max_step (tk_history k).
Proof.
  intros F M H S I. rewrite animate_shown in I by (try assumption; lia). apply in_lastn, filter_In in I. destruct I as [I L].
  apply Nat.leb_le in L. pose proof (max_step_ge _ _ I). nia.
Qed.
Lemma animate_fails mp draw frames frame k : 0 < frames -> length (tk_history k) <= tk_max k ->
  (forall l, draw l = false) -> tk_history (snd (animate mp draw frames frame k)) =
  filter (fun p => Nat.leb (pt_step p * frames) (frame * max_step (tk_history k))) (tk_history k).
Proof.
  intros F H D. unfold animate. cbn [snd]. rewrite D.
  rewrite refill_eq by (pose proof (filter_len (fun p => Nat.leb (pt_step p) (frame * max_step (tk_history k) / frames)) (tk_history k)); lia).
  cbn [with_history tk_history]. apply filter_ext. intros p. apply leb_div. exact F.
Qed.

(** shapes, sizes and values *)
Lemma in_skipn {A} n (l : list A) x : In x (skipn n l) -> In x l.
Proof. intros H. rewrite <- (firstn_skipn n l). apply in_or_app. auto. Qed.
Lemma history_shapes max i o s start ops p : In p (tk_history (tracker_run (new_tracker max i o s start) ops)) -> has_shape (pt_value p) (pt_shape p).
Proof.
  assert (G : forall ops k, (forall p, In p (tk_history k) -> has_shape (pt_value p) (pt_shape p)) ->
            forall p, In p (tk_history (tracker_run k ops)) -> has_shape (pt_value p) (pt_shape p)).
  { clear. induction ops as [|a r IH]; intros k H; [exact H|]. unfold tracker_run in *. cbn [fold_left]. apply IH.
    destruct a as [now name ty v md| |now|name [t|]]; cbn [tracker_do record_data tracker_step clear_history tk_history]; try exact H.
    - intros p I. unfold Debug.dq_append in I. apply in_skipn in I. apply in_app_or in I. destruct I as [I|[<-|[]]]; [exact (H p I)|].
      cbn. destruct v; constructor.
    - intros p [].
    - unfold get_module_history. destruct (String.eqb t ""); exact H. }
  apply G. intros q [].
Qed.
Lemma size_spec p : exists k, size_point p = Some (pt_step p, k) /\ has_size (pt_shape p) k.
Proof. unfold size_point. eexists. split; [reflexivity|]. induction (pt_shape p); cbn; constructor; assumption. Qed.
Lemma scalar_spec p n x : scalar_point p = Some (n, x) <-> n = pt_step p /\ is_number (pt_value p) x.
Proof.
  unfold scalar_point, is_number. destruct (pt_value p) as [sh [|y [|z l]]|m|y|nm]; try destruct sh; split; intros H;
    try discriminate; try (destruct H as [_ [H|H]]; discriminate).
  - injection H as -> ->. auto.
  - destruct H as [-> [H|H]]; [discriminate|injection H as ->; reflexivity].
  - injection H as -> ->. auto.
  - destruct H as [-> [H|H]]; [injection H as ->; reflexivity|discriminate].
Qed.
