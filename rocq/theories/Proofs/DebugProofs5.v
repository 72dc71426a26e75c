(** Proofs for C86 (memory tracker). *)
From Coq Require Import String List Bool Arith Lia ZArith Reals Lra.
From Verif Require Import Model.Float Model.FlaxOptim Spec.StreamSpec Spec.DebugSpec
  Proofs.FloatFacts Proofs.FlaxOptimProofs Proofs.StreamProofs Proofs.DebugProofs Proofs.DebugProofs2 Proofs.DebugProofs3 Proofs.DebugProofs4.
From Verif Require Import Model.Debug.
Import ListNotations.
Local Open Scope list_scope.

Lemma flat_map_ext_in {A B} (f g : A -> list B) l : (forall x, In x l -> f x = g x) -> flat_map f l = flat_map g l.
Proof. induction l as [|x l IH]; intros H; [reflexivity|]. cbn [flat_map]. rewrite (H x) by now left. rewrite IH; [reflexivity|]. intros. apply H. now right. Qed.
Definition leaks_of (interval : nat) (thr : R) (mx : nat) (snaps : list snapshot) : list leak :=
  flat_map (fun j => check_for_leaks interval thr (lastn mx (firstn j snaps))) (seq 1 (length snaps)).
Lemma leaks_of_snoc i thr mx l x : leaks_of i thr mx (l ++ [x]) = leaks_of i thr mx l ++ check_for_leaks i thr (lastn mx (l ++ [x])).
Proof.
  unfold leaks_of. rewrite app_length. cbn [length]. rewrite Nat.add_1_r, seq_S, flat_map_app. cbn [flat_map plus]. rewrite app_nil_r. f_equal.
  - apply flat_map_ext_in. intros j Hj. apply in_seq in Hj. rewrite firstn_app. replace (j - length l) with 0 by lia. cbn [firstn].
    now rewrite app_nil_r.
  - f_equal. f_equal. rewrite <- (firstn_all (l ++ [x])) at 2. f_equal. rewrite app_length. cbn. lia.
Qed.
Lemma tracker_run : forall calls (t : tracker) (acc : list snapshot),
  t_interval t <> 0 -> t_enabled t = true -> t_arrays t = [] ->
  t_snaps t = lastn (t_max t) acc -> t_leaks t = leaks_of (t_interval t) (t_thr t) (t_max t) acc ->
  match t_last t with Some s => s_arrays s = 0 | None => True end ->
  let l := acc ++ snaps_of (option_map s_mem (t_last t)) (due (t_interval t) (t_steps t) calls) in
  exists t', snapshots_run t calls = Some t' /\ t_steps t' = t_steps t + length calls /\
    t_snaps t' = lastn (t_max t) l /\ t_leaks t' = leaks_of (t_interval t) (t_thr t) (t_max t) l.
Proof.
  induction calls as [|[[[name st] force] mem] calls IH]; intros t acc HI HE HA HS HL HZ; cbn zeta.
  - exists t. cbn. rewrite app_nil_r. repeat split; try assumption; lia.
  - cbn [snapshots_run due]. unfold take_snapshot. rewrite HE.
    assert (HI' := HI). apply Nat.eqb_neq in HI'. rewrite HI'.
    set (n := t_steps t + 1) in *.
    set (dl := match option_map s_mem (t_last t) with Some m => (mem - m)%R | None => 0%R end).
    assert (ED : match t_last t with
            | Some l => ((mem - s_mem l)%R, (Z.of_nat (length (@nil nat)) - Z.of_nat (s_arrays l))%Z)
            | None => (0%R, 0%Z) end = (dl, 0%Z)).
    { unfold dl. destruct (t_last t) as [l0|]; [cbn [option_map length]; rewrite HZ; reflexivity|reflexivity]. }
    rewrite HA. cbv zeta. rewrite ED.
    assert (TAKE : forall sv pv bv, analyze_state_memory st = (sv, pv, bv) ->
       exists t', snapshots_run (Track (t_interval t) (t_thr t) (t_max t) (dq_append (t_max t) (t_snaps t) (Snap n name mem (length (@nil nat)) sv pv bv dl 0))
                  (t_leaks t ++ check_for_leaks (t_interval t) (t_thr t) (dq_append (t_max t) (t_snaps t) (Snap n name mem (length (@nil nat)) sv pv bv dl 0)))
                  [] n (t_enabled t) (Some (Snap n name mem (length (@nil nat)) sv pv bv dl 0)) (dd_append name mem (t_module_mem t))
                  (dd_append name sv (t_state_mem t))) calls = Some t' /\
           t_steps t' = t_steps t + length (((name, st, force, mem) : call_mem) :: calls) /\
           t_snaps t' = lastn (t_max t) (acc ++ snaps_of (option_map s_mem (t_last t)) ([(n, (name, st, force, mem))] ++ due (t_interval t) n calls)) /\
           t_leaks t' = leaks_of (t_interval t) (t_thr t) (t_max t) (acc ++ snaps_of (option_map s_mem (t_last t)) ([(n, (name, st, force, mem))] ++ due (t_interval t) n calls))).
    { intros sv pv bv EA. cbn [app snaps_of]. rewrite EA. fold dl. cbn [length].
      set (sn := Snap n name mem 0 sv pv bv dl 0).
      rewrite HS, dq_append_lastn.
      match goal with |- context [snapshots_run ?t2 calls] => specialize (IH t2 (acc ++ [sn])) end.
      cbn [t_interval t_enabled t_arrays t_snaps t_leaks t_last t_thr t_max t_steps option_map s_mem] in IH.
      cbv zeta in IH.
      destruct (IH HI HE eq_refl eq_refl ltac:(rewrite HL, leaks_of_snoc; reflexivity) eq_refl) as (t' & A & B & C & D).
      - exists t'. split; [exact A|]. split; [rewrite B; cbn [length]; unfold n; lia|].
        rewrite <- app_assoc in C, D. cbn [app] in C, D. split; [exact C|exact D]. }
    destruct (analyze_state_memory st) as [[sv pv] bv] eqn:EA. specialize (TAKE sv pv bv eq_refl).
    destruct force; cbn [orb].
    + rewrite HE in TAKE. exact TAKE.
    + destruct (n mod t_interval t =? 0).
      * rewrite HE in TAKE. exact TAKE.
      * cbn [app]. match goal with |- context [snapshots_run ?t2 calls] => specialize (IH t2 acc) end.
        cbn [t_interval t_enabled t_arrays t_snaps t_leaks t_last t_thr t_max t_steps] in IH.
        cbv zeta in IH. destruct (IH HI eq_refl eq_refl HS HL HZ) as (t' & A & B & C & D).
        exists t'. split; [exact A|]. split; [rewrite B; cbn [length]; unfold n; lia|]. split; assumption.
Qed.
(** C86: the snapshots kept and the leaks recorded *)
Lemma tracker_exact (interval : nat) (thr : R) (mx : nat) (calls : list call_mem) :
  interval <> 0 ->
  let l := snaps_of None (due interval 0 calls) in
  exists t, snapshots_run (new_tracker interval thr mx) calls = Some t /\
    t_steps t = length calls /\ t_snaps t = lastn mx l /\
    t_leaks t = flat_map (fun j => check_for_leaks interval thr (lastn mx (firstn j l))) (seq 1 (length l)).
Proof.
  intros HI. cbn zeta.
  destruct (tracker_run calls (new_tracker interval thr mx) [] HI eq_refl eq_refl eq_refl eq_refl Logic.I) as (t & A & B & C & D).
  exists t. split; [exact A|]. split; [exact B|]. split; [exact C|exact D].
Qed.
Lemma snaps_of_length prev l : length (snaps_of prev l) = length l.
Proof. revert prev. induction l as [|[n [[[name st] f] mem]] l IH]; intros prev; [reflexivity|]. cbn [snaps_of]. destruct (analyze_state_memory st) as [[sv pv] bv]. cbn [length]. now rewrite IH. Qed.
Lemma due_steady interval n0 : forall calls, Forall (fun c : call_mem => let '(_, _, f, _) := c in f = false) calls ->
  map fst (due interval n0 calls) = filter (fun j => j mod interval =? 0) (seq (n0 + 1) (length calls)).
Proof.
  intros calls HF. revert n0. induction HF as [|[[[nm st] f] mem] l Hf HF IH]; intros n0; [reflexivity|].
  cbn [due length seq filter]. subst f. cbn [orb]. replace (S (n0 + 1)) with (n0 + 1 + 1) by lia.
  destruct ((n0 + 1) mod interval =? 0); cbn [app map fst]; rewrite IH; reflexivity.
Qed.
Lemma snaps_steps prev l : map s_step (snaps_of prev l) = map fst l.
Proof. revert prev. induction l as [|[n [[[name st] f] mem]] l IH]; intros prev; [reflexivity|]. cbn [snaps_of]. destruct (analyze_state_memory st) as [[sv pv] bv]. cbn [map fst s_step]. now rewrite IH. Qed.
(** C86: without force, one snapshot every [interval] calls *)
Lemma tracker_schedule (interval : nat) (thr : R) (mx : nat) (calls : list call_mem) :
  interval <> 0 -> Forall (fun c : call_mem => let '(_, _, force, _) := c in force = false) calls ->
  exists t, snapshots_run (new_tracker interval thr mx) calls = Some t /\
    map s_step (t_snaps t) = lastn mx (map (fun j => j * interval) (seq 1 (length calls / interval))).
Proof.
  intros HI HF. destruct (tracker_exact interval thr mx calls HI) as (t & A & _ & C & _). cbn zeta in C.
  exists t. split; [exact A|]. rewrite C, <- lastn_map, snaps_steps, due_steady, multiples by assumption. reflexivity.
Qed.

(** *** leak detection *)
Lemma snaps_arrays prev l : Forall (fun s => s_arrays s = 0) (snaps_of prev l).
Proof. revert prev. induction l as [|[n [[[name st] f] mem]] l IH]; intros prev; cbn [snaps_of]; [constructor|]. destruct (analyze_state_memory st) as [[sv pv] bv]. constructor; [reflexivity|apply IH]. Qed.
Lemma Forall_skipn {A} (P : A -> Prop) n l : Forall P l -> Forall P (skipn n l).
Proof. intros H. rewrite <- (firstn_skipn n) in H. apply Forall_app in H. tauto. Qed.
Lemma Forall_firstn {A} (P : A -> Prop) n l : Forall P l -> Forall P (firstn n l).
Proof. intros H. rewrite <- (firstn_skipn n) in H. apply Forall_app in H. tauto. Qed.

(** one check: at most one leak, of growing memory *)
Lemma check_exact interval thr snaps lk : Forall (fun s => s_arrays s = 0) snaps ->
  In lk (check_for_leaks interval thr snaps) <->
  5 <= length snaps /\
  let w := lastn 10 snaps in
  let total := (s_mem (last w snap0) - s_mem (hd snap0 w))%R in
  exists slope, slope_of (map s_mem w) = Some slope /\ (thr / 100 < slope * INR interval)%R /\ (thr < total)%R /\
    lk = Leak GrowingMemory (severity_of total) (slope * INR interval) total (s_step (hd snap0 w)) (s_step (last w snap0)).
Proof.
  intros HA. unfold check_for_leaks. destruct (length snaps <? 5) eqn:E.
  - apply Nat.ltb_lt in E. split; [intros []|]. intros [H _]. lia.
  - apply Nat.ltb_ge in E. fold (lastn 10 snaps). fold snap0.
    set (w := lastn 10 snaps) in *. cbv zeta.
    assert (HW : 5 <= length w) by (unfold w; rewrite lastn_length; lia).
    assert (HF : Forall (fun s => s_arrays s = 0) w) by (unfold w, lastn; now apply Forall_skipn).
    assert (E1 : nth 0 w snap0 = hd snap0 w) by (destruct w; reflexivity).
    assert (E2 : nth (length w - 1) w snap0 = last w snap0).
    { clear -HW. destruct (@exists_last _ w) as (q & x & ->); [destruct w; [cbn in HW; lia|discriminate]|].
      rewrite last_last, app_length. cbn [length]. rewrite app_nth2 by lia. replace (length q + 1 - 1 - length q) with 0 by lia. reflexivity. }
    assert (Z1 : s_arrays (nth 0 w snap0) = 0) by (rewrite Forall_forall in HF; apply HF; apply nth_In; lia).
    assert (Z2 : s_arrays (nth (length w - 1) w snap0) = 0) by (rewrite Forall_forall in HF; apply HF; apply nth_In; lia).
    rewrite Z1, Z2, E1, E2.
    replace (3 <=? length w) with true by (symmetry; apply Nat.leb_le; lia).
    change (100 <? Z.of_nat 0 - Z.of_nat 0)%Z with false. cbv iota. rewrite app_nil_r.
    set (total := (s_mem (last w snap0) - s_mem (hd snap0 w))%R).
    destruct (slope_of (map s_mem w)) as [slope|].
    + destruct (Rlt_b (thr / 100) (slope * INR interval)) eqn:B1.
      * destruct (Rlt_b thr total) eqn:B2.
        -- split.
           ++ intros [<-|[]]. split; [exact E|]. exists slope. split; [reflexivity|]. apply Rlt_b_iff in B1, B2. repeat split; assumption.
           ++ intros (_ & sl & HS & _ & _ & ->). injection HS; intros <-. now left.
        -- split; [intros []|]. intros (_ & sl & HS & _ & HT & _). apply Rlt_b_iff in HT. congruence.
      * split; [intros []|]. intros (_ & sl & HS & HR & _). injection HS; intros <-. apply Rlt_b_iff in HR. congruence.
    + split; [intros []|]. intros (_ & sl & HS & _). discriminate.
Qed.
Lemma due_snaps_lastn_arrays mx j l : Forall (fun s => s_arrays s = 0) (lastn mx (firstn j (snaps_of None l))).
Proof. unfold lastn. apply Forall_skipn, Forall_firstn, snaps_arrays. Qed.

(** C86: every reported leak is a growth of its window above the threshold *)
Lemma leak_sound (interval : nat) (thr : R) (mx : nat) (calls : list call_mem) (t : tracker) lk : interval <> 0 ->
  snapshots_run (new_tracker interval thr mx) calls = Some t -> In lk (t_leaks t) ->
  exists l a w b l', snaps_of None (due interval 0 calls) = l ++ (a :: w ++ [b]) ++ l' /\
    3 <= length w <= 8 /\
    l_type lk = GrowingMemory /\ l_total lk = (s_mem b - s_mem a)%R /\ (thr < l_total lk)%R /\
    l_first lk = s_step a /\ l_last lk = s_step b.
Proof.
  intros HI HR HL. destruct (tracker_exact interval thr mx calls HI) as (t' & A & _ & _ & D). cbn zeta in D.
  assert (t' = t) by congruence. subst t'. rewrite D in HL. apply in_flat_map in HL. destruct HL as (j & Hj & HL).
  apply check_exact in HL; [|apply due_snaps_lastn_arrays]. cbn zeta in HL. destruct HL as (H5 & slope & _ & _ & HT & ->).
  set (S0 := snaps_of None (due interval 0 calls)) in *.
  set (W := lastn 10 (lastn mx (firstn j S0))) in *.
  assert (HW : 5 <= length W <= 10) by (unfold W; rewrite lastn_length; lia).
  assert (EW : exists pre, firstn j S0 = pre ++ W).
  { unfold W, lastn. set (q := firstn j S0). set (r := skipn (length q - mx) q).
    exists (firstn (length q - mx) q ++ firstn (length r - 10) r). rewrite <- app_assoc, firstn_skipn. unfold r. now rewrite firstn_skipn. }
  destruct EW as [pre EW].
  destruct W as [|a W']; [cbn in HW; lia|].
  destruct (@exists_last _ W') as (w & b & ->); [destruct W'; [cbn in HW; lia|discriminate]|].
  exists pre, a, w, b, (skipn j S0).
  assert (EL : last (a :: w ++ [b]) snap0 = b) by (rewrite app_comm_cons; apply last_last).
  rewrite EL in *. cbn [hd] in *. cbn [l_type l_total l_first l_last length] in *. rewrite app_length in HW. cbn [length] in HW.
  split; [|repeat split; try assumption; lia].
  rewrite app_assoc. rewrite <- EW. symmetry. apply firstn_skipn.
Qed.
(** no leak when the memory never grows *)
Lemma no_leak_nonincreasing (interval : nat) (thr : R) (mx : nat) (calls : list call_mem) (t : tracker) : interval <> 0 -> (0 <= thr)%R ->
  (forall i j : nat, i < j -> j < length calls ->
     (snd (nth j calls (""%string, None, false, 0%R)) <= snd (nth i calls (""%string, None, false, 0%R)))%R) ->
  snapshots_run (new_tracker interval thr mx) calls = Some t -> t_leaks t = [].
Proof.
  intros HI HT HM HR. destruct (t_leaks t) as [|lk r] eqn:E; [reflexivity|]. exfalso.
  destruct (leak_sound interval thr mx calls t lk HI HR) as (l & a & w & b & l' & EQ & _ & _ & ET & HG & _ & _); [rewrite E; now left|].
  assert (G : forall calls n prev, let s := snaps_of prev (due interval n calls) in
     forall i, i < length s -> exists c, c < length calls /\ s_mem (nth i s snap0) = snd (nth c calls (""%string, None, false, 0%R)) /\ s_step (nth i s snap0) = n + c + 1).
  { clear. intros calls. induction calls as [|[[[nm st] f] mem] calls IH]; intros n prev; cbn zeta; [cbn; intros; lia|].
    cbn [due]. destruct (f || ((n + 1) mod interval =? 0)); cbn [app].
    - cbn [snaps_of]. destruct (analyze_state_memory st) as [[sv pv] bv]. intros [|i] Hi.
      + exists 0. cbn. repeat split; lia || reflexivity.
      + cbn [length] in Hi. destruct (IH (n + 1) (Some mem) i ltac:(cbn zeta; lia)) as (c & C1 & C2 & C3). cbn zeta in *.
        exists (Datatypes.S c). cbn [nth length]. split; [lia|]. split; [exact C2|]. rewrite C3. lia.
    - intros i Hi. destruct (IH (n + 1) prev i Hi) as (c & C1 & C2 & C3). exists (Datatypes.S c). cbn [nth length].
      split; [lia|]. split; [exact C2|]. cbn zeta in *. rewrite C3. lia. }
  assert (ST : forall i j, i < j -> j < length (snaps_of None (due interval 0 calls)) ->
     s_step (nth i (snaps_of None (due interval 0 calls)) snap0) < s_step (nth j (snaps_of None (due interval 0 calls)) snap0)).
  { assert (G2 : forall calls n prev, let s := snaps_of prev (due interval n calls) in
       forall i j, i < j -> j < length s -> s_step (nth i s snap0) < s_step (nth j s snap0)).
    { clear -G. intros calls. induction calls as [|[[[nm st] f] mem] calls IH]; intros n prev; cbn zeta; [cbn; intros; lia|].
      cbn [due]. destruct (f || ((n + 1) mod interval =? 0)); cbn [app]; [|apply IH].
      cbn [snaps_of]. destruct (analyze_state_memory st) as [[sv pv] bv]. intros [|i] [|j] Hij Hj; try lia.
      - cbn [nth s_step]. cbn [length] in Hj. destruct (G calls (n + 1) (Some mem) j ltac:(cbn zeta; lia)) as (c & C1 & C2 & C3). cbn zeta in C3. rewrite C3. lia.
      - cbn [nth]. apply IH; cbn zeta; cbn [length] in Hj; lia. }
    intros. now apply G2. }
  set (S0 := snaps_of None (due interval 0 calls)) in *.
  assert (HA : nth (length l) S0 snap0 = a) by (rewrite EQ, app_nth2, Nat.sub_diag by lia; reflexivity).
  assert (HB : nth (length l + length w + 1) S0 snap0 = b).
  { rewrite EQ, app_nth2 by lia. replace (length l + length w + 1 - length l) with (Datatypes.S (length w)) by lia.
    cbn [app nth]. rewrite <- app_assoc, app_nth2, Nat.sub_diag by lia. reflexivity. }
  assert (HLen : length l + length w + 1 < length S0) by (rewrite EQ; repeat (rewrite app_length; cbn [length]); lia).
  destruct (G calls 0 None (length l) ltac:(fold S0; cbn zeta; lia)) as (c1 & C1 & C2 & C3).
  destruct (G calls 0 None (length l + length w + 1) HLen) as (c2 & D1 & D2 & D3). cbn zeta in *. fold S0 in C2, C3, D2, D3.
  rewrite HA in C2, C3. rewrite HB in D2, D3.
  pose proof (ST (length l) (length l + length w + 1) ltac:(lia) HLen) as HS. rewrite HA, HB in HS.
  pose proof (HM c1 c2 ltac:(lia) D1). lra.
Qed.
(** fewer than five kept snapshots: nothing is ever detected *)
Lemma no_leak_small (interval : nat) (thr : R) (mx : nat) (calls : list call_mem) (t : tracker) : interval <> 0 -> mx < 5 ->
  snapshots_run (new_tracker interval thr mx) calls = Some t -> t_leaks t = [].
Proof.
  intros HI HM HR. destruct (tracker_exact interval thr mx calls HI) as (t' & A & _ & _ & D). cbn zeta in D.
  assert (t' = t) by congruence. subst t'. rewrite D.
  match goal with |- flat_map _ ?s = _ => generalize s end. intros s. induction s as [|j s IH]; [reflexivity|]. cbn [flat_map]. rewrite IH, app_nil_r.
  unfold check_for_leaks. rewrite lastn_length. replace (Nat.min mx _ <? 5) with true by (symmetry; apply Nat.ltb_lt; lia). reflexivity.
Qed.

(** *** the slope of linear data *)
Lemma sumR_map_lin a b (xs : list R) : sumR (map (fun x => (a + b * x)%R) xs) = (INR (length xs) * a + b * sumR xs)%R.
Proof. unfold sumR. induction xs as [|x xs IH]; [cbn; lra|]. cbn [map fold_right length]. rewrite IH, S_INR. lra. Qed.
Lemma combine_map_r {A B} (f : A -> B) l : combine l (map f l) = map (fun x => (x, f x)) l.
Proof. induction l as [|x l IH]; [reflexivity|]. cbn. now rewrite IH. Qed.
Lemma slope_linear a b n : 2 <= n -> slope_of (map (fun i => (a + b * INR i)%R) (seq 0 n)) = Some b.
Proof.
  intros Hn. unfold slope_of. rewrite map_length, seq_length.
  set (xs := map INR (seq 0 n)). rewrite <- (map_map INR (fun x => (a + b * x)%R)). fold xs.
  assert (HL : length xs = n) by (unfold xs; rewrite map_length, seq_length; reflexivity).
  assert (HN : (0 < INR n)%R) by (apply lt_0_INR; lia).
  rewrite sumR_map_lin, HL. set (xm := (sumR xs / INR n)%R).
  replace ((INR n * a + b * sumR xs) / INR n)%R with (a + b * xm)%R by (unfold xm; field; lra).
  rewrite combine_map_r, map_map. cbn [fst snd].
  erewrite (map_ext (fun x => ((x - xm) * (a + b * x - (a + b * xm)))%R)) by (intros x; instantiate (1 := fun x => (0 + b * Rsqr (x - xm))%R); unfold Rsqr; cbv beta; ring).
  rewrite <- (map_map (fun x => Rsqr (x - xm)) (fun y => (0 + b * y)%R)), sumR_map_lin, map_length.
  set (den := sumR (map (fun x => Rsqr (x - xm)) xs)).
  assert (HD : (0 < den)%R).
  { unfold den. unfold xs. destruct n as [|[|n]]; try lia. cbn [seq map]. unfold sumR. cbn [fold_right INR].
    assert (0 <= fold_right Rplus 0 (map (fun x => Rsqr (x - xm)) (map INR (seq 2 n))))%R.
    { apply sum_nonneg. intros y Hy. apply in_map_iff in Hy. destruct Hy as (z & <- & _). apply Rle_0_sqr. }
    assert (0 < Rsqr (0 - xm) + Rsqr (1 - xm))%R; [|lra]. unfold Rsqr. nra. }
  rewrite Rlt_b_true by exact HD. f_equal. field. lra.
Qed.

(** *** steady growth *)
Lemma firstn_map' {A B} (f : A -> B) n l : firstn n (map f l) = map f (firstn n l).
Proof. revert l; induction n as [|n IH]; intros [|x l]; cbn; [reflexivity..|]. now rewrite IH. Qed.
Lemma skipn_seq n a m : skipn n (seq a m) = seq (a + n) (m - n).
Proof. revert a m. induction n as [|n IH]; intros a [|m]; cbn [skipn seq]; rewrite ?Nat.add_0_r, ?Nat.sub_0_r; try reflexivity. rewrite IH. cbn. f_equal. lia. Qed.
Lemma firstn_seq n a m : n <= m -> firstn n (seq a m) = seq a n.
Proof. revert a m. induction n as [|n IH]; intros a m H; [reflexivity|]. destruct m; [lia|]. cbn. rewrite IH by lia. reflexivity. Qed.

Lemma due_steady_mem interval name f : forall n n0,
  map (fun x => let '(i, (_, _, _, m)) := x in (i, m)) (due interval n0 (map (fun i => (name, None, false, f i)) (seq (n0 + 1) n))) =
  map (fun i => (i, f i)) (filter (fun j => j mod interval =? 0) (seq (n0 + 1) n)).
Proof.
  induction n as [|n IH]; intros n0; [reflexivity|]. cbn [seq map due orb filter].
  replace (Datatypes.S (n0 + 1)) with (n0 + 1 + 1) by lia.
  destruct ((n0 + 1) mod interval =? 0); cbn [app map]; rewrite IH; reflexivity.
Qed.
Lemma snaps_mem_step prev l : map (fun s => (s_step s, s_mem s)) (snaps_of prev l) = map (fun x => let '(i, (_, _, _, m)) := x in (i, m)) l.
Proof. revert prev. induction l as [|[n [[[name st] f] mem]] l IH]; intros prev; [reflexivity|]. cbn [snaps_of]. destruct (analyze_state_memory st) as [[sv pv] bv]. cbn [map s_step s_mem]. now rewrite IH. Qed.

Section Steady.
  Variables (interval : nat) (thr : R) (mx n : nat) (name : string) (a b : R).
  Hypothesis HI : interval <> 0.
  Hypothesis HX : 10 <= mx.
  Let S0 := snaps_of None (due interval 0 (steady name (fun i => (a + b * INR i)%R) n)).
  Lemma steady_snaps : map (fun s => (s_step s, s_mem s)) S0 =
    map (fun j => (j * interval, (a + b * INR (j * interval))%R)) (seq 1 (n / interval)).
  Proof.
    unfold S0. rewrite snaps_mem_step. unfold steady.
    change (seq 1 n) with (seq (0 + 1) n). rewrite due_steady_mem. cbn [plus]. rewrite multiples, map_map by exact HI. reflexivity.
  Qed.
  Lemma steady_length : length S0 = n / interval.
  Proof. rewrite <- (map_length (fun s => (s_step s, s_mem s))), steady_snaps, map_length, seq_length. reflexivity. Qed.
  Lemma steady_check j : 1 <= j <= n / interval ->
    check_for_leaks interval thr (lastn mx (firstn j S0)) =
    if (5 <=? j) && Rlt_b (thr / 100) (b * INR interval * INR interval) &&
       Rlt_b thr (b * INR interval * INR (Nat.min 10 j - 1))
    then [Leak GrowingMemory (severity_of (b * INR interval * INR (Nat.min 10 j - 1))) (b * INR interval * INR interval)
               (b * INR interval * INR (Nat.min 10 j - 1)) ((j - Nat.min 10 j + 1) * interval) (j * interval)]
    else [].
  Proof.
    intros Hj. set (Q := lastn mx (firstn j S0)).
    assert (HA : Forall (fun s => s_arrays s = 0) Q) by apply due_snaps_lastn_arrays.
    pose proof (fun lk => check_exact interval thr Q lk HA) as CE. cbv zeta in CE.
    assert (LF : length (firstn j S0) = j) by (rewrite firstn_length, steady_length; lia).
    assert (LQ : length Q = Nat.min mx j) by (unfold Q; rewrite lastn_length, LF; reflexivity).
    set (W := lastn 10 Q) in *.
    assert (LW : length W = Nat.min 10 j) by (unfold W; rewrite lastn_length, LQ; lia).
    assert (EW : map (fun s => (s_step s, s_mem s)) W =
       map (fun i => ((j - Nat.min 10 j + 1 + i) * interval, (a + b * INR ((j - Nat.min 10 j + 1 + i) * interval))%R)) (seq 0 (Nat.min 10 j))).
    { unfold W, Q. rewrite <- !lastn_map, <- firstn_map', steady_snaps, firstn_map', firstn_seq by lia. rewrite !lastn_map.
      unfold lastn. rewrite seq_length, skipn_seq, seq_length, skipn_seq.
      rewrite <- (map_map (fun i => j - Nat.min 10 j + 1 + i) (fun j => (j * interval, (a + b * INR (j * interval))%R))). f_equal.
      replace (j - (j - mx) - (j - (j - mx) - 10)) with (Nat.min 10 j) by lia.
      replace (1 + (j - mx) + (j - (j - mx) - 10)) with (j - Nat.min 10 j + 1 + 0) by lia.
      generalize (Nat.min 10 j) at 2 4 as m. generalize (j - Nat.min 10 j + 1) as o. intros o m. generalize 0 as z.
      induction m as [|m IHm]; intros z; [reflexivity|]. cbn [seq map]. f_equal. rewrite <- IHm. f_equal. lia. }
    assert (EM : map s_mem W = map (fun i => ((a + b * INR interval * INR (j - Nat.min 10 j + 1)) + (b * INR interval) * INR i)%R) (seq 0 (Nat.min 10 j))).
    { transitivity (map snd (map (fun s => (s_step s, s_mem s)) W)); [rewrite map_map; reflexivity|]. rewrite EW, map_map. apply map_ext. intros i. cbn [snd].
      rewrite mult_INR, plus_INR. ring. }
    assert (ES : map s_step W = map (fun i => (j - Nat.min 10 j + 1 + i) * interval) (seq 0 (Nat.min 10 j))).
    { transitivity (map fst (map (fun s => (s_step s, s_mem s)) W)); [rewrite map_map; reflexivity|]. rewrite EW, map_map. reflexivity. }
    destruct (5 <=? j) eqn:E5; cbn [andb].
    2:{ destruct (check_for_leaks interval thr Q) as [|lk r]; [reflexivity|]. exfalso. apply Nat.leb_gt in E5.
        destruct (proj1 (CE lk) (or_introl eq_refl)) as [H _]. lia. }
    apply Nat.leb_le in E5.
    assert (SL : slope_of (map s_mem W) = Some (b * INR interval)%R) by (rewrite EM; apply slope_linear; lia).
    assert (M10 : 5 <= Nat.min 10 j) by lia.
    assert (HH : s_mem (hd snap0 W) = (a + b * INR interval * INR (j - Nat.min 10 j + 1))%R /\ s_step (hd snap0 W) = (j - Nat.min 10 j + 1) * interval).
    { clear -EM ES M10. destruct (Nat.min 10 j) as [|m]; [lia|]. cbn [seq map] in EM, ES. destruct W as [|x W']; [discriminate|].
      cbn [map] in EM, ES. injection EM; intros _ E1. injection ES; intros _ E2. cbn [hd]. rewrite E1, E2. split; [cbn [INR]; ring|f_equal; lia]. }
    assert (HT : s_mem (last W snap0) = (a + b * INR interval * INR j)%R /\ s_step (last W snap0) = j * interval).
    { assert (EJ : INR j = (INR (j - Nat.min 10 j + 1) + INR (Nat.min 10 j - 1))%R) by (rewrite <- plus_INR; f_equal; lia).
      assert (EJn : j - Nat.min 10 j + 1 + (Nat.min 10 j - 1) = j) by lia.
      clear -EM ES M10 EJ EJn. destruct (Nat.min 10 j) as [|m]; [lia|]. rewrite seq_S, map_app in EM, ES. cbn [map plus] in EM, ES.
      destruct (@exists_last _ W) as (q & x & ->); [intros ->; destruct (map _ (seq 0 m)); discriminate|].
      rewrite map_app in EM, ES. cbn [map] in EM, ES. apply app_inj_tail in EM, ES. destruct EM as [_ EM], ES as [_ ES]. rewrite last_last, EM, ES.
      replace (Datatypes.S m - 1) with m in * by lia. rewrite EJ, EJn. split; [ring|reflexivity]. }
    destruct HH as [HH1 HH2], HT as [HT1 HT2].
    assert (TOT : (s_mem (last W snap0) - s_mem (hd snap0 W))%R = (b * INR interval * INR (Nat.min 10 j - 1))%R).
    { rewrite HH1, HT1. replace (INR j) with (INR (j - Nat.min 10 j + 1) + INR (Nat.min 10 j - 1))%R by (rewrite <- plus_INR; f_equal; lia). ring. }
    rewrite TOT, HH2, HT2, SL in CE.
    assert (ONE : forall l : list leak, (forall lk, In lk l -> In lk (check_for_leaks interval thr Q)) -> length (check_for_leaks interval thr Q) <= 1).
    { intros l _. unfold check_for_leaks. destruct (length Q <? 5); [cbn; lia|]. fold (lastn 10 Q). fold snap0. fold W. cbv zeta.
      assert (HF : Forall (fun s => s_arrays s = 0) W) by (unfold W, lastn; now apply Forall_skipn).
      assert (Z1 : s_arrays (nth 0 W snap0) = 0) by (rewrite Forall_forall in HF; apply HF; apply nth_In; lia).
      assert (Z2 : s_arrays (nth (length W - 1) W snap0) = 0) by (rewrite Forall_forall in HF; apply HF; apply nth_In; lia).
      rewrite Z1, Z2. change (100 <? Z.of_nat 0 - Z.of_nat 0)%Z with false. cbv iota.
      destruct (3 <=? length W); rewrite app_nil_r; [|cbn; lia]. rewrite SL. destruct (Rlt_b _ _); [destruct (Rlt_b _ _)|]; cbn; lia. }
    specialize (ONE [] ltac:(intros ? [])).
    destruct (Rlt_b (thr / 100) (b * INR interval * INR interval)) eqn:B1; cbn [andb];
      [destruct (Rlt_b thr (b * INR interval * INR (Nat.min 10 j - 1))) eqn:B2|].
    - match goal with |- _ = [?lk] => pose proof (proj2 (CE lk)) as PI end.
      apply Rlt_b_iff in B1, B2.
      match type of PI with ?P -> _ => assert (PP : P) end.
      { split; [lia|]. exists (b * INR interval)%R. split; [reflexivity|]. split; [exact B1|]. split; [exact B2|]. reflexivity. }
      specialize (PI PP). destruct (check_for_leaks interval thr Q) as [|lk [|lk2 r]]; [destruct PI| |cbn in ONE; lia].
      destruct PI as [->|[]]. reflexivity.
    - destruct (check_for_leaks interval thr Q) as [|lk r]; [reflexivity|]. exfalso.
      destruct (proj1 (CE lk) (or_introl eq_refl)) as (_ & sl & _ & _ & HTT & _). apply Rlt_b_iff in HTT. congruence.
    - destruct (check_for_leaks interval thr Q) as [|lk r]; [reflexivity|]. exfalso.
      destruct (proj1 (CE lk) (or_introl eq_refl)) as (_ & sl & SE & HRR & _). injection SE; intros <-. apply Rlt_b_iff in HRR. congruence.
  Qed.
End Steady.

(** C86: a process that gains [b] MB at every call *)
Lemma steady_leaks (interval : nat) (thr : R) (mx n : nat) (name : string) (a b : R) :
  interval <> 0 -> 10 <= mx ->
  exists t, snapshots_run (new_tracker interval thr mx) (steady name (fun i => (a + b * INR i)%R) n) = Some t /\
   t_leaks t = flat_map (fun j =>
     if (5 <=? j) && Rlt_b (thr / 100) (b * INR interval * INR interval) && Rlt_b thr (b * INR interval * INR (Nat.min 10 j - 1))
     then [Leak GrowingMemory (severity_of (b * INR interval * INR (Nat.min 10 j - 1))) (b * INR interval * INR interval)
               (b * INR interval * INR (Nat.min 10 j - 1)) ((j - Nat.min 10 j + 1) * interval) (j * interval)]
     else []) (seq 1 (n / interval)).
Proof.
  intros HI HX. destruct (tracker_exact interval thr mx (steady name (fun i => (a + b * INR i)%R) n) HI) as (t & A & _ & _ & D).
  exists t. split; [exact A|]. cbn zeta in D. rewrite D, steady_length by exact HI. apply flat_map_ext_in.
  intros j Hj. apply in_seq in Hj. apply steady_check; [exact HI|exact HX|lia].
Qed.
(** a slow leak is never reported, however long the run *)
Lemma slow_leak_missed (interval : nat) (thr : R) (mx n : nat) (name : string) (a b : R) :
  interval <> 0 -> 10 <= mx -> (0 <= b)%R -> (9 * (b * INR interval) <= thr)%R ->
  exists t, snapshots_run (new_tracker interval thr mx) (steady name (fun i => (a + b * INR i)%R) n) = Some t /\ t_leaks t = [].
Proof.
  intros HI HX HB HT. destruct (steady_leaks interval thr mx n name a b HI HX) as (t & A & D). exists t. split; [exact A|].
  rewrite D. clear A D. generalize (seq 1 (n / interval)) as l. intros l. induction l as [|j l IH]; [reflexivity|]. cbn [flat_map]. rewrite IH, app_nil_r.
  assert (HK : (0 <= INR interval)%R) by apply pos_INR.
  assert (HJ : (INR (Nat.min 10 j - 1) <= 9)%R) by (replace 9%R with (INR 9) by (cbn; lra); apply le_INR; lia).
  rewrite (Rlt_b_false thr); [rewrite andb_false_r; reflexivity|].
  pose proof (pos_INR (Nat.min 10 j - 1)). assert (0 <= b * INR interval)%R by (apply Rmult_le_pos; assumption). nra.
Qed.
(** a fast one is reported again at each snapshot, with the rate multiplied by the square of the interval *)
Lemma fast_leak_repeated (interval : nat) (thr : R) (mx n : nat) (name : string) (a b : R) :
  interval <> 0 -> 10 <= mx -> (0 <= thr)%R -> (thr < 4 * (b * INR interval))%R ->
  exists t, snapshots_run (new_tracker interval thr mx) (steady name (fun i => (a + b * INR i)%R) n) = Some t /\
    length (t_leaks t) = n / interval - 4 /\ Forall (fun lk => l_rate lk = (b * INR interval * INR interval)%R) (t_leaks t).
Proof.
  intros HI HX HT0 HT. destruct (steady_leaks interval thr mx n name a b HI HX) as (t & A & D). exists t. split; [exact A|].
  rewrite D. clear A D.
  assert (HK : (1 <= INR interval)%R) by (change 1%R with (INR 1); apply le_INR; lia).
  assert (HBK : (0 < b * INR interval)%R) by lra.
  assert (B1 : Rlt_b (thr / 100) (b * INR interval * INR interval) = true) by (apply Rlt_b_true; nra).
  rewrite B1.
  set (f := fun j => if (5 <=? j) && true && Rlt_b thr (b * INR interval * INR (Nat.min 10 j - 1)) then _ else []).
  assert (F : forall j, length (f j) = (if 5 <=? j then 1 else 0) /\ Forall (fun lk => l_rate lk = (b * INR interval * INR interval)%R) (f j)).
  { intros j. unfold f. destruct (5 <=? j) eqn:E; cbn [andb]; [|split; [reflexivity|constructor]]. apply Nat.leb_le in E.
    rewrite Rlt_b_true; [split; [reflexivity|constructor; [reflexivity|constructor]]|].
    assert (4 <= INR (Nat.min 10 j - 1))%R by (replace 4%R with (INR 4) by (cbn; lra); apply le_INR; lia). nra. }
  generalize (n / interval) as m. intros m. split.
  - induction m as [|m IH]; [reflexivity|]. rewrite seq_S, flat_map_app, app_length, IH. cbn [flat_map plus]. rewrite app_nil_r.
    rewrite (proj1 (F (Datatypes.S m))). destruct (5 <=? Datatypes.S m) eqn:E; [apply Nat.leb_le in E|apply Nat.leb_gt in E]; lia.
  - apply Forall_flat_map. apply Forall_forall. intros j _. apply F.
Qed.

(** *** state memory *)
Lemma mb_add x y : mb (x + y) = (mb x + mb y)%R.
Proof. unfold mb. rewrite plus_INR. lra. Qed.
Lemma mb_nonneg x : (0 <= mb x)%R.
Proof. unfold mb. pose proof (pos_INR x). lra. Qed.
Lemma sum_mb (l : list (string * ptree nat)) : sumR (map (fun kv => mb (tree_bytes (snd kv))) l) = mb (dict_bytes l).
Proof. unfold dict_bytes, sumR. induction l as [|kv l IH]; [cbn; unfold mb; cbn; lra|]. cbn [map fold_right list_sum]. rewrite IH. fold (list_sum (map (fun kv => tree_bytes (snd kv)) l)). symmetry. apply mb_add. Qed.
Lemma dict_bytes_split (k1 k2 : string) (kvs : list (string * ptree nat)) : k1 <> k2 -> NoDup (map fst kvs) ->
  dict_bytes kvs = match sget k1 kvs with Some t => tree_bytes t | None => 0 end + match sget k2 kvs with Some t => tree_bytes t | None => 0 end
   + dict_bytes (filter (fun kv => negb (String.eqb (fst kv) k1 || String.eqb (fst kv) k2)) kvs).
Proof.
  intros N. unfold dict_bytes. induction kvs as [|[k t] kvs IH]; intros ND; [reflexivity|].
  inversion ND as [|? ? NI ND']; subst. specialize (IH ND'). cbn [map list_sum fold_right snd fst sget filter].
  fold (list_sum (map (fun kv => tree_bytes (snd kv)) kvs)). rewrite IH.
  assert (NG : forall v, sget k kvs = Some v -> False) by (intros v Hv; apply NI; apply sget_In in Hv; apply in_map_iff; exists (k, v); split; [reflexivity|exact Hv]).
  rewrite (String.eqb_sym k1 k), (String.eqb_sym k2 k).
  destruct (String.eqb k k1) eqn:E1; destruct (String.eqb k k2) eqn:E2; cbn [orb negb];
    try (apply String.eqb_eq in E1; subst k); try (apply String.eqb_eq in E2; subst k).
  - apply String.eqb_eq in E2. congruence.
  - destruct (sget k1 kvs) as [v|] eqn:G; [exfalso; now apply (NG v)|]. unfold list_sum in *. lia.
  - destruct (sget k2 kvs) as [v|] eqn:G; [exfalso; now apply (NG v)|]. unfold list_sum in *. lia.
  - cbn [map list_sum fold_right snd]. fold (list_sum (map (fun kv => tree_bytes (snd kv)) (filter (fun kv : string * ptree nat => negb ((fst kv =? k1)%string || (fst kv =? k2)%string)) kvs))). unfold list_sum in *. lia.
Qed.
(** C86: parameters and state variables add up to all the bytes of the state; buffers are part of the state *)
Lemma state_memory (kvs : list (string * ptree nat)) :
  NoDup (map fst kvs) -> (forall n, sget "state"%string kvs <> Some (PLeaf n)) ->
  let '(sv, pv, bv) := analyze_state_memory (Some (PDict kvs)) in
  (sv + pv)%R = mb (dict_bytes kvs) /\ pv = mb (match sget "params"%string kvs with Some t => tree_bytes t | None => 0 end) /\
  (0 <= bv <= sv)%R.
Proof.
  intros ND HL. unfold analyze_state_memory.
  pose proof (dict_bytes_split "params" "state" kvs ltac:(discriminate) ND) as SP.
  set (others := filter _ kvs) in *.
  assert (Z0 : mb 0 = 0%R) by (unfold mb; cbn; lra).
  assert (EP : match sget "params"%string kvs with Some t => mb (tree_bytes t) | None => 0%R end =
               mb (match sget "params"%string kvs with Some t => tree_bytes t | None => 0 end)) by (destruct (sget "params"%string kvs); [reflexivity|symmetry; exact Z0]).
  rewrite EP. fold others. rewrite (sum_mb others).
  set (pb := match sget "params"%string kvs with Some t => tree_bytes t | None => 0 end) in *.
  destruct (sget "state"%string kvs) as [[n|vars]|] eqn:ES.
  - exfalso. now apply (HL n).
  - rewrite SP, !mb_add. split; [lra|]. split; [reflexivity|].
    rewrite sum_mb.
    pose proof (mb_nonneg (dict_bytes others)).
    set (bufs := filter (fun kv : string * ptree nat => contains "buffer" (lower (fst kv))) vars).
    pose proof (mb_nonneg (dict_bytes bufs)). split; [assumption|].
    assert (dict_bytes bufs <= tree_bytes (PDict vars)).
    { cbn [tree_bytes]. unfold dict_bytes, bufs. clear. induction vars as [|kv vars IH]; [cbn; lia|]. cbn [filter map list_sum fold_right].
      destruct (contains _ _); cbn [map list_sum fold_right]; unfold list_sum in *; lia. }
    assert (mb (dict_bytes bufs) <= mb (tree_bytes (PDict vars)))%R by (unfold mb; apply le_INR in H1; lra). lra.
  - rewrite SP, !mb_add, Z0. split; [lra|]. split; [reflexivity|]. pose proof (mb_nonneg (dict_bytes others)). lra.
Qed.

(** *** the decorated function *)
Section MemRun.
  Context {P K A O S : Type}.
  Variable apply : P -> S -> K -> A -> option (result O S).
  Variable state_data : S -> ptree nat.
  Lemma memory_records (name : string) (detailed : bool) (p : P) : forall (xs : list (K * A * (R * R))) (s : S) (tr : tracker),
    t_interval tr <> 0 ->
    let run := drive (fun s x tr => memory_apply apply state_data name detailed (fst (snd x)) (snd (snd x))
                              p s (fst (fst x)) (snd (fst x)) tr) s tr xs in
    length (fst (fst run)) = length xs ->
    snapshots_run tr (two_calls state_data name detailed xs (fst (fst run))) = Some (snd run).
  Proof.
    induction xs as [|[[k a] [m1 m2]] xs IH]; intros s tr Hi; cbn zeta; [reflexivity|].
    cbn [drive fst snd]. unfold memory_apply at 1 3 5.
    destruct (take_total name None false m1 tr Hi) as (o1 & t1 & E1 & I1). rewrite E1.
    destruct (apply p s k a) as [r|] eqn:E; [|discriminate].
    match goal with |- context [take_snapshot name ?st false m2 t1] =>
      destruct (take_total name st false m2 t1 ltac:(congruence)) as (o2 & t2 & E2 & I2); rewrite E2 end.
    match goal with |- context [drive _ ?s' ?w xs] => specialize (IH s' w ltac:(congruence)) end. cbn zeta in IH.
    match type of IH with context [drive ?f ?s' ?w xs] => destruct (drive f s' w xs) as [[l s2] w2] end.
    cbn [fst snd length] in *. intros HL. cbn [two_calls snapshots_run]. rewrite E1. cbn [snapshots_run]. rewrite E2. apply IH. lia.
  Qed.
End MemRun.

(** *** the histories by module *)
Lemma dd_append_get k k' x d :
  opt_list (sget k' (dd_append k x d)) = opt_list (sget k' d) ++ (if String.eqb k k' then [x] else []).
Proof.
  unfold dd_append. rewrite sget_sset. rewrite (String.eqb_sym k' k). destruct (String.eqb_spec k k') as [->|N]; [reflexivity|].
  rewrite app_nil_r. reflexivity.
Qed.
Lemma tracker_histories name : forall calls (t t' : tracker) prev,
  t_enabled t = true -> snapshots_run t calls = Some t' ->
  let l := filter (fun s => String.eqb (s_module s) name) (snaps_of prev (due (t_interval t) (t_steps t) calls)) in
  opt_list (sget name (t_module_mem t')) = opt_list (sget name (t_module_mem t)) ++ map s_mem l /\
  opt_list (sget name (t_state_mem t')) = opt_list (sget name (t_state_mem t)) ++ map s_state l.
Proof.
  induction calls as [|[[[nm st] force] mem] calls IH]; intros t t' prev HE E; cbn zeta.
  - cbn in E. injection E as <-. cbn. rewrite !app_nil_r. split; reflexivity.
  - cbn [snapshots_run] in E. unfold take_snapshot in E. rewrite HE in E. cbv zeta in E. cbn [due].
    destruct (analyze_state_memory st) as [[sv pv] bv] eqn:EA.
    set (dls := match t_last t with Some l => _ | None => _ end) in E. destruct dls as [dl ad].
    assert (TAKE : forall t1, t_enabled t1 = true -> t_interval t1 = t_interval t -> t_steps t1 = t_steps t + 1 ->
      t_module_mem t1 = dd_append nm mem (t_module_mem t) -> t_state_mem t1 = dd_append nm sv (t_state_mem t) ->
      snapshots_run t1 calls = Some t' ->
      let l := filter (fun s => String.eqb (s_module s) name) (snaps_of prev ([(t_steps t + 1, (nm, st, force, mem))] ++ due (t_interval t) (t_steps t + 1) calls)) in
      opt_list (sget name (t_module_mem t')) = opt_list (sget name (t_module_mem t)) ++ map s_mem l /\
      opt_list (sget name (t_state_mem t')) = opt_list (sget name (t_state_mem t)) ++ map s_state l).
    { intros t1 H1 H2 H3 H4 H5 H6. cbn zeta. destruct (IH t1 t' (Some mem) H1 H6) as [A B]. cbn zeta in A, B.
      rewrite H2, H3, H4, dd_append_get in A. rewrite H2, H3, H5, dd_append_get in B.
      cbn [app snaps_of]. rewrite EA. cbn [filter s_module].
      destruct (String.eqb nm name); cbn [map s_mem s_state]; rewrite ?app_nil_r, <- ?app_assoc in A; rewrite ?app_nil_r, <- ?app_assoc in B;
        split; assumption. }
    destruct force; cbn [orb].
    + eapply TAKE; [| | | | |exact E]; reflexivity || assumption.
    + destruct (t_interval t =? 0) eqn:E0; [discriminate|].
      destruct ((t_steps t + 1) mod t_interval t =? 0).
      * eapply TAKE; [| | | | |exact E]; reflexivity || assumption.
      * cbn [app]. match type of E with snapshots_run ?t1 _ = _ => exact (IH t1 t' prev eq_refl E) end.
Qed.
Lemma tracker_modules interval thr mx calls t name :
  snapshots_run (new_tracker interval thr mx) calls = Some t ->
  let l := filter (fun s => String.eqb (s_module s) name) (snaps_of None (due interval 0 calls)) in
  opt_list (sget name (t_module_mem t)) = map s_mem l /\ opt_list (sget name (t_state_mem t)) = map s_state l.
Proof. intros E. exact (tracker_histories name calls (new_tracker interval thr mx) t None eq_refl E). Qed.
