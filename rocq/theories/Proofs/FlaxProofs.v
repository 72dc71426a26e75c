From Coq Require Import List Arith ZArith Lia Reals Lra.
From Verif Require Import Model.Tree Model.Unroll Model.Float Model.Modules Model.Ewm Model.FlaxModules
  Spec.FlaxSpec Spec.EwmSpec Proofs.ListFacts Proofs.UnrollProofs Proofs.RunFacts Proofs.BufferProofs
  Proofs.FloatFacts Proofs.EwmFacts Proofs.EwmProofs.
Import ListNotations.

(** *** Runs *)
Lemma some_pair_inj' {A B} (p : A * B) (b : A) (d : B) : Some p = Some (b, d) -> fst p = b /\ snd p = d.
Proof. intros [= ->]. auto. Qed.

Lemma flax_calls_scan {S X Y} (m : flax_module S X Y) s xs :
  flax_calls m s xs =
  (snd (lax_scan (stepf (fx_call m)) s xs), fst (lax_scan (stepf (fx_call m)) s xs)).
Proof.
  revert s. induction xs as [|x xs IH]; intros s; cbn [flax_calls lax_scan]; [reflexivity|].
  unfold stepf at 1 3. destruct (fx_call m s x) as [y s1]. cbn [fst snd]. rewrite IH.
  destruct (lax_scan _ s1 xs). reflexivity.
Qed.

Lemma flax_calls_app {S X Y} (m : flax_module S X Y) s xs ys :
  flax_calls m s (xs ++ ys) =
  (fst (flax_calls m s xs) ++ fst (flax_calls m (snd (flax_calls m s xs)) ys),
   snd (flax_calls m (snd (flax_calls m s xs)) ys)).
Proof.
  revert s. induction xs as [|x xs IH]; intros s; cbn [flax_calls app]; [cbn [fst snd app]; destruct (flax_calls m s ys); reflexivity|].
  destruct (fx_call m s x) as [y s1]. rewrite IH. destruct (flax_calls m s1 xs). reflexivity.
Qed.

(** Simulation, the relation may hold for the first [N] steps only. *)
Lemma simulation {S1 S2 X Y} (m : flax_module S1 X Y) (init : X -> S2) (step : S2 -> X -> Y * S2)
  (R : nat -> S1 -> S2 -> Prop) (N : nat -> Prop) x0 xs :
  R 0 (fx_vars m x0) (init x0) ->
  (forall n s1 s2 x, N n -> R n s1 s2 ->
     fst (fx_call m s1 x) = fst (step s2 x) /\ R (S n) (snd (fx_call m s1 x)) (snd (step s2 x))) ->
  (forall n, n < length (x0 :: xs) -> N n) ->
  same_outputs m (hk_module init step) (x0 :: xs).
Proof.
  intros H0 Hs HN. eexists. rewrite run_eq. unfold flax_from_scratch. rewrite flax_calls_scan. cbn [fst].
  assert (G : forall l n s1 s2, R n s1 s2 -> (forall k, n <= k -> k < n + length l -> N k) ->
    snd (lax_scan (stepf step) s2 l) = snd (lax_scan (stepf (fx_call m)) s1 l)).
  { induction l as [|x l IH]; intros n s1 s2 HR HN'; cbn [lax_scan]; [reflexivity|].
    destruct (Hs n s1 s2 x (HN' n ltac:(lia) ltac:(cbn; lia)) HR) as [E HR'].
    unfold stepf at 1 3. specialize (IH (S n) _ _ HR').
    rewrite <- E. destruct (lax_scan (stepf step) _ l) eqn:E1. destruct (lax_scan (stepf (fx_call m)) _ l) eqn:E2.
    cbn [snd] in *. f_equal. apply IH. intros k H1 H2. apply HN'; cbn; lia. }
  rewrite (G (x0 :: xs) 0 _ _ H0); [reflexivity|]. intros k _ Hk. apply HN. lia.
Qed.

(** *** Ring *)
Section Ring.
  Context {A : Type}.
  Implicit Types (l b : list A).

  Lemma rotated_length r l : length (rotated r l) = length l.
  Proof. unfold rotated. rewrite app_length, skipn_length, firstn_length. lia. Qed.

  Lemma rotated_nth r l i : r < length l -> i < length l ->
    nth_error (rotated r l) i = nth_error l ((i + r) mod length l).
  Proof.
    intros Hr Hi. unfold rotated. destruct (Nat.lt_ge_cases i (length l - r)) as [H|H].
    - rewrite nth_error_app1 by (rewrite skipn_length; lia). rewrite nth_error_skipn, Nat.mod_small by lia.
      f_equal; lia.
    - rewrite nth_error_app2 by (rewrite skipn_length; lia). rewrite skipn_length.
      rewrite nth_error_firstn by lia. f_equal.
      replace (i + r) with (i - (length l - r) + 1 * length l) by lia. rewrite Nat.mod_add by lia.
      rewrite Nat.mod_small; lia.
  Qed.

  Lemma map_nth_rot m l d s : length l = m -> s < m ->
    map (fun i => nth ((i + s) mod m) l d) (seq 0 m) = rotated s l.
  Proof.
    intros Hl Hs. subst m. apply nth_error_ext. intros i.
    destruct (Nat.lt_ge_cases i (length l)) as [H|H].
    - rewrite rotated_nth by auto.
      assert (Hm : (i + s) mod length l < length l) by (apply Nat.mod_upper_bound; lia).
      rewrite (nth_error_nth' l d Hm).
      rewrite (nth_error_map (fun i => nth ((i + s) mod length l) l d)).
      assert (E : nth_error (seq 0 (length l)) i = Some i).
      { rewrite (nth_error_nth' _ 0) by (rewrite seq_length; auto). rewrite seq_nth by auto. reflexivity. }
      rewrite E. reflexivity.
    - transitivity (@None A).
      + apply nth_error_None. rewrite map_length, seq_length. auto.
      + symmetry. apply nth_error_None. rewrite rotated_length. auto.
  Qed.

  Lemma set_at_length l i x : i < length l -> length (set_at l i x) = length l.
  Proof. intros H. unfold set_at. rewrite app_length, firstn_length. cbn [length]. rewrite skipn_length. lia. Qed.

  Lemma skipn_hd l p : p < length l -> exists a, skipn p l = a :: skipn (S p) l.
  Proof.
    revert p. induction l as [|b l IH]; intros p Hp; cbn in Hp; [lia|].
    destruct p; cbn [skipn]; [eauto|]. apply IH. lia.
  Qed.

  Lemma rotate_write l p x : p < length l ->
    rotated (S p mod length l) (set_at l p x) = set_last (roll1 (rotated p l)) x.
  Proof.
    intros Hp. destruct (skipn_hd l p Hp) as [a Ha].
    assert (Hne : rotated p l <> []).
    { intros E. apply (f_equal (@length A)) in E. rewrite rotated_length in E. cbn in E. lia. }
    rewrite push_eq by auto. unfold rotated. rewrite Ha. cbn [app tl].
    rewrite <- app_assoc.
    unfold set_at. destruct (Nat.eq_dec (S p) (length l)) as [E|E].
    - rewrite E, Nat.mod_same by lia. cbn [skipn firstn]. rewrite app_nil_r.
      rewrite skipn_all2 by lia. cbn. reflexivity.
    - rewrite Nat.mod_small by lia.
      assert (Hf : length (firstn p l) = p) by (rewrite firstn_length; lia).
      rewrite skipn_app, firstn_app, Hf. replace (S p - p) with 1 by lia.
      rewrite (skipn_all2 (firstn p l)) by lia. rewrite (firstn_all2 (firstn p l)) by lia.
      cbn [skipn firstn app]. reflexivity.
  Qed.

  Lemma rotated_rotated r q l : r < length l -> q < length l ->
    rotated r (rotated q l) = rotated ((r + q) mod length l) l.
  Proof.
    intros Hr Hq. set (n := length l) in *. assert (Hn : n <> 0) by lia.
    assert (Hrq : (r + q) mod n < n) by (apply Nat.mod_upper_bound; auto).
    apply nth_error_ext. intros i.
    destruct (Nat.lt_ge_cases i n) as [H|H].
    - rewrite rotated_nth by (rewrite rotated_length; auto). rewrite rotated_length. fold n.
      assert (Hi : (i + r) mod n < n) by (apply Nat.mod_upper_bound; auto).
      rewrite rotated_nth by auto. fold n.
      rewrite rotated_nth by auto. fold n. f_equal.
      rewrite Nat.add_mod_idemp_l, Nat.add_mod_idemp_r by auto. f_equal; lia.
    - transitivity (@None A); [|symmetry]; apply nth_error_None; rewrite ?rotated_length; auto.
  Qed.

  (** the ring seen from write index [wi] is the haiku buffer *)
  Definition ring_rel (m n : nat) (st : ring_state A) (hs : buffer_state A) : Prop :=
    length (ring st) = m /\ write_idx st = wrap32 (Z.of_nat n) /\
    buffer hs = rotated (Z.to_nat (write_idx st mod Z.of_nat m)) (ring st) /\
    len_buffer hs = ring_len st.

  (** call number n (from 0) keeps the order: no wrap, or maxlen divides 2^32 *)
  Definition safe_call (m n : nat) : Prop :=
    (Z.of_nat n + 1 < 2 ^ 31 \/ (Z.of_nat m | 2 ^ 32))%Z.

  Lemma wrap32_small z : (0 <= z < 2 ^ 31)%Z -> wrap32 z = z.
  Proof. intros H. unfold wrap32. rewrite Z.mod_small; lia. Qed.

  Lemma wrap32_mod z m : (0 < m)%Z -> (m | 2 ^ 32)%Z -> (wrap32 z mod m = z mod m)%Z.
  Proof.
    intros Hm [k Hk]. unfold wrap32. rewrite (Z.mod_eq (z + 2 ^ 31)) by lia. rewrite Hk at 1.
    set (q := ((z + 2 ^ 31) / 2 ^ 32)%Z).
    replace (z + 2 ^ 31 - k * m * q - 2 ^ 31)%Z with (z + (- (k * q)) * m)%Z by ring.
    apply Z.mod_add. lia.
  Qed.

  Lemma wrap32_wrap z : wrap32 (wrap32 z + 1) = wrap32 (z + 1).
  Proof.
    unfold wrap32. f_equal.
    replace ((z + 2 ^ 31) mod 2 ^ 32 - 2 ^ 31 + 1 + 2 ^ 31)%Z with ((z + 2 ^ 31) mod 2 ^ 32 + 1)%Z by ring.
    rewrite Z.add_mod_idemp_l by lia. f_equal. ring.
  Qed.

  Lemma to_nat_mod z m : 0 < m -> Z.to_nat (z mod Z.of_nat m) < m.
  Proof. intros H. pose proof (Z.mod_pos_bound z (Z.of_nat m) ltac:(lia)). lia. Qed.

  Lemma succ_mod z m : 0 < m ->
    Z.to_nat ((z + 1) mod Z.of_nat m) = S (Z.to_nat (z mod Z.of_nat m)) mod m.
  Proof.
    intros H. pose proof (Z.mod_pos_bound z (Z.of_nat m) ltac:(lia)) as B.
    rewrite <- (Z.add_mod_idemp_l z 1) by lia.
    apply Nat2Z.inj. rewrite Nat2Z.inj_mod, Z2Nat.id by (apply Z.mod_pos_bound; lia).
    f_equal. lia.
  Qed.

  (** written buffer: rotation by the true next position is the pushed window *)
  Lemma ring_call_written m n st hs x : 0 < m -> ring_rel m n st hs ->
    let w := set_last (roll1 (buffer hs)) x in
    length (set_at (ring st) (Z.to_nat (write_idx st mod Z.of_nat m)) x) = m /\
    rotated (Z.to_nat ((write_idx st + 1) mod Z.of_nat m))
            (set_at (ring st) (Z.to_nat (write_idx st mod Z.of_nat m)) x) = w.
  Proof.
    intros Hm (Hl & _ & Hb & _) w. pose proof (to_nat_mod (write_idx st) m Hm) as Hp.
    split; [rewrite set_at_length; lia|]. rewrite succ_mod by auto. unfold w. rewrite Hb.
    rewrite <- Hl at 2. apply rotate_write. lia.
  Qed.

  Lemma ring_call_sim m n st hs x : 0 < m -> safe_call m n -> ring_rel m n st hs ->
    fst (ring_call m st x) = fst (buffer_apply m hs x) /\
    ring_rel m (S n) (snd (ring_call m st x)) (snd (buffer_apply m hs x)).
  Proof.
    intros Hm Hs HR. pose proof (ring_call_written m n st hs x Hm HR) as [HL HW].
    destruct HR as (Hl & Hw & Hb & Hn).
    assert (Hmod : (wrap32 (write_idx st + 1) mod Z.of_nat m = (write_idx st + 1) mod Z.of_nat m)%Z).
    { destruct Hs as [Hs|Hs].
      - rewrite Hw, (wrap32_small (Z.of_nat n)), wrap32_small by lia. reflexivity.
      - apply wrap32_mod; [lia|auto]. }
    unfold ring_call, buffer_apply. cbn [fst snd].
    rewrite map_nth_rot by (auto using to_nat_mod). rewrite Hmod, HW.
    split; [reflexivity|]. split; [exact HL|]. cbn [ring write_idx ring_len buffer len_buffer]. split; [|split].
    - rewrite Hw, wrap32_wrap. f_equal. lia.
    - rewrite Hmod. symmetry. exact HW.
    - rewrite Hn. reflexivity.
  Qed.

  Lemma ring_rel_init m f : 0 < m -> ring_rel m 0 (ring_init m f) (buffer_init m f).
  Proof.
    intros Hm. unfold ring_rel. cbn [ring_init ring write_idx buffer_init buffer len_buffer ring_len].
    split; [apply repeat_length|]. split; [reflexivity|]. split; [|reflexivity].
    rewrite Z.mod_0_l by lia. unfold rotated. cbn. rewrite app_nil_r. reflexivity.
  Qed.


  Lemma index_safe_call {X} m (xs : list X) n : index_safe m xs -> n < length xs -> safe_call m n.
  Proof. intros [H|H] Hn; [left; lia|right; auto]. Qed.

  Lemma fbuffer_same m (full_like : A -> A) xs : 0 < m -> xs <> [] -> index_safe m xs ->
    same_outputs (FBuffer m full_like) (Buffer m full_like) xs.
  Proof.
    intros Hm Hne Hs. destruct xs as [|x0 xs]; [congruence|].
    apply (simulation _ _ _ (ring_rel m) (safe_call m)).
    - apply ring_rel_init; auto.
    - intros n s1 s2 x Hn HR. cbn [fx_call FBuffer]. apply ring_call_sim; auto.
    - intros n Hn. eapply index_safe_call; eauto.
  Qed.

  Lemma fbuffer_window m (full_like : A -> A) x0 xs t : 0 < m -> index_safe m (x0 :: xs) -> t < length (x0 :: xs) ->
    nth_error (flax_from_scratch (FBuffer m full_like) (x0 :: xs)) t =
    Some (padded_window m (full_like x0) (firstn (t + 1) (x0 :: xs))).
  Proof.
    intros Hm Hs Ht. destruct (fbuffer_same m full_like (x0 :: xs) Hm ltac:(discriminate) Hs) as [sF Hr].
    destruct (buffer_run_plain _ _ _ _ _ _ Hm Hr) as [_ H]. destruct (H t Ht) as (b & Hb & Hl & Hw).
    rewrite Hb. f_equal. unfold padded_window. apply window_list. split; [exact Hl|].
    intros j Hj. rewrite (Hw j Hj). rewrite firstn_length_le by lia.
    destruct (Nat.leb_spec j t), (Nat.ltb_spec j (t + 1)); try lia; auto.
    rewrite nth_error_firstn by lia. f_equal; lia.
  Qed.

  Lemma flag_same lag (full_like : A -> A) xs : xs <> [] -> index_safe (lag + 1) xs ->
    same_outputs (FLag lag full_like) (Lag lag full_like) xs.
  Proof.
    intros Hne Hs. destruct xs as [|x0 xs]; [congruence|].
    apply (simulation _ _ _ (ring_rel (lag + 1)) (safe_call (lag + 1))).
    - apply ring_rel_init; lia.
    - intros n s1 s2 x Hn HR. cbn [fx_call FLag]. unfold flag_call, lag_step.
      destruct (ring_call_sim (lag + 1) n s1 s2 x ltac:(lia) Hn HR) as [E R'].
      destruct (ring_call _ _ _), (buffer_apply _ _ _). cbn [fst snd] in *. subst. auto.
    - intros n Hn. eapply index_safe_call; eauto.
  Qed.

  (** the state after n < 2^31 calls *)
  Lemma ring_rel_after m f xs : 0 < m -> (Z.of_nat (length xs) < 2 ^ 31)%Z ->
    exists hs, buf_inv m f xs hs /\
      ring_rel m (length xs) (steps (ring_call m) (ring_init m f) xs) hs.
  Proof.
    intros Hm. induction xs as [|x xs IH] using rev_ind; intros Hl.
    - exists (buffer_init m f). split; [apply buf_inv_init|apply ring_rel_init; auto].
    - rewrite app_length in *. cbn [length] in *. destruct IH as (hs & HI & HR); [lia|].
      exists (snd (buffer_apply m hs x)). split; [apply buf_inv_step; auto|].
      rewrite steps_app. cbn [steps]. replace (length xs + 1) with (S (length xs)) by lia.
      apply ring_call_sim; auto. left. lia.
  Qed.

  Lemma flax_calls_steps {S X Y} (m : flax_module S X Y) s xs : snd (flax_calls m s xs) = steps (fx_call m) s xs.
  Proof. rewrite flax_calls_scan. cbn [snd]. exact (carry_steps _ s xs). Qed.

  (** the call number 2^31 rotates the window *)
  Lemma ring_wraps m (full_like : A -> A) x0 xs x : 0 < m ->
    (Z.of_nat (length (x0 :: xs)) = 2 ^ 31 - 1)%Z ->
    last (flax_from_scratch (FBuffer m full_like) ((x0 :: xs) ++ [x])) [] =
      rotated (Z.to_nat ((- 2 ^ 32) mod Z.of_nat m)) (padded_window m (full_like x0) ((x0 :: xs) ++ [x])).
  Proof.
    intros Hm Hl. destruct (ring_rel_after m (full_like x0) (x0 :: xs) Hm ltac:(lia)) as (hs & (HI & _) & HR).
    pose proof (push_window m _ _ _ x Hm HI) as HP. apply window_list in HP. unfold padded_window. rewrite <- HP.
    unfold flax_from_scratch. cbn [app]. change (x0 :: xs ++ [x]) with ((x0 :: xs) ++ [x]).
    rewrite flax_calls_app. cbn [fst]. rewrite flax_calls_steps. cbn [fx_call FBuffer fx_vars].
    set (st := steps _ _ _) in *. cbn [flax_calls fx_call FBuffer].
    destruct (ring_call m st x) as [b s'] eqn:E. cbn [fst].
    rewrite last_last.
    pose proof (ring_call_written m _ st hs x Hm HR) as [HL HW].
    destruct HR as (Hlr & Hw & _ & _). rewrite Hl in Hw.
    assert (Eb : b = fst (ring_call m st x)) by (rewrite E; auto). rewrite Eb. unfold ring_call. cbn [fst].
    rewrite map_nth_rot by (auto using to_nat_mod). rewrite <- HW.
    rewrite rotated_rotated by (rewrite HL; auto using to_nat_mod). rewrite HL. f_equal.
    rewrite Hw. change (wrap32 (2 ^ 31 - 1)) with (2 ^ 31 - 1)%Z.
    change (wrap32 (2 ^ 31 - 1 + 1)) with (- 2 ^ 31)%Z.
    apply Nat2Z.inj. rewrite Nat2Z.inj_mod, Nat2Z.inj_add, !Z2Nat.id by (apply Z.mod_pos_bound; lia).
    rewrite Z.add_mod_idemp_l, Z.add_mod_idemp_r by lia. f_equal.
  Qed.
End Ring.

Lemma fffill_same xs : xs <> [] -> same_outputs FFfill Ffill xs.
Proof.
  intros Hne. destruct xs as [|x0 xs]; [congruence|].
  apply (simulation _ _ _ (fun _ a b => a = b) (fun _ => True)); auto.
  intros n s1 s2 x _ ->. split; reflexivity.
Qed.

Lemma fdiff_same xs m h : xs <> [] -> FDiff 1 = Some m -> Diff 1 = Some h -> same_outputs m h xs.
Proof.
  intros Hne [= <-] [= <-]. destruct xs as [|x0 xs]; [congruence|].
  apply (simulation _ _ _ (ring_rel 2) (safe_call 2)).
  - apply (ring_rel_init 2); lia.
  - intros n s1 s2 x Hn HR. cbn [fx_call]. unfold fdiff_call, diff_step.
    destruct (ring_call_sim 2 n s1 s2 x ltac:(lia) Hn HR) as [E R'].
    destruct (ring_call _ _ _), (buffer_apply _ _ _). cbn [fst snd] in *. subst. auto.
  - intros n _. right. exists (2 ^ 31)%Z. reflexivity.
Qed.

Lemma fpct_same fm z xs m h : fm = Pad \/ fm = FfillMethod -> xs <> [] ->
  FPctChange 1 true z = Some m -> PctChange 1 fm z = Some h -> same_outputs m h xs.
Proof.
  intros Hfm Hne [= <-] Hh. assert (Eh : h = hk_module (fun _ => PctState NaN (buffer_init (1 + 1) NaN)) (pct_change_step z))
    by (destruct Hfm; subst fm; injection Hh as <-; reflexivity). subst h.
  destruct xs as [|x0 xs]; [congruence|].
  apply (simulation _ _ _ (fun n (a : fpct_state) (b : pct_state) =>
    fpct_ffill a = pct_ffill b /\ ring_rel 2 n (fpct_lag a) (pct_lag b)) (safe_call 2)).
  - split; [reflexivity|]. apply (ring_rel_init 2); lia.
  - intros n s1 s2 x Hn [HF HR]. cbn [fx_call]. unfold fpct_call, pct_change_step.
    rewrite HF. change (fffill_call (pct_ffill s2) x) with (ffill_step (pct_ffill s2) x).
    destruct (ffill_step (pct_ffill s2) x) as [v ff].
    destruct (ring_call_sim 2 n (fpct_lag s1) (pct_lag s2) v ltac:(lia) Hn HR) as [E R'].
    destruct (ring_call _ _ _), (buffer_apply _ _ _). cbn [fst snd] in *. subst. auto.
  - intros n _. right. exists (2 ^ 31)%Z. reflexivity.
Qed.

Lemma frolling_same horizon mp xs : 0 < horizon -> xs <> [] -> index_safe horizon xs ->
  same_outputs (FRollingMean horizon mp) (RollingMean horizon mp) xs.
Proof.
  intros Hm Hne Hs. destruct xs as [|x0 xs]; [congruence|].
  apply (simulation _ _ _ (ring_rel horizon) (safe_call horizon)).
  - apply ring_rel_init; auto.
  - intros n s1 s2 x Hn HR. cbn [fx_call FRollingMean]. unfold frolling_call, rolling_mean_step, rolling_mean_of.
    destruct (ring_call_sim horizon n s1 s2 x ltac:(lia) Hn HR) as [E R'].
    destruct (ring_call _ _ _), (buffer_apply _ _ _). cbn [fst snd] in *. subst. auto.
  - intros n Hn. eapply index_safe_call; eauto.
Qed.

Lemma fhas_changed_same {A} (neq : A -> A -> bool) dflt xs : xs <> [] ->
  same_outputs (FHasChanged neq dflt) (HasChanged neq dflt) xs.
Proof.
  intros Hne. destruct xs as [|x0 xs]; [congruence|].
  apply (simulation _ _ _ (fun _ a b => a = b) (fun _ => True)); auto.
  intros n s1 s2 x _ ->. split; reflexivity.
Qed.

Lemma fcounter_same xs : xs <> [] -> same_outputs FCounter Counter xs.
Proof.
  intros Hne. destruct xs as [|x0 xs]; [congruence|].
  apply (simulation _ _ _ (fun _ a b => a = b) (fun _ => True)); auto.
  intros n s1 s2 x _ ->. split; reflexivity.
Qed.


Lemma fewma_call_eq fm cfg st x : not_inf (ew_mean st) -> fewma_call fm cfg st x = ewma_step fm cfg st x.
Proof.
  intros H. unfold fewma_call, ewma_step. destruct (ew_mean st) eqn:E; try contradiction; destruct x; reflexivity.
Qed.

Definition fewma_rel (fm : R) (cfg : ewma_cfg) (a b : ewma_state) : Prop :=
  a = b /\ not_inf (ew_mean b) /\ exists w, old_wt b = Fin w /\ (0 <= w)%R.

Lemma fewma_sim fm cfg s1 s2 x : (0 <= com cfg)%R -> fewma_rel fm cfg s1 s2 ->
  fewma_call fm cfg s1 x = ewma_step fm cfg s2 x /\ fewma_rel fm cfg (snd (fewma_call fm cfg s1 x)) (snd (ewma_step fm cfg s2 x)).
Proof.
  intros Hc (-> & Hn & w & Hw & Hw0). rewrite fewma_call_eq by auto. split; [reflexivity|]. split; [reflexivity|].
  rewrite (ewma_step_eq fm cfg s2 x w _ Hc Hw Hw0 eq_refl). cbn [snd ew_mean old_wt]. split.
  - destruct (r_mean _ _ _ _); exact I.
  - eexists. split; [reflexivity|]. apply r_wt_nonneg; auto.
Qed.

Lemma fewma_rel_init fm cfg : not_inf (initial_value cfg) -> fewma_rel fm cfg (ewma_init cfg) (ewma_init cfg).
Proof. intros H. split; [reflexivity|]. split; [exact H|]. exists 1%R. split; [reflexivity|lra]. Qed.

Lemma fewma_same fm cfg xs : (0 <= com cfg)%R -> not_inf (initial_value cfg) -> xs <> [] ->
  same_outputs (FEWMA fm cfg) (EWMA_info fm cfg) xs.
Proof.
  intros Hc Hi Hne. destruct xs as [|x0 xs]; [congruence|].
  apply (simulation _ _ _ (fun _ => fewma_rel fm cfg) (fun _ => True)); auto.
  - apply fewma_rel_init; auto.
  - intros n s1 s2 x _ HR. cbn [fx_call FEWMA].
    destruct (fewma_sim fm cfg s1 s2 x Hc HR) as [E R']. split; [rewrite E; reflexivity|exact R'].
Qed.

Lemma fewma_inf fm cfg : initial_value cfg = PInf -> min_periods cfg = 0%Z ->
  map fst (flax_from_scratch (FEWMA fm cfg) [NaN]) = [PInf] /\
  exists sF, run (EWMA fm cfg) [NaN] = Some ([Fin fm], sF).
Proof.
  intros Hi Hp. split.
  - cbn. unfold fewma_call. cbn. rewrite Hi, Hp. cbn. destruct (adjust cfg); reflexivity.
  - destruct (adjust cfg) eqn:Ea; eexists; unfold EWMA; rewrite run_eq; cbn [lax_scan]; unfold stepf;
      unfold ewma_step, ewma_init; cbn [ew_mean]; rewrite Hi, Hp, Ea; reflexivity.
Qed.

Lemma fewmvar_same com_ adj xs : xs <> [] -> same_outputs (FEWMVar com_ adj) (EWMVar com_ adj) xs.
Proof.
  intros Hne. destruct xs as [|x0 xs]; [congruence|].
  apply (simulation _ _ _ (fun _ a b => a = b) (fun _ => True)); auto.
  intros n s1 s2 x _ ->. split; reflexivity.
Qed.

(** vectors *)
Lemma fewma_vec_sim fm cfg s1 s2 x : (0 <= com cfg)%R -> Forall2 (fewma_rel fm cfg) s1 s2 ->
  fst (fewma_vec fm cfg s1 x) = fst (ewma_vec fm cfg s2 x) /\
  Forall2 (fewma_rel fm cfg) (snd (fewma_vec fm cfg s1 x)) (snd (ewma_vec fm cfg s2 x)).
Proof.
  intros Hc HF. unfold fewma_vec, ewma_vec. cbn [fst snd]. revert x.
  induction HF as [|a b l1 l2 Hab HF IH]; intros [|v x]; cbn [map2 map]; auto.
  destruct (fewma_sim fm cfg a b v Hc Hab) as [E R']. destruct (IH x) as [E2 R2]. split.
  - rewrite E. f_equal. exact E2.
  - constructor; auto.
Qed.

Lemma fewma_mat_sim fm cfg s1 s2 x : (0 <= com cfg)%R -> Forall2 (Forall2 (fewma_rel fm cfg)) s1 s2 ->
  fst (fewma_mat fm cfg s1 x) = fst (ewma_mat fm cfg s2 x) /\
  Forall2 (Forall2 (fewma_rel fm cfg)) (snd (fewma_mat fm cfg s1 x)) (snd (ewma_mat fm cfg s2 x)).
Proof.
  intros Hc HF. unfold fewma_mat, ewma_mat. cbn [fst snd]. revert x.
  induction HF as [|a b l1 l2 Hab HF IH]; intros [|v x]; cbn [map2 map]; auto.
  destruct (fewma_vec_sim fm cfg a b v Hc Hab) as [E R']. destruct (IH x) as [E2 R2]. split.
  - rewrite E. f_equal. exact E2.
  - constructor; auto.
Qed.

Lemma F2_map_const {A B} (R : B -> B -> Prop) b (l : list A) : R b b -> Forall2 R (map (fun _ => b) l) (map (fun _ => b) l).
Proof. intros H. induction l; cbn; auto. Qed.

Lemma fewmcov_same fm cfg ac xs : (0 <= com cfg)%R -> not_inf (initial_value cfg) -> xs <> [] ->
  same_outputs (FEWMCov fm cfg ac) (EWMCov fm cfg ac) xs.
Proof.
  intros Hc Hi Hne. destruct xs as [|x0 xs]; [congruence|].
  apply (simulation _ _ _ (fun _ a b => Forall2 (Forall2 (fewma_rel fm cfg)) (cov_xy a) (cov_xy b) /\
    Forall2 (fewma_rel fm cfg) (cov_x a) (cov_x b) /\ Forall2 (fewma_rel fm cfg) (cov_y a) (cov_y b)) (fun _ => True)); auto.
  - cbn. unfold outer. split; [|split; apply F2_map_const, fewma_rel_init; auto].
    apply (F2_map_const (Forall2 (fewma_rel fm cfg)) (map (fun _ => ewma_init cfg) (snd x0)) (fst x0)).
    apply F2_map_const, fewma_rel_init; auto.
  - intros n s1 s2 [x y] _ (H1 & H2 & H3). cbn [fx_call FEWMCov]. unfold fewmcov_call, ewmcov_step.
    destruct (fewma_mat_sim fm cfg _ _ (outer fmul x y) Hc H1) as [E1 R1].
    destruct (fewma_vec_sim fm cfg _ _ x Hc H2) as [E2 R2].
    destruct (fewma_vec_sim fm cfg _ _ y Hc H3) as [E3 R3].
    destruct (fewma_mat _ _ _ _), (ewma_mat _ _ _ _), (fewma_vec _ _ (cov_x s1) _), (ewma_vec _ _ (cov_x s2) _),
      (fewma_vec _ _ (cov_y s1) _), (ewma_vec _ _ (cov_y s2) _). cbn [fst snd] in *. subst.
    destruct ac; cbn [fst snd cov_xy cov_x cov_y]; auto.
Qed.

Lemma fewmcov_com_eq c : (1 + c <> 0)%R -> fewmcov_com (Some c) None = Some c.
Proof. intros H. cbn. f_equal. field. auto. Qed.

(** *** C51: the unroll *)
Lemma flax_unroll_doubles {S X Y} (m : flax_module S X Y) x0 xs :
  exists sF, flax_unroll (fun k => (k, k)) (flax_tf m) false None None None (x0 :: xs) =
    Some (tl (flax_from_scratch m (x0 :: x0 :: xs)), sF).
Proof.
  eexists. unfold flax_unroll. cbn [unroll_init flax_tf flax_transform_with_state t_init].
  rewrite unroll_apply_eq. f_equal.
  set (f := scan_f _ _ _).
  assert (G : forall l s, lax_scan f (s, None) l =
            (fst (lax_scan (stepf (fx_call m)) s l), None, snd (lax_scan (stepf (fx_call m)) s l))).
  { induction l as [|x l IH]; intros s; cbn [lax_scan]; auto.
    unfold f at 1, scan_f at 1. cbn [t_apply flax_tf flax_transform_with_state]. unfold stepf at 1 3.
    destruct (fx_call m s x) as [y s']. cbn [fst snd]. rewrite IH.
    destruct (lax_scan _ s' l). reflexivity. }
  rewrite G. cbn [fst snd]. f_equal.
  unfold flax_from_scratch. rewrite flax_calls_scan. cbn [fst].
  change (lax_scan (stepf (fx_call m)) (fx_vars m x0) (x0 :: x0 :: xs)) with
    (let '(c1, y) := stepf (fx_call m) (fx_vars m x0) x0 in
     let '(c2, ys) := lax_scan (stepf (fx_call m)) c1 (x0 :: xs) in (c2, y :: ys)).
  unfold stepf at 2. destruct (fx_call m (fx_vars m x0) x0) as [y s1]. cbn [fst snd].
  destruct (lax_scan _ s1 (x0 :: xs)). reflexivity.
Qed.

Lemma lax_scan_flax {S X Y} (m : flax_module S X Y) l s :
  lax_scan (scan_f (fun k : unit => (k, k)) (flax_tf m) tt) (s, None) l =
  (fst (lax_scan (stepf (fx_call m)) s l), None, snd (lax_scan (stepf (fx_call m)) s l)).
Proof.
  revert s. induction l as [|x l IH]; intros s; cbn [lax_scan]; auto.
  unfold scan_f at 1. cbn [t_apply flax_tf flax_transform_with_state]. unfold stepf at 1 3.
  destruct (fx_call m s x) as [y s']. cbn [fst snd]. rewrite IH.
  destruct (lax_scan _ s' l). reflexivity.
Qed.

Lemma flax_unroll_given {S X Y} (m : flax_module S X Y) s xs :
  flax_unroll (fun k => (k, k)) (flax_tf m) false None (Some tt) (Some s) xs = Some (flax_calls m s xs).
Proof.
  unfold flax_unroll. rewrite unroll_apply_eq, lax_scan_flax, flax_calls_scan. reflexivity.
Qed.

Lemma flax_unroll_skip_first {S X Y} (m : flax_module S X Y) x0 xs :
  exists sF, flax_unroll (fun k => (k, k)) (flax_tf m) true None None None (x0 :: xs) =
    Some (tl (flax_from_scratch m (x0 :: xs)), sF).
Proof.
  exists (snd (flax_calls m (snd (fx_call m (fx_vars m x0) x0)) xs)). unfold flax_unroll. cbn [unroll_init flax_tf flax_transform_with_state t_init].
  rewrite unroll_apply_eq. fold (flax_tf m). cbn [tl]. rewrite lax_scan_flax. cbn [fst snd].
  unfold flax_from_scratch. cbn [flax_calls].
  destruct (fx_call m (fx_vars m x0) x0) as [y s1]. cbn [fst snd]. rewrite flax_calls_scan. reflexivity.
Qed.

Lemma flax_unroll_continues {S X Y} (m : flax_module S X Y) x0 xs xs' ys sF :
  flax_unroll (fun k => (k, k)) (flax_tf m) false None None None (x0 :: xs) = Some (ys, sF) ->
  exists ys' sF', flax_unroll (fun k => (k, k)) (flax_tf m) false None (Some tt) (Some sF) xs' = Some (ys', sF') /\
    flax_unroll (fun k => (k, k)) (flax_tf m) false None None None ((x0 :: xs) ++ xs') = Some (ys ++ ys', sF').
Proof.
  intros H. exists (fst (flax_calls m sF xs')), (snd (flax_calls m sF xs')).
  rewrite flax_unroll_given. split; [destruct (flax_calls m sF xs'); reflexivity|].
  assert (G : forall l, flax_unroll (fun k => (k, k)) (flax_tf m) false None None None (x0 :: l) =
    Some (flax_calls m (snd (fx_call m (fx_vars m x0) x0)) (x0 :: l))).
  { intros l. unfold flax_unroll. cbn [unroll_init flax_tf flax_transform_with_state t_init].
    rewrite unroll_apply_eq. fold (flax_tf m). rewrite lax_scan_flax, flax_calls_scan. reflexivity. }
  rewrite G in H. cbn [app]. rewrite G. change (x0 :: xs ++ xs') with ((x0 :: xs) ++ xs').
  rewrite flax_calls_app. apply some_pair_inj' in H. destruct H as [<- <-]. reflexivity.
Qed.
