From Coq Require Import List Arith ZArith Lia Reals Lra Bool.
From Verif Require Import Model.Tree Model.Unroll Model.Float Model.Modules Model.Ewm Model.Dynamics Model.FlaxModules
  Model.FlaxMore Spec.SeriesSpec Spec.DynSpec Spec.EwmSpec Spec.FlaxSpec Spec.FlaxMoreSpec Proofs.ListFacts
  Proofs.UnrollProofs Proofs.RunFacts Proofs.BufferProofs Proofs.FloatFacts Proofs.EwmFacts Proofs.EwmcovProofs
  Proofs.FlaxProofs Proofs.DynProofs Proofs.DynProofs2.
Import ListNotations.

(** *** Invariants of runs *)
Lemma flax_calls_length {S X Y} (m : flax_module S X Y) s xs : length (fst (flax_calls m s xs)) = length xs.
Proof.
  revert s. induction xs as [|x xs IH]; intros s; cbn [flax_calls]; [reflexivity|].
  destruct (fx_call m s x) as [y s1]. specialize (IH s1). destruct (flax_calls m s1 xs). cbn in *. lia.
Qed.

Lemma flax_scratch_length {S X Y} (m : flax_module S X Y) xs : length (flax_from_scratch m xs) = length xs.
Proof. destruct xs as [|x0 xs]; [reflexivity|]. apply flax_calls_length. Qed.

Lemma flax_calls_inv {S X Y} (m : flax_module S X Y) (Inv : list X -> S -> Prop) (G : nat -> Prop) s0 xs :
  Inv [] s0 ->
  (forall pre s x, G (length pre) -> Inv pre s -> Inv (pre ++ [x]) (snd (fx_call m s x))) ->
  (forall n, n < length xs -> G n) ->
  Inv xs (snd (flax_calls m s0 xs)) /\
  forall t x, nth_error xs t = Some x ->
    exists s, Inv (firstn t xs) s /\ Inv (firstn (t + 1) xs) (snd (fx_call m s x)) /\
      nth_error (fst (flax_calls m s0 xs)) t = Some (fst (fx_call m s x)).
Proof.
  intros H0 Hs. induction xs as [|z xs IH] using rev_ind; intros HG.
  - cbn. split; [auto|]. intros [|t] x; discriminate.
  - destruct IH as [I1 I2]. { intros n Hn. apply HG. rewrite app_length. lia. }
    rewrite flax_calls_app. cbn [flax_calls].
    assert (HGl : G (length xs)) by (apply HG; rewrite app_length; cbn; lia).
    pose proof (Hs xs _ z HGl I1) as I3.
    destruct (fx_call m (snd (flax_calls m s0 xs)) z) as [y s1] eqn:E. cbn [fst snd] in *.
    split; [exact I3|]. intros t x Hx. destruct (Nat.lt_ge_cases t (length xs)) as [Ht|Ht].
    + rewrite nth_error_app1 in Hx by auto. destruct (I2 t x Hx) as (s & J1 & J2 & J3). exists s.
      rewrite !firstn_app. replace (t - length xs) with 0 by lia. replace (t + 1 - length xs) with 0 by lia.
      rewrite !firstn_O, !app_nil_r. split; [auto|]. split; [auto|].
      rewrite nth_error_app1; [exact J3|]. rewrite flax_calls_length. auto.
    + assert (t = length xs).
      { assert (t < length (xs ++ [z])) by (apply nth_error_Some; congruence). rewrite app_length in *. cbn in *. lia. }
      subst t. rewrite nth_error_app2, Nat.sub_diag in Hx by lia. cbn in Hx. injection Hx as <-.
      exists (snd (flax_calls m s0 xs)). rewrite E. cbn [fst snd].
      rewrite firstn_app, Nat.sub_diag, firstn_O, app_nil_r, firstn_all.
      rewrite firstn_all2 by (rewrite app_length; cbn; lia).
      split; [auto|]. split; [auto|]. rewrite nth_error_app2 by (rewrite flax_calls_length; lia).
      rewrite flax_calls_length, Nat.sub_diag. reflexivity.
Qed.

(** *** OHLC *)
Lemma ffv_snoc l v : from_first_valid (l ++ [v]) =
  match from_first_valid l with [] => if isnan v then [] else [v] | l' => l' ++ [v] end.
Proof.
  induction l as [|a l IH]; cbn [app from_first_valid]; [destruct (isnan v); reflexivity|].
  destruct (isnan a); [exact IH|reflexivity].
Qed.

Lemma ffv_hd l v r : from_first_valid l = v :: r -> isnan v = false.
Proof.
  induction l as [|a l IH]; cbn [from_first_valid]; [discriminate|].
  destruct (isnan a) eqn:E; [exact IH|]. intros [= <- <-]. exact E.
Qed.

Lemma flax_bar_step bin o v : flax_bar bin o -> flax_bar (bin ++ [v]) (snd (fohlc_call o (v, false))).
Proof.
  intros [Hc H]. unfold flax_bar. rewrite ffv_snoc, last_last. unfold fohlc_call. cbn [snd orb].
  destruct (from_first_valid bin) as [|w r] eqn:E.
  - destruct H as (Ho & Hh & Hl). rewrite Ho. cbn [isnan o_open o_high o_low o_close]. split; [reflexivity|].
    destruct (isnan v) eqn:Hv.
    + apply isnan_true in Hv. auto.
    + pose proof (proj1 (isnan_false v) Hv) as NV. split; [reflexivity|]. split.
      * intros [F|[]]; congruence.
      * intros _. split; (split; [left; reflexivity|]); intros x [<-|[]]; apply fle_refl; auto.
  - pose proof (ffv_hd _ _ _ E) as Hw. destruct H as (Ho & HN & HV). rewrite Ho, Hw.
    cbn [o_open o_high o_low o_close app]. split; [reflexivity|]. split; [reflexivity|].
    split.
    + intros Hin. change (w :: r ++ [v]) with ((w :: r) ++ [v]) in Hin. apply in_app_or in Hin.
      destruct Hin as [Hin|[->|[]]].
      * destruct (HN Hin) as [-> ->]. unfold fmax, fmin. cbn. auto.
      * unfold fmax, fmin. cbn [isnan]. destruct (isnan (o_high o)), (isnan (o_low o)); auto.
    + intros Hni. assert (Hn1 : ~ In NaN (w :: r)).
      { intros Hin. apply Hni. change (w :: r ++ [v]) with ((w :: r) ++ [v]). apply in_or_app. auto. }
      assert (NV : v <> NaN) by (intros ->; apply Hni; right; apply in_or_app; right; left; auto).
      destruct (HV Hn1) as [[G1 G2] [L1 L2]].
      assert (NH : o_high o <> NaN) by (intros F; rewrite F in G1; auto).
      assert (NL : o_low o <> NaN) by (intros F; rewrite F in L1; auto).
      unfold fmax, fmin. rewrite !(proj2 (isnan_false _)) by auto.
      change (w :: r ++ [v]) with ((w :: r) ++ [v]). split.
      * destruct (flt (o_high o) v) eqn:F; split.
        -- apply in_or_app; right; left; auto.
        -- intros x Hx. apply in_app_or in Hx. destruct Hx as [Hx|[<-|[]]]; [|apply fle_refl; auto].
           eapply fle_trans; [apply G2; auto|apply flt_fle; auto].
        -- apply in_or_app; auto.
        -- intros x Hx. apply in_app_or in Hx. destruct Hx as [Hx|[<-|[]]]; [auto|]. apply not_flt_fle; auto.
      * destruct (flt v (o_low o)) eqn:F; split.
        -- apply in_or_app; right; left; auto.
        -- intros x Hx. apply in_app_or in Hx. destruct Hx as [Hx|[<-|[]]]; [|apply fle_refl; auto].
           eapply fle_trans; [apply flt_fle; eauto|apply L2; auto].
        -- apply in_or_app; auto.
        -- intros x Hx. apply in_app_or in Hx. destruct Hx as [Hx|[<-|[]]]; [auto|]. apply not_flt_fle; auto.
Qed.

Lemma flax_bar_reset o v : flax_bar [v] (snd (fohlc_call o (v, true))).
Proof.
  change (flax_bar ([] ++ [v]) (snd (fohlc_call ohlc_nan (v, false)))). apply flax_bar_step.
  split; [reflexivity|]. cbn. auto.
Qed.

Lemma fohlc_run (xs : list (fl * bool)) t bin : t < length xs -> is_bin (firstn (t + 1) xs) bin ->
  exists o, nth_error (flax_from_scratch FOHLC xs) t = Some o /\ flax_bar bin o.
Proof.
  intros Ht Hb. destruct xs as [|x0 r]; [cbn in Ht; lia|].
  destruct (flax_calls_inv FOHLC (fun pre o => flax_bar (bin_of pre) o) (fun _ => True) ohlc_nan (x0 :: r)) as [_ H].
  - split; [reflexivity|]. cbn. auto.
  - intros pre s [v rs] _ H. rewrite bin_of_snoc. cbn [fx_call FOHLC]. destruct rs.
    + apply flax_bar_reset.
    + apply flax_bar_step; auto.
  - auto.
  - destruct (nth_error_lt (x0 :: r) t Ht) as [x Hx]. destruct (H t x Hx) as (s & _ & H2 & H3).
    eexists. split; [exact H3|]. apply is_bin_bin_of in Hb. subst bin.
    replace (fst (fx_call FOHLC s x)) with (snd (fx_call FOHLC s x)) by (destruct x; reflexivity). exact H2.
Qed.

(** agreement with haiku without missing values *)
Lemma fohlc_same xs : xs <> [] -> Forall (fun p => fst p <> NaN) xs -> same_outputs FOHLC OHLC xs.
Proof.
  intros Hne HF. destruct xs as [|x0 xs]; [congruence|].
  set (N := fun n : nat => True).
  set (Rel := fun (n : nat) (a b : ohlc) => a = b /\ (o_open a = NaN /\ b = ohlc_nan \/
     (o_open a <> NaN /\ o_high a <> NaN /\ o_low a <> NaN))).
  (* inputs are restricted, so go through the scan *)
  eexists. unfold OHLC. rewrite run_eq. unfold flax_from_scratch. rewrite flax_calls_scan. cbn [fst].
  assert (G : forall l n s1 s2, Forall (fun p : fl * bool => fst p <> NaN) l -> Rel n s1 s2 ->
    snd (lax_scan (stepf ohlc_step) s2 l) = snd (lax_scan (stepf (fx_call FOHLC)) s1 l)).
  { induction l as [|[v rs] l IH]; intros n s1 s2 Hl HR; cbn [lax_scan]; [reflexivity|].
    inversion Hl as [|? ? Hv Hl']; subst. cbn [fst] in Hv.
    destruct HR as [<- HR].
    assert (E : stepf (fx_call FOHLC) s1 (v, rs) = stepf ohlc_step s1 (v, rs) /\ Rel n (fst (stepf ohlc_step s1 (v, rs))) (fst (stepf ohlc_step s1 (v, rs)))).
    { unfold stepf, fx_call, FOHLC, fohlc_call, ohlc_step.
      assert (flt v v = false) as F by (destruct v; cbn; auto; apply Rlt_b_false; lra).
      pose proof (proj2 (isnan_false _) Hv) as Iv.
      destruct rs; cbn [orb].
      - cbn [ohlc_nan o_open o_high o_low o_close isnan]. rewrite Iv. cbn [negb]. rewrite F. cbn [fst snd].
        split; [reflexivity|]. split; [reflexivity|]. right. cbn. auto.
      - destruct HR as [[Ho ->]|(Ho & Hh & Hlo)].
        + cbn [ohlc_nan o_open o_high o_low o_close isnan]. rewrite Iv. cbn [negb]. rewrite F.
          split; [reflexivity|]. split; [reflexivity|]. right. cbn. auto.
        + rewrite Iv. cbn [negb]. rewrite !(proj2 (isnan_false _)) by auto.
          unfold fmax, fmin. rewrite !(proj2 (isnan_false _)) by auto. cbn [fst snd].
          split; [reflexivity|]. split; [reflexivity|]. right. cbn.
          split; [auto|]. split; match goal with |- (if ?c then _ else _) <> _ => destruct c; auto end. }
    destruct E as [E HR']. rewrite E. destruct (stepf ohlc_step s1 (v, rs)) as [s' y]. cbn [fst] in HR'.
    specialize (IH n s' s' Hl' HR').
    destruct (lax_scan (stepf ohlc_step) s' l), (lax_scan (stepf (fx_call FOHLC)) s' l). cbn [snd] in *. congruence. }
  rewrite (G (x0 :: xs) 0 ohlc_nan ohlc_nan HF); [reflexivity|]. split; [reflexivity|]. left. auto.
Qed.

(** a missing value in an open bar: high and low are lost, close is NaN *)
Lemma fohlc_nan_poisons pre v mid post : isnan v = false ->
  Forall (fun p : fl * bool => snd p = false) (mid ++ (NaN, false) :: post) ->
  exists o, nth_error (flax_from_scratch FOHLC (pre ++ (v, true) :: mid ++ (NaN, false) :: post))
              (length pre + 1 + length mid + length post) = Some o /\
            ( post = [] -> o_close o = NaN) /\ o_open o = v /\ o_high o = NaN /\ o_low o = NaN.
Proof.
  intros Hv HF. set (xs := pre ++ (v, true) :: mid ++ (NaN, false) :: post). set (bn := v :: map fst (mid ++ (NaN, false) :: post)).
  assert (HL : length xs = length pre + 1 + length mid + length post + 1).
  { unfold xs. rewrite app_length. cbn. rewrite app_length. cbn. lia. }
  destruct (fohlc_run xs (length pre + 1 + length mid + length post) bn) as (o & Ho & Hb).
  - lia.
  - left. exists pre, v, (mid ++ (NaN, false) :: post). split; [|split; auto].
    rewrite <- HL, firstn_all. reflexivity.
  - exists o. split; [exact Ho|]. destruct Hb as [Hc Hb].
    assert (E : from_first_valid bn = bn) by (unfold bn; cbn [from_first_valid]; rewrite Hv; reflexivity).
    rewrite E in Hb. unfold bn in Hb. destruct Hb as (H1 & H2 & _).
    destruct H2 as [H2 H3]. { right. apply in_map_iff. exists (NaN, false). split; [reflexivity|]. apply in_or_app. right. left. reflexivity. }
    split; [|auto]. intros ->. rewrite Hc. unfold bn. rewrite map_app. cbn [map fst].
    change (v :: map fst mid ++ [NaN]) with ((v :: map fst mid) ++ [NaN]). apply last_last.
Qed.

(** *** Histories of a ring *)
Definition ring_hist {A} (m : nat) (f : A) (h : list A) (st : ring_state A) : Prop :=
  exists hs, buf_inv m f h hs /\ ring_rel m (length h) st hs.

Lemma ring_hist_init {A} m (f : A) : 0 < m -> ring_hist m f [] (ring_init m f).
Proof. intros Hm. exists (buffer_init m f). split; [apply buf_inv_init|apply ring_rel_init; auto]. Qed.

Lemma ring_hist_call {A} m (f : A) h st x : 0 < m -> safe_call m (length h) -> ring_hist m f h st ->
  fst (ring_call m st x) = padded_window m f (h ++ [x]) /\
  is_window m f (h ++ [x]) (fst (ring_call m st x)) /\
  ring_hist m f (h ++ [x]) (snd (ring_call m st x)).
Proof.
  intros Hm Hs (hs & HI & HR). destruct (ring_call_sim m (length h) st hs x Hm Hs HR) as [E HR'].
  pose proof (buf_inv_step m f h hs x Hm HI) as HI'.
  assert (HW : is_window m f (h ++ [x]) (fst (ring_call m st x))).
  { rewrite E. destruct HI' as [W _]. exact W. }
  split; [|split; [exact HW|]].
  - unfold padded_window. apply window_list. exact HW.
  - eexists. split; [exact HI'|]. rewrite app_length. cbn [length]. rewrite Nat.add_1_r. exact HR'.
Qed.

(** *** ARMA *)
Definition zipped (ys : list R) : list R := flat_map (fun y => [0%R; y]) ys.
Lemma zipped_length ys : length (zipped ys) = 2 * length ys.
Proof. unfold zipped. induction ys as [|y ys IH]; cbn [flat_map app length]; [reflexivity|]. rewrite IH. lia. Qed.
Lemma zipped_snoc ys y : zipped (ys ++ [y]) = (zipped ys ++ [0%R]) ++ [y].
Proof. unfold zipped. rewrite flat_map_app. cbn. rewrite <- app_assoc. reflexivity. Qed.
Lemma zipped_nth ys i : nth (2 * i) (zipped ys) 0%R = 0%R /\ nth (2 * i + 1) (zipped ys) 0%R = nth i ys 0%R.
Proof.
  revert i. induction ys as [|y ys IH]; intros i.
  - cbn [zipped flat_map]. split; [destruct (2 * i)|destruct (2 * i + 1), i]; reflexivity.
  - destruct i as [|i]; [cbn; auto|]. destruct (IH i) as [H1 H2].
    replace (2 * S i) with (S (S (2 * i))) by lia. replace (S (S (2 * i)) + 1) with (S (S (2 * i + 1))) by lia. cbn [zipped flat_map app nth].
    auto.
Qed.

Lemma lagged_zipped ys j : 0 < j ->
  lagged 0%R (zipped ys ++ [0%R]) (2 * length ys + 1) j =
  if Nat.even j then lagged 0%R ys (length ys) (Nat.div2 j) else 0%R.
Proof.
  intros Hj. unfold lagged.
  destruct (Nat.even j) eqn:E.
  - apply Nat.even_spec in E. destruct E as [d ->]. rewrite Nat.div2_double.
    destruct (Nat.leb_spec (2 * d) (2 * length ys + 1)), (Nat.leb_spec d (length ys)); try lia; [|reflexivity].
    rewrite app_nth1 by (rewrite zipped_length; lia).
    replace (2 * length ys + 1 - 2 * d) with (2 * (length ys - d) + 1) by lia. apply zipped_nth.
  - assert (O : Nat.odd j = true) by (rewrite <- Nat.negb_even, E; reflexivity).
    apply Nat.odd_spec in O. destruct O as [d ->].
    destruct (Nat.leb_spec (2 * d + 1) (2 * length ys + 1)); [|reflexivity].
    replace (2 * length ys + 1 - (2 * d + 1)) with (2 * (length ys - d)) by lia.
    destruct (Nat.eq_dec d 0) as [->|Hd].
    + rewrite app_nth2 by (rewrite zipped_length; lia). rewrite zipped_length, Nat.sub_0_r, Nat.sub_diag. reflexivity.
    + rewrite app_nth1 by (rewrite zipped_length; lia). apply zipped_nth.
Qed.

Definition rhist (m : nat) (h : list R) (st : ring_state fl) : Prop := 0 < m -> ring_hist m (Fin 0) (map Fin h) st.

Lemma rhist_call m h st x : 0 < m -> safe_call m (length h) -> rhist m h st ->
  fst (ring_call m st (Fin x)) =
    map (fun i => Fin (lagged 0%R (h ++ [x]) (length h + 1) (m - i))) (seq 0 m) /\
  rhist m (h ++ [x]) (snd (ring_call m st (Fin x))).
Proof.
  intros Hm Hs HR. destruct (ring_hist_call m (Fin 0) (map Fin h) st (Fin x) Hm) as (_ & HW & HH).
  - rewrite map_length. exact Hs.
  - exact (HR Hm).
  - split.
    + replace (length h + 1) with (length (h ++ [x])) by (rewrite app_length; reflexivity).
      apply window_fin; [lia|]. intros _. rewrite map_app. exact HW.
    + intros _. rewrite map_app. exact HH.
Qed.

Lemma flax_arma_value_prefix alpha beta ys ys' eps eps' t :
  t <= length ys -> t < length eps ->
  flax_arma_value alpha beta (ys ++ ys') (eps ++ eps') t = flax_arma_value alpha beta ys eps t.
Proof.
  intros H1 H2. unfold flax_arma_value. rewrite app_nth1 by auto. f_equal; [f_equal|].
  - apply sum_n_ext. intros i Hi. destruct (Nat.even (length alpha - i)) eqn:E; [|reflexivity]. f_equal.
    apply lagged_prefix; [auto|]. apply Nat.even_spec in E. destruct E as [d E]. rewrite E, Nat.div2_double. lia.
  - apply sum_n_ext. intros j Hj. f_equal. unfold lagged. destruct (Nat.leb _ t); [|reflexivity]. apply app_nth1. lia.
Qed.

Section FArma.
  Definition fstep_safe (alpha beta : list R) (n : nat) : Prop :=
    safe_call (length alpha) (2 * n) /\ safe_call (length alpha) (2 * n + 1) /\ safe_call (length beta) n.

  Lemma farma_step alpha beta pre ys st e : fstep_safe alpha beta (length pre) ->
    flax_arma_rec alpha beta pre ys -> rhist (length alpha) (zipped ys) (fa_ar st) -> rhist (length beta) pre (fa_ma st) ->
    let v := flax_arma_value alpha beta ys (pre ++ [e]) (length pre) in
    exists st', farma_call (map Fin alpha) (map Fin beta) st (Fin e) = (Fin v, st') /\
      flax_arma_rec alpha beta (pre ++ [e]) (ys ++ [v]) /\
      rhist (length alpha) (zipped (ys ++ [v])) (fa_ar st') /\ rhist (length beta) (pre ++ [e]) (fa_ma st').
  Proof.
    intros (S1 & S2 & S3) [Hl Hr] HA HB v.
    (* AR part *)
    set (A := sum_n (length alpha) (fun i => if Nat.even (length alpha - i)
                 then (nth i alpha 0 * lagged 0 ys (length pre) (Nat.div2 (length alpha - i)))%R else 0%R)).
    set (B := sum_n (length beta) (fun j => (nth j beta 0 * lagged 0 (pre ++ [e]) (length pre) (length beta - 1 - j))%R)).
    assert (EV : v = (e + A + B)%R).
    { unfold v, flax_arma_value. rewrite app_nth2, Nat.sub_diag by lia. reflexivity. }
    assert (EA : 0 < length alpha -> dot (map Fin alpha) (fst (ring_call (length alpha) (fa_ar st) (Fin 0))) = Fin A /\
       rhist (length alpha) (zipped ys ++ [0%R]) (snd (ring_call (length alpha) (fa_ar st) (Fin 0)))).
    { intros Hp. destruct (rhist_call (length alpha) (zipped ys) (fa_ar st) 0%R Hp) as [W H'].
      - rewrite zipped_length, Hl. exact S1.
      - exact HA.
      - split; [|exact H']. rewrite W, zipped_length.
        rewrite (fdot_fin alpha (fun i => lagged 0%R (zipped ys ++ [0%R]) (2 * length ys + 1) (length alpha - i))). f_equal.
        apply sum_n_ext. intros i Hi. rewrite lagged_zipped by lia. rewrite Hl.
        destruct (Nat.even _); [reflexivity|ring]. }
    assert (EB : 0 < length beta -> dot (map Fin beta) (fst (ring_call (length beta) (fa_ma st) (Fin e))) = Fin B /\
       rhist (length beta) (pre ++ [e]) (snd (ring_call (length beta) (fa_ma st) (Fin e)))).
    { intros Hp. destruct (rhist_call (length beta) pre (fa_ma st) e Hp S3 HB) as [W H'].
      split; [|exact H']. rewrite W.
      rewrite (fdot_fin beta (fun i => lagged 0%R (pre ++ [e]) (length pre + 1) (length beta - i))). f_equal.
      apply sum_n_ext. intros i Hi. f_equal. unfold lagged.
      destruct (Nat.leb_spec (length beta - i) (length pre + 1)), (Nat.leb_spec (length beta - 1 - i) (length pre)); try lia; [|reflexivity].
      f_equal. lia. }
    assert (HZ : forall st1, rhist (length alpha) (zipped ys ++ [0%R]) st1 ->
       rhist (length alpha) (zipped (ys ++ [v])) (snd (ring_call (length alpha) st1 (Fin v)))).
    { intros st1 H1 Hp. rewrite zipped_snoc.
      destruct (rhist_call (length alpha) (zipped ys ++ [0%R]) st1 v Hp) as [_ H'].
      - rewrite app_length, zipped_length, Hl. exact S2.
      - exact H1.
      - exact (H' Hp). }
    assert (HREC : flax_arma_rec alpha beta (pre ++ [e]) (ys ++ [v])).
    { split; [rewrite !app_length; cbn; lia|]. intros t Ht. rewrite app_length in Ht. cbn in Ht.
      destruct (Nat.eq_dec t (length pre)) as [->|Hne].
      - rewrite app_nth2 by lia. rewrite Hl, Nat.sub_diag. cbn [nth].
        pose proof (flax_arma_value_prefix alpha beta ys [v] (pre ++ [e]) [] (length pre)) as Q.
        rewrite app_nil_r in Q. rewrite Q; [reflexivity|lia|rewrite app_length; cbn; lia].
      - rewrite app_nth1 by lia. rewrite flax_arma_value_prefix by lia. apply Hr. lia. }
    assert (CA : exists ar1, match map Fin alpha with
        | [] => (Fin e, fa_ar st)
        | _ => let '(h, ar) := ring_call (length alpha) (fa_ar st) (Fin 0) in (fadd (Fin e) (dot (map Fin alpha) h), ar)
        end = (Fin (e + A), ar1) /\ rhist (length alpha) (zipped ys ++ [0%R]) ar1).
    { clear - EA. destruct alpha as [|a0 al].
      - exists (fa_ar st). split; [|intros Hp; cbn in Hp; lia]. cbn. f_equal. f_equal. unfold A. cbn. ring.
      - destruct EA as [E1 E2]; [cbn; lia|]. cbn [map] in *.
        destruct (ring_call (length (a0 :: al)) (fa_ar st) (Fin 0)) as [w ar]. cbn [fst snd] in *.
        exists ar. rewrite E1. split; [reflexivity|exact E2]. }
    assert (CB : exists ma1, match map Fin beta with
        | [] => (Fin (e + A), fa_ma st)
        | _ => let '(h, ma) := ring_call (length beta) (fa_ma st) (Fin e) in (fadd (Fin (e + A)) (dot (map Fin beta) h), ma)
        end = (Fin v, ma1) /\ rhist (length beta) (pre ++ [e]) ma1).
    { rewrite EV. clearbody A. clear - EB. destruct beta as [|b0 be].
      - exists (fa_ma st). split; [|intros Hp; cbn in Hp; lia]. cbn. f_equal. f_equal. unfold B. cbn. ring.
      - destruct EB as [E1 E2]; [cbn; lia|]. cbn [map] in *.
        destruct (ring_call (length (b0 :: be)) (fa_ma st) (Fin e)) as [w ma]. cbn [fst snd] in *.
        exists ma. rewrite E1. split; [reflexivity|exact E2]. }
    destruct CA as (ar1 & CA1 & CA2). destruct CB as (ma1 & CB1 & CB2).
    unfold farma_call. rewrite !map_length. rewrite CA1, CB1.
    exists (FArmaState (match map Fin alpha with [] => ar1 | _ => snd (ring_call (length alpha) ar1 (Fin v)) end) ma1).
    split; [reflexivity|]. split; [exact HREC|]. cbn [fa_ar fa_ma]. split; [|exact CB2].
    intros Hp. specialize (HZ ar1 CA2 Hp). destruct alpha; [cbn in Hp; lia|]. exact HZ.
  Qed.
End FArma.

Lemma safe_two {X} m (xs : list X) n : index_safe m (xs ++ xs) -> n < length xs ->
  safe_call m (2 * n) /\ safe_call m (2 * n + 1).
Proof. unfold index_safe, safe_call. rewrite app_length. intros [H|H] Hn; [split; left; lia|auto]. Qed.

Lemma farma_run alpha beta eps :
  index_safe (length alpha) (eps ++ eps) -> index_safe (length beta) eps ->
  exists ys, flax_from_scratch (FARMA (map Fin alpha) (map Fin beta)) (map Fin eps) = map Fin ys /\
    flax_arma_rec alpha beta eps ys.
Proof.
  intros Sa Sb. destruct eps as [|e0 eps]; [exists []; split; [reflexivity|split; [reflexivity|cbn; lia]]|].
  cbn [map flax_from_scratch]. change (Fin e0 :: map Fin eps) with (map Fin (e0 :: eps)).
  set (all := e0 :: eps) in *.
  assert (G : forall es pre ys0 st, pre ++ es = all -> flax_arma_rec alpha beta pre ys0 ->
     rhist (length alpha) (zipped ys0) (fa_ar st) -> rhist (length beta) pre (fa_ma st) ->
     exists ys, fst (flax_calls (FARMA (map Fin alpha) (map Fin beta)) st (map Fin es)) = map Fin ys /\
       flax_arma_rec alpha beta all (ys0 ++ ys)).
  { induction es as [|e es IH]; intros pre ys0 st Hall H1 H2 H3.
    - exists []. rewrite app_nil_r in *. subst pre. split; [reflexivity|exact H1].
    - assert (Hlt : length pre < length all) by (rewrite <- Hall, app_length; cbn; lia).
      destruct (farma_step alpha beta pre ys0 st e) as (st' & E & R1 & R2 & R3); auto.
      { destruct (safe_two _ _ _ Sa Hlt). split; [auto|]. split; [auto|]. eapply index_safe_call; eauto. }
      destruct (IH (pre ++ [e]) _ st' ltac:(rewrite <- app_assoc; exact Hall) R1 R2 R3) as (ys & E2 & R4).
      eexists (_ :: ys). cbn [map flax_calls]. cbn [fx_call FARMA]. rewrite E.
      change {| fx_vars := _; fx_call := _ |} with (FARMA (map Fin alpha) (map Fin beta)).
      destruct (flax_calls _ st' (map Fin es)) as [o s2]. cbn [fst] in *. subst o. split; [reflexivity|].
      rewrite <- app_assoc in R4. exact R4. }
  destruct (G all [] [] (FArmaState (ring_init (length alpha) (Fin 0)) (ring_init (length beta) (Fin 0)))) as (ys & E & R).
  - reflexivity.
  - split; [reflexivity|cbn; lia].
  - intros Hp. apply ring_hist_init; auto.
  - intros Hp. apply ring_hist_init; auto.
  - exists ys. split; [|exact R]. cbn [fx_vars FARMA]. rewrite !map_length. exact E.
Qed.

(** a single coefficient is ignored *)
Lemma farma_one_coefficient a beta xs :
  flax_from_scratch (FARMA [Fin a] beta) xs = flax_from_scratch (FARMA [] beta) xs.
Proof.
  destruct xs as [|x0 xs]; [reflexivity|]. unfold flax_from_scratch.
  assert (G : forall l s1 s2, fa_ma s1 = fa_ma s2 -> length (ring (fa_ar s1)) = 1 ->
    fst (flax_calls (FARMA [Fin a] beta) s1 l) = fst (flax_calls (FARMA [] beta) s2 l)).
  { assert (RC : forall (st : ring_state fl) x, length (ring st) = 1 ->
      fst (ring_call 1 st x) = [x] /\ length (ring (snd (ring_call 1 st x))) = 1).
    { intros st x H. unfold ring_call. cbn [Z.of_nat]. change (Z.of_nat 1) with 1%Z. rewrite !Z.mod_1_r.
      destruct (ring st) as [|b [|c l]]; try discriminate. cbn. auto. }
    induction l as [|x l IH]; intros s1 s2 Hm H1; [reflexivity|]. cbn [flax_calls fx_call FARMA].
    unfold farma_call. cbn [length].
    destruct (RC (fa_ar s1) (Fin 0) H1) as [W1 W2].
    destruct (ring_call 1 (fa_ar s1) (Fin 0)) as [w ar]. cbn [fst snd] in W1, W2. subst w.
    assert (D : fadd x (dot [Fin a] [Fin 0]) = x).
    { unfold dot. cbn. destruct x; cbn; auto. f_equal. ring. }
    rewrite D. destruct beta as [|b0 be].
    - destruct (RC ar x W2) as [_ W4].
      destruct (ring_call 1 ar x) as [w2 ar2]. cbn [fst snd] in *.
      specialize (IH (FArmaState ar2 (fa_ma s1)) (FArmaState (fa_ar s2) (fa_ma s2)) Hm W4).
      unfold FARMA in IH.
      destruct (flax_calls _ (FArmaState ar2 (fa_ma s1)) l), (flax_calls _ (FArmaState (fa_ar s2) (fa_ma s2)) l).
      cbn [fst] in *. congruence.
    - rewrite Hm. destruct (ring_call (length (b0 :: be)) (fa_ma s2) x) as [w3 ma].
      set (out := fadd x (dot (b0 :: be) w3)). destruct (RC ar out W2) as [_ W4].
      destruct (ring_call 1 ar out) as [w2 ar2]. cbn [fst snd] in *.
      specialize (IH (FArmaState ar2 ma) (FArmaState (fa_ar s2) ma) eq_refl W4).
      unfold FARMA in IH.
      destruct (flax_calls _ (FArmaState ar2 ma) l), (flax_calls _ (FArmaState (fa_ar s2) ma) l).
      cbn [fst] in *. congruence. }
  apply G; [reflexivity|]. reflexivity.
Qed.

(** a missing input with at least two coefficients *)
Lemma fsum_nan l : In NaN l -> fsum l = NaN.
Proof.
  unfold fsum. intros H.
  assert (G : forall l a, a = NaN \/ In NaN l -> fold_left fadd l a = NaN).
  { clear. induction l as [|b l IH]; intros a [Ha|Ha]; cbn [fold_left]; auto; try contradiction.
    - apply IH. left. subst a. destruct b; reflexivity.
    - destruct Ha as [->|Ha]; apply IH; [left; destruct a; reflexivity|right; auto]. }
  apply G. auto.
Qed.

Lemma dot_nan a h i : nth_error h i = Some NaN -> i < length a -> dot a h = NaN.
Proof.
  intros Hh Hi. unfold dot. apply fsum_nan. destruct (nth_error_lt a i Hi) as [x Hx].
  apply (nth_error_In _ i). rewrite nth_error_map2, Hx, Hh. destruct x; reflexivity.
Qed.

Lemma farma_nan_forever alpha beta pre post t :
  2 <= length alpha -> index_safe (length alpha) ((pre ++ NaN :: post) ++ (pre ++ NaN :: post)) ->
  length pre <= t < length (pre ++ NaN :: post) ->
  nth_error (flax_from_scratch (FARMA alpha beta) (pre ++ NaN :: post)) t = Some (Fin 0).
Proof.
  intros Ha Sa Ht. set (all := pre ++ NaN :: post) in *.
  assert (Hm : 0 < length alpha) by lia.
  assert (fadd_nan_r : forall x, fadd x NaN = NaN) by (intros []; reflexivity).
  (* one step, the history of the AR buffer *)
  assert (STEP : forall h st x n, length h = 2 * n -> n < length all -> ring_hist (length alpha) (Fin 0) h (fa_ar st) ->
    exists out, fst (farma_call alpha beta st x) = nan_to_num (Fin 0) (Fin 0) (Fin 0) out /\
      ring_hist (length alpha) (Fin 0) ((h ++ [Fin 0]) ++ [out]) (fa_ar (snd (farma_call alpha beta st x))) /\
      (x = NaN \/ last h (Fin 0) = NaN -> out = NaN)).
  { intros h st x n Hh Hn HR. destruct (safe_two _ _ _ Sa Hn) as [S1 S2].
    destruct (ring_hist_call _ (Fin 0) h (fa_ar st) (Fin 0) Hm ltac:(rewrite Hh; exact S1) HR) as (_ & HW & H1).
    unfold farma_call. destruct alpha as [|a0 al] eqn:E; [cbn in Ha; lia|]. rewrite <- E in *.
    destruct (ring_call (length alpha) (fa_ar st) (Fin 0)) as [w ar]. cbn [fst snd] in *.
    assert (DN : last h (Fin 0) = NaN -> dot alpha w = NaN).
    { intros HL. destruct h as [|z h0 _] using rev_ind; [discriminate|]. rewrite last_last in HL. subst z.
      destruct HW as [HWl HW]. specialize (HW 1 ltac:(lia)). rewrite !app_length in HW. cbn [length] in HW.
      destruct (Nat.ltb_spec 1 (length h0 + 1 + 1)); [|lia].
      rewrite <- app_assoc, nth_error_app2 in HW by lia.
      replace (length h0 + 1 + 1 - 1 - 1 - length h0) with 0 in HW by lia. cbn in HW.
      eapply dot_nan; [exact HW|lia]. }
    destruct (match beta with [] => _ | _ => _ end) as [out ma] eqn:EB.
    assert (HO : x = NaN \/ last h (Fin 0) = NaN -> out = NaN).
    { intros HX. assert (E1 : fadd x (dot alpha w) = NaN).
      { destruct HX as [->|HX]; [reflexivity|]. rewrite (DN HX). apply fadd_nan_r. }
      rewrite E1 in EB. destruct beta; [injection EB as <- <-; reflexivity|].
      destruct (ring_call _ (fa_ma st) x). injection EB as <- <-. reflexivity. }
    exists out. destruct (ring_hist_call _ (Fin 0) (h ++ [Fin 0]) ar out Hm ltac:(rewrite app_length, Hh; exact S2) H1) as (_ & _ & H2).
    cbn [fst snd fa_ar]. auto. }
  (* the invariant *)
  destruct (flax_calls_inv (FARMA alpha beta)
     (fun p st => exists h, length h = 2 * length p /\ ring_hist (length alpha) (Fin 0) h (fa_ar st) /\
        (In NaN p -> last h (Fin 0) = NaN)) (fun n => n < length all)
     (FArmaState (ring_init (length alpha) (Fin 0)) (ring_init (length beta) (Fin 0))) all) as [_ H].
  - exists []. split; [reflexivity|]. split; [apply ring_hist_init; auto|]. intros [].
  - intros p s x Hp (h & Hh & HR & HN). destruct (STEP h s x (length p) Hh Hp HR) as (out & _ & HR' & HO).
    exists ((h ++ [Fin 0]) ++ [out]). split; [rewrite !app_length; cbn; lia|]. split; [exact HR'|].
    intros Hin. rewrite last_last. apply HO. apply in_app_or in Hin. destruct Hin as [Hin|[->|[]]]; auto.
  - auto.
  - destruct (nth_error_lt all t ltac:(lia)) as [x Hx]. destruct (H t x Hx) as (s & (h & Hh & HR & HN) & _ & Hout).
    unfold flax_from_scratch. destruct all as [|a0 al] eqn:Eall; [cbn in Ht; lia|]. rewrite <- Eall in *.
    cbn [fx_vars FARMA]. cbn [fx_vars FARMA] in Hout. rewrite Hout. f_equal.
    rewrite firstn_length_le in Hh by lia.
    destruct (STEP h s x t Hh ltac:(lia) HR) as (out & E & _ & HO). cbn [fx_call FARMA]. rewrite E.
    rewrite HO; [reflexivity|].
    destruct (Nat.eq_dec t (length pre)) as [->|Hne].
    + left. rewrite Eall in Hx. unfold all in *. rewrite <- Eall in Hx.
      rewrite nth_error_app2, Nat.sub_diag in Hx by lia. cbn in Hx. congruence.
    + right. apply HN. rewrite Eall. rewrite <- Eall. unfold all.
      rewrite firstn_app. apply in_or_app. right. replace (t - length pre) with (S (t - length pre - 1)) by lia.
      left. reflexivity.
Qed.

(** *** SNARIMAX *)
Lemma given_errors_snoc pre p : given_errors (pre ++ [p]) =
  given_errors pre ++ match snd p with Some y => [fsub y (fst p)] | None => [] end.
Proof. unfold given_errors. rewrite flat_map_app. cbn. rewrite app_nil_r. reflexivity. Qed.

Lemma given_errors_length pre : length (given_errors pre) <= length pre.
Proof.
  unfold given_errors. induction pre as [|[x [y|]] pre IH]; cbn [flat_map snd app length]; lia.
Qed.

Lemma padded_window_0 {A} (f : A) h : padded_window 0 f h = [].
Proof. unfold padded_window. rewrite Nat.sub_0_r, skipn_all. reflexivity. Qed.

Lemma padded_window_length {A} m (f : A) h : length (padded_window m f h) = m.
Proof. unfold padded_window. rewrite app_length, repeat_length, skipn_length. lia. Qed.

Lemma safe_le m n k : safe_call m n -> k <= n -> safe_call m k.
Proof. unfold safe_call. intros [H|H] Hk; [left; lia|auto]. Qed.

Lemma fsn_run lags_x lags_y (regressor : list fl -> fl) xys t :
  index_safe lags_x xys -> index_safe lags_y xys -> t < length xys ->
  nth_error (flax_from_scratch (FSNARIMAX lags_x lags_y regressor) xys) t =
    Some (zero_filled (regressor (flax_sn_features lags_x lags_y xys t))).
Proof.
  intros Sx Sy Ht. destruct xys as [|p0 xys]; [cbn in Ht; lia|]. set (all := p0 :: xys) in *.
  destruct (flax_calls_inv (FSNARIMAX lags_x lags_y regressor)
    (fun pre st => (0 < lags_x -> ring_hist lags_x (Fin 0) (map fst pre) (fsn_x st)) /\
                   (0 < lags_y -> ring_hist lags_y (Fin 0) (given_errors pre) (fsn_y st)))
    (fun n => safe_call lags_x n /\ safe_call lags_y n)
    (FSnState (ring_init lags_x (Fin 0)) (ring_init lags_y (Fin 0))) all) as [_ H].
  - split; intros; apply ring_hist_init; auto.
  - intros pre s [x y] [S1 S2] [H1 H2]. cbn [fx_call FSNARIMAX]. unfold fsn_call. cbn [snd].
    rewrite map_app, given_errors_snoc. cbn [map fst snd].
    assert (E1 : 0 < lags_x -> ring_hist lags_x (Fin 0) (map fst pre ++ [x]) (snd (ring_call lags_x (fsn_x s) x))).
    { intros Hx. apply ring_hist_call; auto. rewrite map_length. exact S1. }
    assert (E2 : 0 < lags_y -> forall e, ring_hist lags_y (Fin 0) (given_errors pre ++ [e]) (snd (ring_call lags_y (fsn_y s) e))).
    { intros Hy e. apply ring_hist_call; auto. eapply safe_le; [exact S2|apply given_errors_length]. }
    destruct lags_x as [|lx], lags_y as [|ly]; (destruct y as [y|]);
      repeat match goal with |- context [ring_call ?m ?st ?v] => destruct (ring_call m st v) eqn:? end;
      cbn [snd fsn_x fsn_y]; rewrite ?app_nil_r; (split; intros Hp; try lia);
      repeat match goal with HH : ring_call _ _ _ = _ |- _ => apply (f_equal snd) in HH; cbn [snd] in HH; subst end; auto.
  - intros n Hn. split; eapply index_safe_call; eauto.
  - destruct (nth_error_lt all t Ht) as [[x y] Hx]. destruct (H t (x, y) Hx) as (s & [I1 I2] & _ & Hout).
    unfold flax_from_scratch. unfold all at 1. cbn [fx_vars FSNARIMAX]. cbn [fx_vars FSNARIMAX] in Hout. fold all. rewrite Hout. f_equal.
    unfold flax_sn_features. rewrite Hx.
    assert (Ef : firstn (t + 1) all = firstn t all ++ [(x, y)]) by (rewrite Nat.add_1_r; apply firstn_snoc; exact Hx).
    rewrite Ef, map_app, given_errors_snoc. cbn [map fst snd fx_call FSNARIMAX]. unfold fsn_call.
    assert (F1 : (match lags_x with 0 => ([], fsn_x s) | _ => ring_call lags_x (fsn_x s) x end) =
       (padded_window lags_x (Fin 0) (map fst (firstn t all) ++ [x]),
        snd (match lags_x with 0 => ([], fsn_x s) | _ => ring_call lags_x (fsn_x s) x end))).
    { destruct lags_x as [|lx]; [rewrite padded_window_0; reflexivity|].
      destruct (ring_hist_call (S lx) (Fin 0) (map fst (firstn t all)) (fsn_x s) x ltac:(lia)) as (E & _ & _).
      - rewrite map_length, firstn_length_le by lia. eapply index_safe_call; eauto.
      - apply I1. lia.
      - rewrite <- E. apply surjective_pairing. }
    rewrite F1.
    assert (F2 : (match lags_y, y with S _, Some y => ring_call lags_y (fsn_y s) (fsub y x) | _, _ => ([], fsn_y s) end) =
       (match y with Some y => padded_window lags_y (Fin 0) (given_errors (firstn t all) ++ [fsub y x]) | None => [] end,
        snd (match lags_y, y with S _, Some y => ring_call lags_y (fsn_y s) (fsub y x) | _, _ => ([], fsn_y s) end))).
    { destruct lags_y as [|ly]; [destruct y; rewrite ?padded_window_0; reflexivity|]. destruct y as [y|]; [|reflexivity].
      destruct (ring_hist_call (S ly) (Fin 0) (given_errors (firstn t all)) (fsn_y s) (fsub y x) ltac:(lia)) as (E & _ & _).
      - eapply safe_le; [eapply index_safe_call; [exact Sy|exact Ht]|]. pose proof (given_errors_length (firstn t all)) as L.
        rewrite firstn_length_le in L by lia. exact L.
      - apply I2. lia.
      - rewrite <- E. apply surjective_pairing. }
    rewrite F2. cbn [fst]. destruct y as [y|]; unfold zero_filled, nan_to_num; destruct (regressor _); reflexivity.
Qed.

Lemma nth_padded_last {A} m (f : A) h x d : 0 < m -> nth (m - 1) (padded_window m f (h ++ [x])) d = x.
Proof.
  intros Hm. unfold padded_window. rewrite app_length. cbn [length].
  destruct (Nat.le_gt_cases m (length h + 1)) as [H|H].
  - replace (m - (length h + 1)) with 0 by lia. cbn [repeat app].
    rewrite skipn_app. rewrite app_nth2; rewrite skipn_length; [|lia].
    replace (length h + 1 - m - length h) with 0 by lia. cbn [skipn].
    replace (m - 1 - (length h - (length h + 1 - m))) with 0 by lia. reflexivity.
  - replace (length h + 1 - m) with 0 by lia. cbn [skipn].
    rewrite app_nth2; rewrite repeat_length; [|lia].
    rewrite app_nth2 by lia. replace (m - 1 - (m - (length h + 1)) - length h) with 0 by lia. reflexivity.
Qed.

(** the prediction can be the target itself *)
Lemma fsn_leaks lags_x lags_y xys t x y :
  0 < lags_y -> index_safe lags_x xys -> index_safe lags_y xys ->
  nth_error xys t = Some (Fin x, Some (Fin y)) ->
  nth_error (flax_from_scratch (FSNARIMAX lags_x lags_y
    (fun f => fadd (nth (lags_x + lags_y - 1) f NaN) (nth (lags_x + lags_y) f NaN))) xys) t = Some (Fin y).
Proof.
  intros Hy Sx Sy Hx. assert (Ht : t < length xys) by (apply nth_error_Some; congruence).
  rewrite fsn_run by auto. f_equal. unfold flax_sn_features. rewrite Hx.
  rewrite Nat.add_1_r, (firstn_snoc _ _ _ Hx), map_app, given_errors_snoc. cbn [map fst snd].
  set (A := padded_window lags_x (Fin 0) _). set (B := padded_window lags_y (Fin 0) _).
  assert (LA : length A = lags_x) by apply padded_window_length. assert (LB : length B = lags_y) by apply padded_window_length.
  rewrite (app_nth2 A) by lia. rewrite (app_nth2 A) by lia.
  rewrite app_nth1 by lia. rewrite (app_nth2 B) by lia.
  replace (lags_x + lags_y - 1 - length A) with (lags_y - 1) by lia.
  replace (lags_x + lags_y - length A - length B) with 0 by lia. unfold B. rewrite nth_padded_last by auto.
  cbn [nth]. cbn. f_equal. ring.
Qed.

(** *** GymFeedback *)
Section FGym.
  Context {O Rw A S : Type} (zeros_like : O -> A) (agent0 : O * option Rw -> S) (agent : S -> O * option Rw -> A * S).
  Lemma fgym_calls inps : forall st,
    fst (flax_calls (FGymFeedback zeros_like agent0 agent) st inps) =
      fst (flax_calls (FlaxModule agent0 agent) (snd st) inps) /\
    snd (snd (flax_calls (FGymFeedback zeros_like agent0 agent) st inps)) =
      snd (flax_calls (FlaxModule agent0 agent) (snd st) inps) /\
    fst (snd (flax_calls (FGymFeedback zeros_like agent0 agent) st inps)) =
      last (fst (flax_calls (FlaxModule agent0 agent) (snd st) inps)) (fst st).
  Proof.
    induction inps as [|i r IH]; intros st; [cbn; auto|].
    cbn [flax_calls fx_call FGymFeedback]. destruct (agent (snd st) i) as [a s'] eqn:E.
    assert (E1 : fgym_call agent st i = (a, (a, s'))) by (unfold fgym_call; rewrite E; reflexivity). rewrite E1. specialize (IH (a, s')). cbn [snd fst] in IH.
    destruct (flax_calls (FGymFeedback zeros_like agent0 agent) (a, s') r) as [o1 st1].
    destruct (flax_calls {| fx_vars := agent0; fx_call := agent |} s' r) as [o2 st2]. cbn [fst snd] in *.
    destruct IH as (-> & -> & ->). split; [reflexivity|]. split; [reflexivity|].
    destruct o2 as [|b o2]; [reflexivity|]. change (last (a :: b :: o2) (fst st)) with (last (b :: o2) (fst st)).
    clear. revert b. induction o2 as [|c o2 IH]; intros b; [reflexivity|].
    change (last (b :: c :: o2) a) with (last (c :: o2) a). rewrite IH. reflexivity.
  Qed.

  Lemma fgym_run o0 r0 inps :
    flax_from_scratch (FGymFeedback zeros_like agent0 agent) ((o0, r0) :: inps) =
      flax_from_scratch (FlaxModule agent0 agent) ((o0, r0) :: inps).
  Proof. unfold flax_from_scratch. exact (proj1 (fgym_calls ((o0, r0) :: inps) (zeros_like o0, agent0 (o0, r0)))). Qed.

  (** the loop module: (observation, action, reward or zero) *)
  Lemma fgym_loop zero st o r :
    fgym_loop_call zero agent st (o, r) =
    ((o, fst (agent (snd st) (o, r)), match r with Some r => r | None => zero end), agent (snd st) (o, r)).
  Proof. unfold fgym_loop_call, fgym_call. cbn [snd]. destruct (agent (snd st) (o, r)). reflexivity. Qed.
End FGym.

(** the documented recursion (that of the haiku module) does not hold *)
Lemma farma_documented_refuted :
  flax_from_scratch (FARMA [Fin (1/2)] []) [Fin 1; Fin 0] = [Fin 1; Fin 0] /\
  ~ arma_rec [(1/2)%R] [] [1%R; 0%R] [1%R; 0%R] /\
  flax_from_scratch (FARMA [] [Fin 1]) [Fin 1; Fin 0] = [Fin 2; Fin 0] /\
  ~ arma_rec [] [1%R] [1%R; 0%R] [2%R; 0%R].
Proof.
  split; [|split; [|split]].
  - rewrite farma_one_coefficient. reflexivity.
  - intros [_ H]. specialize (H 1%nat ltac:(cbn; lia)). unfold arma_value, lagged in H. cbn in H. lra.
  - destruct (farma_run [] [1%R] [1%R; 0%R]) as (ys & E & [L H]); [left; reflexivity|left; reflexivity|].
    change [Fin 1; Fin 0] with (map Fin [1%R; 0%R]). change [Fin 1] with (map Fin [1%R]).
    change (@nil fl) with (map Fin []). rewrite E. 
    destruct ys as [|a [|b [|c ys]]]; try discriminate.
    pose proof (H 0%nat ltac:(cbn; lia)) as H0. pose proof (H 1%nat ltac:(cbn; lia)) as H1.
    unfold flax_arma_value, lagged in H0, H1. cbn in H0, H1. cbn [map]. do 3 f_equal; lra.
  - intros [_ H]. specialize (H 0%nat ltac:(cbn; lia)). unfold arma_value, lagged in H. cbn in H. lra.
Qed.

(** haiku and flax OHLC on a bar with a missing value *)
Lemma fohlc_nan_refuted : exists ys yf sF,
  run OHLC [(Fin 3, true); (NaN, false); (Fin 1, false)] = Some (ys, sF) /\
  flax_from_scratch FOHLC [(Fin 3, true); (NaN, false); (Fin 1, false)] = yf /\
  ys = [Ohlc (Fin 3) (Fin 3) (Fin 3) (Fin 3); Ohlc (Fin 3) (Fin 3) (Fin 3) (Fin 3); Ohlc (Fin 3) (Fin 3) (Fin 1) (Fin 1)] /\
  yf = [Ohlc (Fin 3) (Fin 3) (Fin 3) (Fin 3); Ohlc (Fin 3) NaN NaN NaN; Ohlc (Fin 3) NaN NaN (Fin 1)].
Proof.
  assert (E1 : Rlt_b 3 3 = false) by (apply Rlt_b_false; lra). assert (E2 : Rlt_b 3 1 = false) by (apply Rlt_b_false; lra).
  assert (E3 : Rlt_b 1 3 = true) by (apply Rlt_b_true; lra).
  do 3 eexists. split; [unfold OHLC; rewrite run_eq; cbn; rewrite ?E1, ?E2, ?E3; cbn; rewrite ?E1, ?E2, ?E3; cbn; reflexivity|].
  split; [reflexivity|]. split; [|reflexivity]. rewrite ?E1, ?E2, ?E3. reflexivity.
Qed.
