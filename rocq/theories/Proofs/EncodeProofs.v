From Coq Require Import String ZArith List Bool Lia.
From Verif Require Import Model.Encode.
Import ListNotations.
Local Open Scope Z_scope.

Lemma in_int64_spec z : in_int64 z = true <-> - 2 ^ 63 <= z < 2 ^ 63.
Proof. unfold in_int64. rewrite andb_true_iff, Z.leb_le, Z.ltb_lt. reflexivity. Qed.
Lemma wrap64_id z : - 2 ^ 63 <= z < 2 ^ 63 -> wrap64 z = z.
Proof. intros H. unfold wrap64. rewrite Z.mod_small by lia. lia. Qed.
Lemma wrap64_range z : - 2 ^ 63 <= wrap64 z < 2 ^ 63.
Proof. unfold wrap64. pose proof (Z.mod_pos_bound (z + 2 ^ 63) (2 ^ 64) ltac:(lia)). lia. Qed.
Lemma wrap64_eq z k : - 2 ^ 63 <= z + k * 2 ^ 64 < 2 ^ 63 -> wrap64 z = z + k * 2 ^ 64.
Proof.
  intros H. unfold wrap64. rewrite <- (Z.mod_add (z + 2 ^ 63) k (2 ^ 64)) by lia.
  rewrite Z.mod_small; lia.
Qed.

Lemma words seed : Z.land (Z.shiftr seed 32) 4294967295 = (seed / 2 ^ 32) mod 2 ^ 32 /\
  Z.land seed 4294967295 = seed mod 2 ^ 32.
Proof.
  change 4294967295 with (Z.ones 32). rewrite !Z.land_ones by lia. rewrite Z.shiftr_div_pow2 by lia. auto.
Qed.

Lemma encode_int64_eq seed : - 2 ^ 63 <= seed < 2 ^ 63 ->
  encode_int64 seed = Some ((seed / 2 ^ 32) mod 2 ^ 32, seed mod 2 ^ 32).
Proof.
  intros H. unfold encode_int64. apply in_int64_spec in H. rewrite H. destruct (words seed) as [-> ->]. reflexivity.
Qed.
Lemma encode_int64_none seed : encode_int64 seed = None <-> ~ (- 2 ^ 63 <= seed < 2 ^ 63).
Proof.
  unfold encode_int64. rewrite <- in_int64_spec. destruct (in_int64 seed); split; intros; congruence.
Qed.

(** value of the words as an unsigned 64-bit integer *)
Lemma words_unsigned seed : (seed / 2 ^ 32) mod 2 ^ 32 * 2 ^ 32 + seed mod 2 ^ 32 = seed mod 2 ^ 64.
Proof.
  change (2 ^ 64) with (2 ^ 32 * 2 ^ 32). rewrite Z.rem_mul_r by lia. lia.
Qed.

Lemma decode_words h l : 0 <= h < 2 ^ 32 -> 0 <= l < 2 ^ 32 ->
  decode_int64 (h, l) = wrap64 (h * 2 ^ 32 + l).
Proof.
  intros Hh Hl. unfold decode_int64. cbn [fst snd]. rewrite Z.shiftl_mul_pow2 by lia.
  destruct (Z_lt_ge_dec h (2 ^ 31)).
  - rewrite (wrap64_id (h * 2 ^ 32)) by lia. reflexivity.
  - rewrite (wrap64_eq (h * 2 ^ 32) (-1)) by lia.
    rewrite (wrap64_eq (h * 2 ^ 32 + l) (-1)) by lia. rewrite wrap64_id by lia. lia.
Qed.

Lemma int64_roundtrip seed c : encode_int64 seed = Some c ->
  decode_int64 c = seed /\ 0 <= fst c < 2 ^ 32 /\ 0 <= snd c < 2 ^ 32.
Proof.
  intros E. destruct (in_int64 seed) eqn:Hr.
  - apply in_int64_spec in Hr. rewrite encode_int64_eq in E by auto.
    assert (Ec : c = ((seed / 2 ^ 32) mod 2 ^ 32, seed mod 2 ^ 32)) by congruence. subst c. cbn [fst snd].
    pose proof (Z.mod_pos_bound (seed / 2 ^ 32) (2 ^ 32) ltac:(lia)).
    pose proof (Z.mod_pos_bound seed (2 ^ 32) ltac:(lia)).
    split; [|split; auto]. rewrite decode_words by auto. rewrite words_unsigned.
    unfold wrap64. rewrite Zplus_mod_idemp_l. rewrite Z.mod_small by lia. lia.
  - unfold encode_int64 in E. rewrite Hr in E. discriminate.
Qed.

Lemma int64_total seed : - 2 ^ 63 <= seed < 2 ^ 63 -> exists c, encode_int64 seed = Some c.
Proof. intros H. rewrite encode_int64_eq by auto. eauto. Qed.

Lemma int64_surjective h l : 0 <= h < 2 ^ 32 -> 0 <= l < 2 ^ 32 ->
  encode_int64 (decode_int64 (h, l)) = Some (h, l).
Proof.
  intros Hh Hl. rewrite decode_words by auto.
  rewrite encode_int64_eq by apply wrap64_range.
  set (v := h * 2 ^ 32 + l).
  assert (Ev : exists k, wrap64 v = v + k * 2 ^ 64).
  { unfold wrap64. exists (- ((v + 2 ^ 63) / 2 ^ 64)).
    pose proof (Z.div_mod (v + 2 ^ 63) (2 ^ 64) ltac:(lia)). lia. }
  destruct Ev as [k ->].
  assert (E1 : (v + k * 2 ^ 64) mod 2 ^ 32 = l).
  { change (2 ^ 64) with (2 ^ 32 * 2 ^ 32). replace (v + k * (2 ^ 32 * 2 ^ 32)) with (l + (h + k * 2 ^ 32) * 2 ^ 32) by (unfold v; ring).
    rewrite Z.mod_add by lia. apply Z.mod_small; auto. }
  assert (E2 : (v + k * 2 ^ 64) / 2 ^ 32 = h + k * 2 ^ 32).
  { change (2 ^ 64) with (2 ^ 32 * 2 ^ 32). replace (v + k * (2 ^ 32 * 2 ^ 32)) with (l + (h + k * 2 ^ 32) * 2 ^ 32) by (unfold v; ring).
    rewrite Z.div_add by lia. rewrite Z.div_small by auto. ring. }
  rewrite E1, E2, Z.mod_add, Z.mod_small by lia. reflexivity.
Qed.

Lemma int64_injective a b c : encode_int64 a = Some c -> encode_int64 b = Some c -> a = b.
Proof. intros Ha Hb. apply int64_roundtrip in Ha, Hb. destruct Ha as [<- _], Hb as [<- _]. reflexivity. Qed.

(** *** less *)
Lemma less_unsigned a b ca cb : encode_int64 a = Some ca -> encode_int64 b = Some cb ->
  (less ca cb = true <-> a mod 2 ^ 64 < b mod 2 ^ 64).
Proof.
  intros Ha Hb.
  assert (Hra : - 2 ^ 63 <= a < 2 ^ 63).
  { destruct (in_int64 a) eqn:E; [apply in_int64_spec; auto|unfold encode_int64 in Ha; rewrite E in Ha; discriminate]. }
  assert (Hrb : - 2 ^ 63 <= b < 2 ^ 63).
  { destruct (in_int64 b) eqn:E; [apply in_int64_spec; auto|unfold encode_int64 in Hb; rewrite E in Hb; discriminate]. }
  rewrite encode_int64_eq in Ha, Hb by auto.
  assert (Ea : ca = ((a / 2 ^ 32) mod 2 ^ 32, a mod 2 ^ 32)) by congruence.
  assert (Eb : cb = ((b / 2 ^ 32) mod 2 ^ 32, b mod 2 ^ 32)) by congruence. subst ca cb.
  clear Ha Hb. rewrite <- (words_unsigned a), <- (words_unsigned b). unfold less.
  pose proof (Z.mod_pos_bound (a / 2 ^ 32) (2 ^ 32) ltac:(lia)).
  pose proof (Z.mod_pos_bound a (2 ^ 32) ltac:(lia)).
  pose proof (Z.mod_pos_bound (b / 2 ^ 32) (2 ^ 32) ltac:(lia)).
  pose proof (Z.mod_pos_bound b (2 ^ 32) ltac:(lia)).
  generalize dependent ((a / 2 ^ 32) mod 2 ^ 32). generalize dependent (a mod 2 ^ 32).
  generalize dependent ((b / 2 ^ 32) mod 2 ^ 32). generalize dependent (b mod 2 ^ 32).
  intros l2 ? h2 ? l1 ? h1 ?.
  destruct (Z.ltb_spec h1 h2), (Z.ltb_spec h2 h1), (Z.ltb_spec l1 l2); split; intros; try discriminate; try nia; auto.
Qed.

Lemma less_same_sign a b ca cb : encode_int64 a = Some ca -> encode_int64 b = Some cb ->
  (0 <= a <-> 0 <= b) -> (less ca cb = true <-> a < b).
Proof.
  intros Ha Hb Hs. rewrite (less_unsigned a b ca cb) by auto.
  assert (Hra : - 2 ^ 63 <= a < 2 ^ 63).
  { destruct (in_int64 a) eqn:E; [apply in_int64_spec; auto|unfold encode_int64 in Ha; rewrite E in Ha; discriminate]. }
  assert (Hrb : - 2 ^ 63 <= b < 2 ^ 63).
  { destruct (in_int64 b) eqn:E; [apply in_int64_spec; auto|unfold encode_int64 in Hb; rewrite E in Hb; discriminate]. }
  destruct (Z_le_gt_dec 0 a).
  - rewrite !Z.mod_small by lia. reflexivity.
  - rewrite <- (Z.mod_add a 1), <- (Z.mod_add b 1) by lia. rewrite !Z.mod_small by lia. lia.
Qed.

Lemma less_mixed_sign a b ca cb : encode_int64 a = Some ca -> encode_int64 b = Some cb ->
  a < 0 <= b -> less ca cb = false /\ less cb ca = true.
Proof.
  intros Ha Hb Hs.
  assert (Hra : - 2 ^ 63 <= a < 2 ^ 63).
  { destruct (in_int64 a) eqn:E; [apply in_int64_spec; auto|unfold encode_int64 in Ha; rewrite E in Ha; discriminate]. }
  assert (Hrb : - 2 ^ 63 <= b < 2 ^ 63).
  { destruct (in_int64 b) eqn:E; [apply in_int64_spec; auto|unfold encode_int64 in Hb; rewrite E in Hb; discriminate]. }
  assert (E1 : a mod 2 ^ 64 = a + 2 ^ 64) by (rewrite <- (Z.mod_add a 1), Z.mod_small by lia; lia).
  assert (E2 : b mod 2 ^ 64 = b) by (apply Z.mod_small; lia).
  split.
  - destruct (less ca cb) eqn:E; auto. apply (less_unsigned a b ca cb) in E; auto. lia.
  - apply (less_unsigned b a cb ca); auto. lia.
Qed.

(** *** floor *)
Lemma day_pos : 0 < day. Proof. reflexivity. Qed.
Lemma floor_datetime_eq t : - 106751 * day <= t < 2 ^ 63 -> floor_datetime true t = Some (t / day * day).
Proof.
  intros H. unfold floor_datetime. unfold day in *.
  assert (E : -106751 <= t / (24 * 60 * 60 * 1000000000)) by (apply Z.div_le_lower_bound; lia).
  assert (E2 : t / (24 * 60 * 60 * 1000000000) < 106752) by (apply Z.div_lt_upper_bound; lia).
  pose proof (Z.mul_div_le t (24 * 60 * 60 * 1000000000) ltac:(lia)).
  rewrite (wrap64_id (t / _)) by lia. rewrite wrap64_id by lia. reflexivity.
Qed.

Lemma floor_datetime_spec t f : - 106751 * day <= t < 2 ^ 63 -> floor_datetime true t = Some f ->
  (day | f) /\ f <= t < f + day.
Proof.
  intros H E. rewrite floor_datetime_eq in E by auto. assert (Ef : f = t / day * day) by congruence. subst f.
  split; [exists (t / day); reflexivity|]. pose proof (Z.div_mod t day ltac:(unfold day; lia)).
  pose proof (Z.mod_pos_bound t day day_pos). lia.
Qed.

Lemma floor_datetime_unique t f f' : - 106751 * day <= t < 2 ^ 63 -> floor_datetime true t = Some f ->
  (day | f') -> f' <= t < f' + day -> f' = f.
Proof.
  intros H E [k ->] Hk. rewrite floor_datetime_eq in E by auto. assert (Ef : f = t / day * day) by congruence. subst f.
  f_equal. symmetry. symmetry. apply Z.div_unique with (r := t - k * day); lia.
Qed.

Lemma floor_datetime_idempotent t f : - 106751 * day <= t < 2 ^ 63 -> floor_datetime true t = Some f ->
  floor_datetime true f = Some f.
Proof.
  intros H E. rewrite floor_datetime_eq in E by auto. assert (Ef : f = t / day * day) by congruence. subst f.
  assert (- 106751 <= t / day) by (apply Z.div_le_lower_bound; unfold day in *; lia).
  pose proof (Z.mul_div_le t day day_pos).
  rewrite floor_datetime_eq; [rewrite Z.div_mul by (unfold day; lia); reflexivity|]. unfold day in *. lia.
Qed.

Lemma floor_datetime_monotone t t' f f' : - 106751 * day <= t < 2 ^ 63 -> - 106751 * day <= t' < 2 ^ 63 ->
  floor_datetime true t = Some f -> floor_datetime true t' = Some f' -> t <= t' -> f <= f'.
Proof.
  intros H H' E E' Hle. rewrite floor_datetime_eq in E, E' by auto.
  assert (Ef : f = t / day * day) by congruence. assert (Ef' : f' = t' / day * day) by congruence. subst f f'.
  apply Z.mul_le_mono_nonneg_r; [pose proof day_pos; lia|]. apply Z.div_le_mono; [apply day_pos|auto].
Qed.

(** below that bound, NaT included, the product overflows *)
Lemma floor_datetime_overflow t : - 2 ^ 63 <= t < - 106751 * day ->
  floor_datetime true t = Some 9223371273709551616.
Proof.
  intros H. unfold floor_datetime.
  assert (E : t / day = -106752).
  { symmetry. apply Z.div_unique with (r := t + 106752 * day); unfold day in *; lia. }
  rewrite E. reflexivity.
Qed.

Lemma floor_jax_commutes t c : - 2 ^ 63 <= t < 2 ^ 63 -> encode_int64 t = Some c ->
  exists f, floor_datetime true t = Some f /\ floor_jax_datekey c = encode_datetime64 f.
Proof.
  intros H E. unfold floor_jax_datekey, floor_datetime. apply int64_roundtrip in E. destruct E as [-> _].
  eexists. split; reflexivity.
Qed.

(** *** timestamps *)
Lemma timestamp_roundtrip ns c : ns <> nat_value -> encode_timestamp (Some ns) = Some c ->
  decode_timestamp c = Some ns.
Proof.
  intros Hn E. apply int64_roundtrip in E. destruct E as [E _]. unfold decode_timestamp. rewrite E.
  apply Z.eqb_neq in Hn. rewrite Hn. reflexivity.
Qed.
Lemma datetime_roundtrip us c : encode_datetime us = Some c -> decode_datetime c = us.
Proof.
  intros E. apply int64_roundtrip in E. destruct E as [E _]. unfold decode_datetime. rewrite E.
  apply Z.div_mul. lia.
Qed.

(** *** encoders *)
Lemma mapM_Forall2 {A B} (f : A -> option B) l r : mapM f l = Some r <-> Forall2 (fun a b => f a = Some b) l r.
Proof.
  revert r. induction l as [|a l IH]; intros r; cbn.
  - split; intros H; [assert (r = []) by congruence; subst; constructor|inversion H; reflexivity].
  - split; intros H.
    + destruct (f a) as [b|] eqn:Ea; [|discriminate]. destruct (mapM f l) as [bs|] eqn:El; [|discriminate].
      assert (r = b :: bs) by congruence. subst. constructor; auto. apply IH. reflexivity.
    + inversion H as [|? b ? bs Hb Hbs]; subst. rewrite Hb. apply IH in Hbs. rewrite Hbs. reflexivity.
Qed.

Lemma mapM_roundtrip {A B} (f : A -> option B) (g : B -> option A) l r :
  (forall a b, In a l -> f a = Some b -> g b = Some a) -> mapM f l = Some r -> mapM g r = Some l.
Proof.
  intros Hg H. apply mapM_Forall2 in H. apply mapM_Forall2. induction H as [|a b l r Hab H IH]; constructor.
  - apply Hg; auto. left; auto.
  - apply IH. intros; apply Hg; auto. right; auto.
Qed.

Lemma mapM_total {A B} (f : A -> option B) l : (forall a, In a l -> exists b, f a = Some b) ->
  exists r, mapM f l = Some r.
Proof.
  induction l as [|a l IH]; intros H; cbn; eauto.
  destruct (H a (or_introl eq_refl)) as [b ->]. destruct IH as [r ->]; eauto. intros; apply H; right; auto.
Qed.

Lemma datetime64_encoder_roundtrip values :
  values <> [] -> Forall (fun ns => - 2 ^ 63 <= ns < 2 ^ 63) values ->
  exists codes, enc datetime64_encoder values = Some codes /\ List.length codes = List.length values /\
    dec datetime64_encoder codes = Some values.
Proof.
  intros Hne Hr. rewrite Forall_forall in Hr.
  destruct (mapM_total encode_datetime64 values) as [codes Hc].
  { intros a Ha. apply int64_total. apply Hr; auto. }
  exists codes. assert (He : enc datetime64_encoder values = Some codes) by (destruct values; [congruence|exact Hc]).
  split; [exact He|].
  assert (F : Forall2 (fun a b => encode_datetime64 a = Some b) values codes) by (apply mapM_Forall2; exact Hc).
  assert (L : List.length values = List.length codes) by (clear - F; induction F; cbn; auto).
  split; [auto|]. destruct codes as [|c codes]; [destruct values; [congruence|discriminate]|].
  cbn [dec datetime64_encoder stacked]. apply (mapM_roundtrip encode_datetime64); auto.
  intros a b _ H. apply int64_roundtrip in H. destruct H as [H _]. unfold decode_datetime64. rewrite H. reflexivity.
Qed.

Section Labels.
  Context {L : Type} (leb eqb : L -> L -> bool).
  Hypothesis eqb_spec : forall a b, eqb a b = true <-> a = b.
  Hypothesis leb_trans : forall a b c, leb a b = true -> leb b c = true -> leb a c = true.
  Hypothesis leb_antisym : forall a b, leb a b = true -> leb b a = true -> a = b.
  Hypothesis leb_total : forall a b, leb a b = true \/ leb b a = true.

  Definition lt (a b : L) := leb a b = true /\ a <> b.
  Inductive increasing : list L -> Prop :=
  | inc_nil : increasing []
  | inc_cons a l : (forall b, In b l -> lt a b) -> increasing l -> increasing (a :: l).

  Lemma insert_in a l b : In b (insert leb eqb a l) <-> b = a \/ In b l.
  Proof.
    induction l as [|c l IH]; cbn.
    - split; intros H; [destruct H as [<-|[]]; auto|destruct H as [->|[]]; auto].
    - destruct (eqb a c) eqn:E.
      + apply eqb_spec in E. subst. cbn. split; intros H; [tauto|]. destruct H as [->|H]; auto.
      + destruct (leb a c); cbn; [split; intros [H|H]; auto; subst; tauto|].
        rewrite IH. split; intros H; [destruct H as [H|[H|H]]; auto|destruct H as [H|[H|H]]; auto].
  Qed.
  Lemma insert_increasing a l : increasing l -> increasing (insert leb eqb a l).
  Proof.
    induction l as [|c l IH]; intros H; cbn.
    - constructor; [intros ? []|constructor].
    - inversion H as [|? ? Hc Hl]; subst. destruct (eqb a c) eqn:E; [exact H|].
      assert (Hne : a <> c) by (intros ->; assert (eqb c c = true) by (apply eqb_spec; auto); congruence).
      destruct (leb a c) eqn:El.
      + constructor; [|exact H]. intros b [<-|Hb]; [split; auto|].
        destruct (Hc b Hb) as [H1 H2]. split; [eapply leb_trans; eauto|].
        intros ->. apply Hne. apply leb_antisym; auto.
      + constructor; [|apply IH; auto]. intros b Hb. apply insert_in in Hb. destruct Hb as [->|Hb]; auto.
        split; [destruct (leb_total a c); congruence|congruence].
  Qed.
  Lemma classes_spec values : increasing (classes leb eqb values) /\
    forall b, In b (classes leb eqb values) <-> In b values.
  Proof.
    induction values as [|a values [IH1 IH2]]; cbn; [split; [constructor|tauto]|].
    split; [apply insert_increasing; auto|]. intros b. rewrite insert_in, IH2. split; intros [H|H]; auto.
  Qed.

  Lemma index_of_spec a cs : forall i k, index_of eqb a cs i = Some k <->
    (exists j, k = (i + j)%nat /\ nth_error cs j = Some a /\ forall j', (j' < j)%nat -> nth_error cs j' <> Some a).
  Proof.
    induction cs as [|c cs IH]; intros i k; cbn.
    - split; [discriminate|]. intros (j & _ & H & _). destruct j; discriminate.
    - destruct (eqb a c) eqn:E.
      + apply eqb_spec in E. subst c. split.
        * intros H. exists 0%nat. split; [|split; [reflexivity|intros; lia]]. assert (i = k) by congruence. lia.
        * intros (j & -> & Hj & Hm). destruct j as [|j]; [f_equal; lia|].
          exfalso. apply (Hm 0%nat); [lia|reflexivity].
      + assert (Hne : a <> c) by (intros ->; assert (eqb c c = true) by (apply eqb_spec; auto); congruence).
        rewrite IH. split; intros (j & Hk & Hj & Hm).
        * exists (S j). split; [lia|]. split; [exact Hj|]. intros [|j'] Hj'; cbn; [congruence|]. apply Hm. lia.
        * destruct j as [|j]; [cbn in Hj; congruence|]. exists j. split; [lia|]. split; [exact Hj|].
          intros j' Hj'. apply (Hm (S j')). lia.
  Qed.

  Lemma index_of_total a cs : In a cs -> exists k, index_of eqb a cs 0 = Some k.
  Proof.
    assert (G : forall i, In a cs -> exists k, index_of eqb a cs i = Some k).
    { induction cs as [|c cs IH]; intros i []; cbn.
      - subst. assert (E : eqb a a = true) by (apply eqb_spec; auto). rewrite E. eauto.
      - destruct (eqb a c); eauto. }
    apply G.
  Qed.
  Lemma index_of_nth a cs k : index_of eqb a cs 0 = Some k -> nth_error cs k = Some a.
  Proof. intros H. apply index_of_spec in H. destruct H as (j & -> & H & _). exact H. Qed.

  Lemma increasing_nth cs : increasing cs -> forall i j a b, nth_error cs i = Some a -> nth_error cs j = Some b ->
    ((i < j)%nat <-> lt a b).
  Proof.
    induction 1 as [|c cs Hc Hi IH]; intros [|i] [|j] a b Ha Hb; cbn in *; try discriminate.
    - assert (a = b) by congruence. subst. split; [lia|]. intros [_ H]; congruence.
    - assert (c = a) by congruence. subst. split; [|lia]. intros _. apply Hc. eapply nth_error_In; eauto.
    - assert (c = b) by congruence. subst. split; [lia|]. intros [H1 H2]. exfalso.
      assert (lt b a) by (apply Hc; eapply nth_error_In; eauto). destruct H. apply H2. apply leb_antisym; auto.
    - rewrite <- (IH i j a b Ha Hb). lia.
  Qed.

  (** codes are order preserving positions *)
  Lemma label_codes values a b i j :
    index_of eqb a (classes leb eqb values) 0 = Some i -> index_of eqb b (classes leb eqb values) 0 = Some j ->
    ((i < j)%nat <-> leb a b = true /\ a <> b).
  Proof.
    intros Ha Hb. destruct (classes_spec values) as [Hi _].
    apply (increasing_nth _ Hi i j a b); apply index_of_nth; auto.
  Qed.

  Lemma transform_spec values labels :
    (Forall (fun a => In a values) labels ->
      exists codes, transform eqb (classes leb eqb values) labels = Some codes /\
        inverse_transform (classes leb eqb values) codes = Some labels) /\
    (~ Forall (fun a => In a values) labels -> transform eqb (classes leb eqb values) labels = None).
  Proof.
    destruct (classes_spec values) as [_ Hc]. split; intros H.
    - destruct (mapM_total (fun a => index_of eqb a (classes leb eqb values) 0) labels) as [codes E].
      { intros a Ha. apply index_of_total. apply Hc. rewrite Forall_forall in H. auto. }
      exists codes. split; [exact E|]. unfold inverse_transform.
      apply (mapM_roundtrip (fun a => index_of eqb a (classes leb eqb values) 0)); auto.
      intros a b _ Hab. apply index_of_nth; auto.
    - destruct (transform eqb (classes leb eqb values) labels) as [codes|] eqn:E; auto. exfalso. apply H.
      apply mapM_Forall2 in E. clear - E Hc eqb_spec. induction E as [|a i l r Ha E IH]; constructor; auto.
      apply Hc. apply index_of_nth in Ha. eapply nth_error_In; eauto.
  Qed.

  Lemma mapM_length {A B} (f : A -> option B) l r : mapM f l = Some r -> List.length r = List.length l.
  Proof. intros H. apply mapM_Forall2 in H. induction H; cbn; auto. Qed.

  Lemma string_encoder_roundtrip (values v : larr L) :
    Forall (fun a => In a (lentries L values)) (lentries L v) ->
    List.length (lentries L v) = lsize (lshape L v) ->
    (lshape L v = lshape L values \/
     List.length (lshape L values) = 1%nat /\ List.length (lshape L v) = 1%nat) ->
    (1 <= List.length (lshape L v))%nat ->
    exists c, enc (string_encoder leb eqb values) v = Some c /\ dec (string_encoder leb eqb values) c = Some v.
  Proof.
    intros Hin Hsz Hsh Hd.
    destruct (transform_spec (lentries L values) (lentries L v)) as [Ht _].
    destruct (Ht Hin) as (codes & E1 & E2). clear Ht.
    assert (Lc : List.length codes = List.length (lentries L v)).
    { apply mapM_length in E1. exact E1. }
    destruct v as [sh es]. cbn [lshape lentries] in *.
    exists (LArr nat [List.length es] codes). unfold string_encoder, enc, dec. cbn [lshape lentries].
    assert (Hf : Nat.ltb 0 (List.length (lshape L values)) = true)
      by (apply Nat.ltb_lt; destruct Hsh as [E|[E _]]; [rewrite E in Hd|]; lia).
    rewrite Hf. cbn [andb List.length Nat.eqb].
    destruct (Nat.ltb_spec 1 (List.length (lshape L values))) as [Hr|Hr].
    - destruct Hsh as [->|[Hsh _]]; [|lia]. cbn [orb]. rewrite E1. cbn [option_map]. split; [reflexivity|].
      rewrite E2. assert (Eq : Nat.eqb (List.length es) (lsize (lshape L values)) = true) by (apply Nat.eqb_eq; exact Hsz).
      rewrite Eq. reflexivity.
    - assert (Hs1 : List.length sh = 1%nat) by (destruct Hsh as [->|[_ ?]]; lia).
      cbn [orb]. rewrite Hs1. cbn [Nat.eqb]. rewrite E1. cbn [option_map]. split; [reflexivity|].
      rewrite E2. destruct sh as [|n [|? ?]]; try discriminate. cbn in Hsz. rewrite Nat.mul_1_r in Hsz. rewrite Hsz. reflexivity.
  Qed.
End Labels.

(** *** datasets *)
Lemma dataset_roundtrip {A} (encoders : list (string * encoder A A)) (ds coded : list (string * A)) :
  (forall k v e c, In (k, v) ds -> lookup k encoders = Some e -> enc e v = Some c -> dec e c = Some v) ->
  encode_dataset encoders ds = Some coded ->
  decode_dataset encoders coded = Some ds /\ map fst coded = map fst ds /\
  forall k v, lookup k encoders = None -> (In (k, v) coded <-> In (k, v) ds).
Proof.
  intros Hr E.
  assert (F : Forall2 (fun kv kv' => match lookup (fst kv) encoders with
                    | Some e => option_map (pair (fst kv)) (enc e (snd kv))
                    | None => Some kv
                    end = Some kv') ds coded) by (apply mapM_Forall2; exact E).
  assert (Hp : Forall2 (fun kv kv' => fst kv = fst kv' /\ (lookup (fst kv) encoders = None -> kv = kv')) ds coded).
  { clear - F. induction F as [|[k v] [k' v'] l r H F IH]; constructor; auto. cbn in *.
    destruct (lookup k encoders) as [e|].
    - destruct (enc e v); [|discriminate]. cbn in H. split; [congruence|discriminate].
    - split; [congruence|]. intros; congruence. }
  split; [|split].
  - eapply mapM_roundtrip; [|exact E]. intros [k v] [k' v'] Hin H. cbn in *.
    destruct (lookup k encoders) as [e|] eqn:El.
    + destruct (enc e v) as [c|] eqn:Ec; [|discriminate]. cbn in H.
      assert (k' = k /\ v' = c) by (split; congruence). destruct H0 as [-> ->]. rewrite El.
      rewrite (Hr k v e c) by auto. reflexivity.
    + assert (k' = k /\ v' = v) by (split; congruence). destruct H0 as [-> ->]. rewrite El. reflexivity.
  - clear - Hp. induction Hp as [|a b l r [H _] Hp IH]; cbn; congruence.
  - intros k v Hk. clear - Hp Hk. induction Hp as [|a b l r [H1 H2] Hp IH]; [tauto|]. cbn. rewrite IH.
    split; intros [H|H]; auto; left; subst; cbn in *.
    + apply H2. rewrite H1. exact Hk.
    + rewrite <- H2; auto.
Qed.

Lemma string_encoder_shape {L} (leb eqb : L -> L -> bool) (values v : larr L) c :
  (1 < List.length (lshape L values))%nat -> dec (string_encoder leb eqb values) c = Some v ->
  lshape L v = lshape L values.
Proof.
  intros H. unfold string_encoder, dec. apply Nat.ltb_lt in H. rewrite H.
  destruct (_ && _); [|discriminate].
  destruct (inverse_transform _ _) as [w|]; [|discriminate]. destruct (Nat.eqb _ _); [|discriminate].
  intros E. assert (Ev : v = LArr L (lshape L values) w) by congruence. subst. reflexivity.
Qed.
