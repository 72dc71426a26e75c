(** C123: the portfolio of the streaming demo. *)
From Coq Require Import String List Arith ZArith Reals Lra Lia Bool.
From Verif Require Import Model.Unroll Model.Float Model.Modules Model.Ewm Model.FlaxModules Model.FlaxCore Model.Compositions
  Model.Demos Spec.EwmSpec Spec.FlaxSpec Spec.MaskSpec Spec.CompositionSpec Spec.DemoSpec
  Proofs.ListFacts Proofs.FloatFacts Proofs.RunFacts Proofs.EwmFacts Proofs.EwmProofs Proofs.FlaxProofs
  Proofs.CompositionProofs Proofs.DemoProofs.
Import ListNotations.
Local Open Scope R_scope.

Section Portfolio.
Variable fm : R.

Lemma apply_total d : forall sts, (length d <= length sts)%nat ->
  exists o sts1, portfolio_apply fm sts d = Some (o, sts1) /\ length sts1 = length sts /\ keys o = keys d /\
  forall i, match nth_error sts i, nth_error d i with
            | Some s, Some (k, x) => nth_error o i = Some (k, fst (signal_call fm s x)) /\
                                     nth_error sts1 i = Some (snd (signal_call fm s x))
            | a, None => nth_error o i = None /\ nth_error sts1 i = a
            | None, Some _ => False
            end.
Proof.
  induction d as [|[k x] d IH]; intros sts Hl; cbn [portfolio_apply].
  - exists [], sts. split; [destruct sts; reflexivity|]. split; [reflexivity|]. split; [reflexivity|]. intros i.
    destruct (nth_error sts i), i; cbn; auto.
  - destruct sts as [|s sts]; [cbn in Hl; lia|]. cbn in Hl. destruct (IH sts ltac:(lia)) as (o & sts1 & E & L & K & H).
    destruct (signal_call fm s x) as [y s1] eqn:Es. rewrite E. exists ((k, y) :: o), (s1 :: sts1).
    split; [reflexivity|]. split; [cbn; congruence|]. split; [cbn; unfold keys in K; rewrite K; reflexivity|].
    intros [|i]; cbn [nth_error]; [|apply H]. rewrite Es. cbn. auto.
Qed.
Lemma apply_raises d : forall sts, (length sts < length d)%nat -> portfolio_apply fm sts d = None.
Proof.
  induction d as [|[k x] d IH]; intros [|s sts] H; cbn in *; try lia; [reflexivity|].
  destruct (signal_call fm s x). rewrite (IH sts) by lia. reflexivity.
Qed.

Lemma applies_raises ds : forall sts, (exists d, In d ds /\ (length sts < length d)%nat) -> portfolio_applies fm sts ds = None.
Proof.
  induction ds as [|d ds IH]; intros sts (e & Hin & Hl); [destruct Hin|]. cbn [portfolio_applies].
  destruct (le_lt_dec (length d) (length sts)) as [Hd|Hd].
  - destruct (apply_total d sts Hd) as (o & sts1 & E & L & _). rewrite E. rewrite IH; [reflexivity|].
    exists e. destruct Hin as [->|Hin]; [lia|]. rewrite L. auto.
  - rewrite apply_raises by exact Hd. reflexivity.
Qed.

Lemma applies_positional ds : forall sts, Forall (fun d => (length d <= length sts)%nat) ds ->
  exists outs, portfolio_applies fm sts ds = Some outs /\ map keys outs = map keys ds /\
  forall i s, nth_error sts i = Some s ->
    at_position i outs = applied (streaming_signal_processor fm) tt s (at_position i ds).
Proof.
  induction ds as [|d ds IH]; intros sts H; cbn [portfolio_applies].
  - exists []. auto.
  - inversion H as [|? ? Hd Hr]; subst. destruct (apply_total d sts Hd) as (o & sts1 & E & L & K & P). rewrite E.
    destruct (IH sts1) as (outs & E1 & K1 & P1). { rewrite L. exact Hr. }
    rewrite E1. exists (o :: outs). split; [reflexivity|]. split; [cbn; congruence|]. intros i s Hs.
    specialize (P i). rewrite Hs in P. cbn [at_position flat_map]. fold (at_position i outs). fold (at_position i ds).
    destruct (nth_error d i) as [[k x]|].
    + destruct P as [-> P2]. cbn [app]. rewrite (P1 i _ P2).
      cbn [applied streaming_signal_processor flax_tf flax_transform_with_state t_apply signal_module fx_call].
      destruct (signal_call fm s x). reflexivity.
    + destruct P as [-> P2]. cbn [app]. apply (P1 i _ P2).
Qed.

Lemma init_nth d : length (portfolio_init fm d) = length d /\
  forall i k x, nth_error d i = Some (k, x) -> nth_error (portfolio_init fm d) i = Some (snd (signal_call fm signal_vars x)).
Proof.
  induction d as [|[k x] d [IHl IH]]; cbn [portfolio_init length nth_error]; [split; [reflexivity|intros [|i]; discriminate]|]. split; [congruence|].
  intros [|i] k' x' H; cbn [nth_error] in *; [injection H as _ <-; reflexivity|]. apply (IH i k' x' H).
Qed.

Lemma portfolio_positional d0 ds : Forall (fun d => (length d <= length d0)%nat) ds ->
  exists outs, portfolio_session fm d0 ds = Some outs /\ map keys outs = map keys ds /\
  forall i k0 x0, nth_error d0 i = Some (k0, x0) ->
    at_position i outs = session (streaming_signal_processor fm) x0 (at_position i ds).
Proof.
  intros H. destruct (init_nth d0) as [L N]. unfold portfolio_session.
  destruct (applies_positional ds (portfolio_init fm d0)) as (outs & E & K & P). { rewrite L. exact H. }
  exists outs. split; [exact E|]. split; [exact K|]. intros i k0 x0 Hi. rewrite (P i _ (N i k0 x0 Hi)). reflexivity.
Qed.

Lemma portfolio_new_asset d0 ds d : In d ds -> (length d0 < length d)%nat -> portfolio_session fm d0 ds = None.
Proof.
  intros Hi Hl. apply applies_raises. exists d. rewrite (proj1 (init_nth d0)). auto.
Qed.

(** by name *)
Fixpoint index_of (k : string) (l : list string) : option nat :=
  match l with [] => None | k' :: r => if String.eqb k k' then Some 0%nat else option_map S (index_of k r) end.
Lemma value_index {A} k (d : list (string * A)) :
  value_of k d = match index_of k (keys d) with Some i => option_map snd (nth_error d i) | None => None end.
Proof.
  induction d as [|[k' v] d IH]; cbn; [reflexivity|]. destruct (String.eqb k k'); [reflexivity|]. fold (@keys A).
  rewrite IH. unfold keys. destruct (index_of k (map fst d)); reflexivity.
Qed.
Lemma at_position_values {A} k i (ks : list string) (ds : list (list (string * A))) xs :
  index_of k ks = Some i -> Forall (fun d => keys d = ks) ds ->
  map (value_of k) ds = map Some xs <-> (at_position i ds = xs /\ Forall (fun d => nth_error d i <> None) ds).
Proof.
  intros Hi. revert xs. induction ds as [|d ds IH]; intros xs Hk.
  - cbn. split; [destruct xs; [auto|discriminate]|]. intros [<- _]. reflexivity.
  - inversion Hk as [|? ? Hd Hr]; subst. cbn [map at_position flat_map]. fold (at_position i ds).
    rewrite (value_index k d), Hi. specialize (IH (tl xs) Hr).
    destruct (nth_error d i) as [[k' v]|] eqn:E; cbn [option_map snd app].
    + split.
      * destruct xs as [|x xs]; [discriminate|]. cbn in *. intros H. injection H as H1 H2. apply IH in H2.
        destruct H2 as [<- H2]. split; [congruence|]. constructor; [congruence|exact H2].
      * intros [<- H]. cbn in *. f_equal. apply IH. inversion H; auto.
    + split; [destruct xs; discriminate|]. intros [_ H]. inversion H; congruence.
Qed.
Lemma portfolio_by_name d0 ds : Forall (fun d => keys d = keys d0) ds ->
  exists outs, portfolio_session fm d0 ds = Some outs /\ map keys outs = map keys ds /\
  forall k x0 xs, value_of k d0 = Some x0 -> map (value_of k) ds = map Some xs ->
    map (value_of k) outs = map Some (session (streaming_signal_processor fm) x0 xs).
Proof.
  intros H. destruct (portfolio_positional d0 ds) as (outs & E & K & P).
  { eapply Forall_impl; [|exact H]. intros d Hd. apply (f_equal (@length _)) in Hd. unfold keys in Hd.
    rewrite !map_length in Hd. lia. }
  exists outs. split; [exact E|]. split; [exact K|]. intros k x0 xs H0 Hx.
  rewrite value_index in H0. destruct (index_of k (keys d0)) as [i|] eqn:Ei; [|discriminate].
  destruct (nth_error d0 i) as [[k0 y0]|] eqn:E0; [|discriminate]. cbn in H0. injection H0 as ->.
  apply (at_position_values k i (keys d0) ds xs Ei H) in Hx. destruct Hx as [Hx _].
  assert (Hko : Forall (fun d => keys d = keys d0) outs).
  { clear -H K. revert outs K. induction H as [|d ds Hd Hr IH]; intros [|o outs] K; try discriminate; constructor.
    - cbn in K. congruence.
    - apply IH. cbn in K. congruence. }
  apply (at_position_values k i (keys d0) outs _ Ei Hko). split; [rewrite (P i _ _ E0), Hx; reflexivity|].
  eapply Forall_impl; [|exact Hko]. intros d Hd En. apply nth_error_None in En.
  assert (length d = length d0) by (apply (f_equal (@length _)) in Hd; unfold keys in Hd; rewrite !map_length in Hd; exact Hd).
  assert (i < length d0)%nat by (apply nth_error_Some; congruence). lia.
Qed.
End Portfolio.

(** the same prices in another order *)
Lemma portfolio_order fm :
  let d0 := [("A"%string, Fin 1); ("B"%string, Fin 3)] in
  let d1 := [("B"%string, Fin 3); ("A"%string, Fin 1)] in
  exists a b, portfolio_session fm d0 [d0] = Some [a] /\ portfolio_session fm d0 [d1] = Some [b] /\
    option_map s_fast (value_of "A" a) = Some (Fin 1) /\
    exists f, option_map s_fast (value_of "A" b) = Some (Fin f) /\ 1 < f.
Proof.
  cbv zeta. set (d0 := [("A"%string, Fin 1); ("B"%string, Fin 3)]).
  set (d1 := [("B"%string, Fin 3); ("A"%string, Fin 1)]).
  destruct (portfolio_positional fm d0 [d0]) as (o1 & E1 & K1 & P1). { repeat constructor. }
  destruct (portfolio_positional fm d0 [d1]) as (o2 & E2 & K2 & P2). { repeat constructor. }
  assert (Ses : forall x y, session (streaming_signal_processor fm) (Fin x) [Fin y] =
     [processor_view [Some x; Some y] (Some y)]).
  { intros x y. pose proof (signal_ok fm (Some x) [Some y] 0 (Some y) ltac:(left; cbn; lia) eq_refl) as H.
    cbn [map of_option] in H.
    assert (L : length (session (streaming_signal_processor fm) (Fin x) [Fin y]) = 1%nat).
    { unfold session. cbn [streaming_signal_processor flax_tf flax_transform_with_state t_init].
      destruct (fx_call (signal_module fm) _ (Fin x)) as [? s]. cbn.
      destruct (signal_call fm s (Fin y)). reflexivity. }
    destruct (session _ (Fin x) [Fin y]) as [|v [|]]; try discriminate. cbn [nth_error] in H. apply some_eq in H. rewrite H. reflexivity. }
  destruct o1 as [|a [|]]; try discriminate. destruct o2 as [|b [|]]; try discriminate.
  exists a, b. split; [exact E1|]. split; [exact E2|].
  cbn [map] in K1, K2. injection K1 as K1. injection K2 as K2.
  destruct a as [|[ka va] [|[kb vb] [|]]]; try discriminate.
  destruct b as [|[kc vc] [|[kd vd] [|]]]; try discriminate.
  cbn in K1, K2. injection K1 as -> ->. injection K2 as -> ->.
  specialize (P1 0%nat _ _ eq_refl). cbn [at_position flat_map nth_error d0 app] in P1. rewrite Ses in P1. injection P1 as ->.
  specialize (P2 1%nat _ _ eq_refl). cbn [at_position flat_map nth_error d1 d0 app] in P2. rewrite Ses in P2. injection P2 as ->.
  assert (F : forall x y, ema (3 / 10) [Some x; Some y] = Some ((7 / 10 * x + y) / (7 / 10 + 1))).
  { intros x y. rewrite ema_some by (cbn; lia). unfold S1, S0, sum_over. cbn. f_equal. field. }
  split.
  - cbn [value_of String.eqb Ascii.eqb Bool.eqb option_map]. unfold processor_view. cbn [s_fast]. rewrite F. cbn.
    f_equal. f_equal. field.
  - exists ((7 / 10 * 3 + 1) / (7 / 10 + 1)). split; [|lra].
    cbn [value_of String.eqb Ascii.eqb Bool.eqb option_map]. unfold processor_view. cbn [s_fast]. rewrite F. reflexivity.
Qed.
