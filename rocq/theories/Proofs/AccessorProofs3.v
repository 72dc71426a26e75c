From Coq Require Import String ZArith List Bool Arith Lia Reals.
From Verif Require Import Model.Tree Model.Unroll Model.Stream Model.Format Model.Float Model.Modules Model.Ewm Model.Accessors
  Spec.FormatSpec Spec.AccessorSpec Proofs.ListFacts Proofs.TreeProofs Proofs.UnrollProofs Proofs.FormatProofs
  Proofs.RunFacts Proofs.EwmcovProofs Proofs.AccessorProofs Proofs.AccessorProofs2.
Import ListNotations.
Local Open Scope list_scope.

Definition row_step (fm : R) (cfg : ewma_cfg) (ss : list ewma_state) (x : seen fl) : list (list fl) * list ewma_state :=
  let '(y, ss') := ewma_vec fm cfg ss (match x with SOne r => r | SMany rs => concat rs end) in ([y], ss').
Definition elt_step (fm : R) (cfg : ewma_cfg) (s : ewma_state) (x : fl) : fl * ewma_state :=
  let '((r, _), s') := ewma_step fm cfg s x in (r, s').

Lemma elt_step_ewout fm cfg s x : elt_step fm cfg s x = ewout fm cfg s x.
Proof. unfold elt_step, ewout. destruct (ewma_step fm cfg s x) as [[r i] s']. reflexivity. Qed.

Lemma ewma_vec_lengths fm cfg ss x : length ss = length x ->
  length (fst (ewma_vec fm cfg ss x)) = length x /\ length (snd (ewma_vec fm cfg ss x)) = length x.
Proof.
  intros H. unfold ewma_vec. cbn [fst snd]. rewrite !map_length.
  assert (E : length (map2 (ewma_step fm cfg) ss x) = length x); [|auto].
  revert ss H. induction x as [|v x IH]; intros [|s ss] H; cbn in *; auto; try discriminate.
Qed.

Lemma rows_scan fm cfg w rows : forall ss,
  length ss = w -> Forall (fun r => length r = w) rows ->
  exists bs, snd (lax_scan (stepf (row_step fm cfg)) ss (map SOne rows)) = map (fun b => [b]) bs /\
    length bs = length rows /\ Forall (fun b => length b = w) bs /\
    forall j s col, nth_error ss j = Some s -> is_column j rows col ->
      is_column j bs (snd (lax_scan (stepf (elt_step fm cfg)) s col)).
Proof.
  induction rows as [|r rows IH]; intros ss Hs HF.
  - exists []. repeat split; auto. intros j s col _ Hc. destruct col; [reflexivity|discriminate].
  - inversion HF as [|? ? Hr HF']; subst.
    destruct (ewma_vec_lengths fm cfg ss r (eq_sym Hr)) as [L1 L2].
    destruct (IH (snd (ewma_vec fm cfg ss r))) as (bs & E & Hlen & HB & Hcol); [congruence|auto|].
    exists (fst (ewma_vec fm cfg ss r) :: bs).
    assert (Est : stepf (row_step fm cfg) ss (SOne r) = (snd (ewma_vec fm cfg ss r), [fst (ewma_vec fm cfg ss r)])).
    { unfold stepf, row_step. destruct (ewma_vec fm cfg ss r). reflexivity. }
    split; [|split; [|split]].
    + cbn [map lax_scan]. rewrite Est. destruct (lax_scan _ _ _) as [c ys] eqn:El. cbn [snd] in *. rewrite E. reflexivity.
    + cbn. congruence.
    + constructor; [congruence|auto].
    + intros j s col Hj Hc. destruct col as [|x col]; [discriminate|]. unfold is_column in *. cbn [map] in Hc.
      assert (Hx : nth_error r j = Some x) by congruence.
      assert (Hc' : map Some col = map (fun r => nth_error r j) rows) by congruence.
      destruct (ewma_vec_nth fm cfg ss r j) as [N1 N2]. rewrite Hj, Hx in N1, N2.
      specialize (Hcol j _ col N2 Hc').
      cbn [lax_scan].
      assert (Ee : stepf (elt_step fm cfg) s x = (snd (ewout fm cfg s x), fst (ewout fm cfg s x))).
      { unfold stepf. rewrite elt_step_ewout. reflexivity. }
      rewrite Ee. destruct (lax_scan _ _ col) as [c ys] eqn:El. cbn [snd map] in *. rewrite N1, Hcol. reflexivity.
Qed.

Lemma ewma_rows_run fm cfg w rows : rows <> [] -> Forall (fun r => length r = w) rows ->
  exists bs sF, run (ewma_rows fm cfg) (map SOne rows) = Some (map (fun b => [b]) bs, sF) /\
    length bs = length rows /\ Forall (fun b => length b = w) bs /\
    forall j col, j < w -> is_column j rows col ->
      exists out sj, run (EWMA fm cfg) col = Some (out, sj) /\ is_column j bs out.
Proof.
  intros Hne HF. destruct rows as [|r0 rows]; [tauto|].
  destruct (rows_scan fm cfg w (r0 :: rows) (map (fun _ => ewma_init cfg) r0)) as (bs & E & Hlen & HB & Hcol).
  { rewrite map_length. inversion HF; auto. } { auto. }
  exists bs. unfold ewma_rows. cbn [map]. rewrite (run_eq _ (row_step fm cfg)). cbn [map] in E. rewrite E.
  eexists. split; [reflexivity|]. split; [exact Hlen|]. split; [exact HB|].
  intros j col Hj Hc. destruct col as [|x col]; [discriminate|]. unfold EWMA. rewrite (run_eq _ (elt_step fm cfg)).
  do 2 eexists. split; [reflexivity|]. apply (Hcol j (ewma_init cfg) (x :: col)); [|exact Hc].
  rewrite nth_error_map. assert (length r0 = w) by (inversion HF; auto).
  destruct (nth_error r0 j) eqn:En; [reflexivity|]. apply nth_error_None in En. lia.
Qed.

Section Ewm.
  Context {C : Type} (dt : C -> option (list Z)) (fm : R).
  Variables (a : array_in fl C) (time : string) (rest : list string) (ts : list Z) (size : string -> nat) (w : nat).
  Hypothesis Ht : only_time dt (in_coords a) time ts.
  Hypothesis Hd : in_dims a = time :: rest.
  Hypothesis Hn : length ts = length (in_rows a).
  Hypothesis Hne : in_rows a <> [].
  Hypothesis Hw : Forall (fun r => length r = w) (in_rows a).
  Hypothesis Hc : coords_of_dims size (in_dims a) (in_coords a).
  Hypothesis Hs : size time = length (in_rows a).

  Lemma ewm_dataarray_spec com_ alpha c mp adj ig iv :
    com_of com_ alpha = Some c ->
    exists bs,
      ewm_dataarray dt fm com_ alpha mp adj ig iv a (map size rest) =
      Some (Leaf (labelled_by (in_coords a) (in_dims a) (NdArray (map size (in_dims a)) bs))) /\
      length bs = length (in_rows a) /\ Forall (fun b => length b = w) bs /\
      forall j col, j < w -> is_column j (in_rows a) col ->
        exists out sj, run (EWMA fm (EwmaCfg c mp adj ig iv)) col = Some (out, sj) /\ is_column j bs out.
  Proof using Ht Hd Hn Hne Hw Hc Hs.
    intros E. destruct (ewma_rows_run fm (EwmaCfg c mp adj ig iv) w (in_rows a) Hne Hw) as (bs & sF & Hu & H1 & H2 & H3).
    exists bs. split; [|auto]. unfold ewm_dataarray. rewrite E.
    rewrite (dataarray_same_shape _ dt default_cfg a _ time rest ts Ht (or_introl eq_refl) Hd Hn size (map size rest) None None None bs sF).
    - cbn [option_map fst]. rewrite Hd. cbn [map]. rewrite Hs. reflexivity.
    - exact Hc.
    - rewrite Hd. cbn. congruence.
    - exact Hu.
  Qed.

  Lemma ewm_dataframe_spec col dim_name com_ alpha c mp adj ig iv :
    rest = [col] -> com_of com_ alpha = Some c ->
    exists bs,
      ewm_dataframe dt fm com_ alpha mp adj ig iv dim_name a [size col] =
      Some (Leaf (Frame (labelled_by (in_coords a) [time; col] (NdArray [length (in_rows a); size col] bs)) [time] [col])) /\
      length bs = length (in_rows a) /\ Forall (fun b => length b = w) bs /\
      forall j x, j < w -> is_column j (in_rows a) x ->
        exists out sj, run (EWMA fm (EwmaCfg c mp adj ig iv)) x = Some (out, sj) /\ is_column j bs out.
  Proof using Ht Hd Hn Hne Hw Hc Hs.
    intros Er E. destruct (ewma_rows_run fm (EwmaCfg c mp adj ig iv) w (in_rows a) Hne Hw) as (bs & sF & Hu & H1 & H2 & H3).
    exists bs. split; [|auto]. unfold ewm_dataframe. rewrite E.
    rewrite (dataframe_same_shape _ dt default_cfg a _ time rest ts Ht (or_introl eq_refl) Hd Hn size col dim_name None None None bs sF); auto.
  Qed.

  Lemma ewm_series_spec com_ alpha c mp adj ig iv :
    rest = [] -> com_of com_ alpha = Some c ->
    exists bs,
      ewm_series dt fm com_ alpha mp adj ig iv a =
      Some (Leaf (Series (labelled_by (in_coords a) [time] (NdArray [length (in_rows a)] bs)) [time])) /\
      length bs = length (in_rows a) /\ Forall (fun b => length b = w) bs /\
      forall j x, j < w -> is_column j (in_rows a) x ->
        exists out sj, run (EWMA fm (EwmaCfg c mp adj ig iv)) x = Some (out, sj) /\ is_column j bs out.
  Proof using Ht Hd Hn Hne Hw Hc Hs.
    intros Er E. destruct (ewma_rows_run fm (EwmaCfg c mp adj ig iv) w (in_rows a) Hne Hw) as (bs & sF & Hu & H1 & H2 & H3).
    exists bs. split; [|auto]. unfold ewm_series. rewrite E.
    rewrite (series_same_shape _ dt default_cfg a _ time rest ts Ht (or_introl eq_refl) Hd Hn size None None None bs sF); auto.
  Qed.
End Ewm.
