From Coq Require Import String ZArith List Bool Arith Lia.
From Verif Require Import Model.Tree Model.Unroll Model.Stream Model.Format Model.Accessors
  Spec.StreamSpec Spec.FormatSpec Spec.AccessorSpec Proofs.ListFacts Proofs.UnrollProofs Proofs.StreamProofs Proofs.StreamTrace
  Proofs.FormatProofs Proofs.AccessorProofs Proofs.AccessorProofs4 Proofs.AccessorProofs5.
Import ListNotations.
Local Open Scope list_scope.

(** jnp.where with the condition along the last axis *)
Lemma access_square {A} (v : dvar A) zs b s :
  2 <= length (dv_dims v) -> dv_last v = b -> length zs = b -> Forall (fun r => length r = b) (dv_rows v) -> dv_rows v <> [] ->
  access_data v (IMany zs) = Some s ->
  exists rws, s = SMany rws /\ length rws = length zs /\
    forall i j z zj row, nth_error zs i = Some z -> nth_error zs j = Some zj -> nth_error rws i = Some row ->
      nth_error row j = option_map (masked (dv_default v) zj) (nth_error (gather (dv_rows v) z) j).
Proof.
  intros Hd Hl Hz HF Hne H. unfold access_data in H.
  destruct (Nat.leb_spec (length (dv_dims v)) 1); [lia|]. rewrite Hl, Hz, Nat.eqb_refl in H.
  eexists. split; [symmetry; injection H; intros E; exact E|]. split; [rewrite map_length; lia|].
  intros i j z zj row Hi Hj Hr. rewrite nth_error_map, Hi in Hr. cbn [option_map] in Hr.
  set (g := gather (dv_rows v) z) in *.
  assert (Hg : length g = b). { rewrite Forall_forall in HF. apply HF. apply gather_in. auto. }
  assert (Ej : row = map (fun pa => masked (dv_default v) (nth (fst pa mod b) zs 0%Z) (snd pa)) (combine (seq 0 (length g)) g)) by congruence.
  subst row. rewrite nth_error_map.
  assert (Hjb : j < b) by (rewrite <- Hz; apply nth_error_Some; congruence).
  destruct (nth_error_lt g j) as (x & Hx); [lia|]. rewrite Hx.
  assert (Hs : nth_error (seq 0 (length g)) j = Some j).
  { rewrite (nth_error_nth' _ 0) by (rewrite seq_length; lia). rewrite seq_nth by lia. reflexivity. }
  rewrite (nth_error_combine _ _ _ _ _ Hs Hx). cbn [option_map fst snd]. rewrite Nat.mod_small by auto.
  rewrite (nth_error_nth _ _ _ Hj). reflexivity.
Qed.

Lemma padded_small {V} n (fill : @cell V) (l : list (@obs V)) : length l <= n ->
  padded_window n fill l = repeat fill (n - length l) ++ map real l.
Proof.
  intros H. unfold padded_window, lastn. rewrite app_length, repeat_length, map_length.
  replace (n + length l - n) with (length l) by lia. rewrite skipn_app, repeat_length.
  replace (length l - n) with 0 by lia. cbn [skipn]. f_equal.
  replace n with (length l + (n - length l)) at 1 by lia. rewrite repeat_app, skipn_app, repeat_length, Nat.sub_diag. cbn [skipn].
  rewrite skipn_all2 by (rewrite repeat_length; lia). reflexivity.
Qed.

Section Square.
  Context {A C : Type} (dt : C -> option (list Z)).
  Variables (cfg : stream_cfg) (vars : list (dvar A)) (coords : list (coord C)) (views : list (list (string * seen A))).
  Hypothesis Hnd : NoDup (map c_name coords).
  Hypothesis Hp : prepare dt cfg vars coords = Some views.
  Variables (local : string) (lts : list Z).
  Hypothesis Hax : time_axis dt coords local lts.
  Hypothesis Hloc : local_time cfg = local.
  Variables (i : nat) (v : dvar A) (d : string) (ts : list Z) (e : string).
  Hypothesis Hi : nth_error vars i = Some v.
  Hypothesis Hd : time_axis dt coords d ts.
  Hypothesis Hdl : d <> local.
  Hypothesis Hdim : dv_dims v = [d; e].
  Hypothesis Hord : in_order lts.
  Hypothesis Hord2 : in_order ts.
  Hypothesis Hmono : monotone_on lts (embedding cfg d).
  Hypothesis Hrows : length ts = length (dv_rows v).
  Variable k : nat.
  Hypothesis Hw : Forall (fun r => length r = k) (dv_rows v).
  Hypothesis Hlast : dv_last v = k.
  Hypothesis Hml : buffer_maxlen cfg d = Some k.
  Hypothesis Hff : ffills cfg d = true.

  Lemma reads_square t T first q :
    nth_error lts t = Some T -> hd_error (timed ts (dv_rows v)) = Some first ->
    q = length (strictly_before (embedding cfg d T) (first :: timed ts (dv_rows v))) -> q <= k ->
    (index_fill cfg < 0)%Z -> (index_fill cfg + Z.of_nat (length (dv_rows v)) <= 0)%Z ->
    exists rws, reads views t i (SMany rws) /\ length rws = k /\
      (forall m j row, nth_error rws m = Some row -> m < k - q -> k - q <= j < k ->
         nth_error row j = nth_error (snd first) j) /\
      (forall m j row, nth_error rws m = Some row -> k - q <= m -> j < k - q -> nth_error row j = Some (dv_default v)).
  Proof.
    intros HT Hfirst Hq Hqk Hneg Hfill.
    destruct (reads_secondary dt cfg vars coords views Hnd Hp local lts Hax Hloc i v d ts [e] Hi Hd Hdl Hdim)
      as (_ & gl & secs & items & j & gz & Hgl & Hm & Hsec & Hgz & Hall).
    destruct (Hall t T HT) as (outs & o & s & Hit & Ho & Ha & Hre).
    pose proof (merge_window_ffill gl secs items t (T, Z.of_nat t) outs j (sec_cfg_of cfg d) gz k Hm Hit Hsec) as G.
    destruct (start_positions _ _ Hgl) as (l0 & Egl & _). destruct (start_positions _ _ Hgz) as (z0 & Egz & Hz0).
    rewrite embed_of in G. cbn [fst] in G. rewrite Egl in G. cbn [tl] in G. rewrite map_fst_positions in G.
    specialize (G (order_positions _ Hord)).
    specialize (G (dataset_chronological _ _ Hgz (order_positions _ Hord2)) Hmono Hff Hml).
    cbn [sec_cfg_of default] in G.
    set (sb := strictly_before (embedding cfg d T) gz) in *.
    assert (Hsb : length sb = q).
    { assert (Eg : map (mapv (row_at v)) gz = first :: timed ts (dv_rows v)).
      { rewrite Egz. cbn [map]. rewrite (positions_rows v ts Hrows). f_equal.
        rewrite <- (positions_rows v ts Hrows) in Hfirst. destruct (positions ts); [discriminate|]. cbn in Hfirst, Hz0. congruence. }
      rewrite Hq, <- Eg, strictly_before_map, map_length. reflexivity. }
    assert (Hps : padded_window k (None, index_fill cfg) sb = repeat (None, index_fill cfg) (k - q) ++ map real sb).
    { rewrite padded_small by (unfold obs in *; lia). unfold obs in *. rewrite Hsb. reflexivity. }
    rewrite Hps in G.
    assert (Eo : o = Win (repeat (None, index_fill cfg) (k - q) ++ map real sb)) by congruence. subst o.
    assert (Hne : dv_rows v <> []).
    { intros E. rewrite E in Hrows. destruct ts; discriminate. }
    cbn [index_of_out] in Ha.
    set (zs := map snd (repeat (None, index_fill cfg) (k - q) ++ map real sb)) in *.
    assert (Hzl : length zs = k).
    { unfold zs. rewrite map_length, app_length, repeat_length, map_length. unfold obs in *. lia. }
    destruct (access_square v zs k s) as (rws & -> & Hlen & Hent); auto; [rewrite Hdim; cbn; lia|].
    exists rws. split; [exact Hre|]. split; [congruence|].
    assert (Hlow : forall m, m < k - q -> nth_error zs m = Some (index_fill cfg)).
    { intros m Hmm. unfold zs. rewrite map_app, map_rep, nth_error_app1 by (rewrite repeat_length; auto).
      cbn [snd]. rewrite (nth_error_nth' _ (index_fill cfg)) by (rewrite repeat_length; auto). f_equal.
      generalize (k - q). clear. revert m. induction m as [|m IH]; intros [|n]; cbn; auto. }
    assert (Hhigh : forall m z, k - q <= m -> nth_error zs m = Some z -> (0 <= z)%Z).
    { intros m z Hmm Hz. unfold zs in Hz. rewrite map_app, map_rep, nth_error_app2 in Hz by (rewrite repeat_length; auto).
      apply nth_error_In in Hz. rewrite map_map in Hz. apply in_map_iff in Hz as ([tt x] & <- & Hin). cbn.
      unfold sb, strictly_before in Hin. apply filter_In in Hin as [Hin _].
      assert (Hin' : In (tt, x) (positions ts)).
      { rewrite Egz in Hin. destruct Hin as [<-|Hin]; [eapply nth_error_In; eauto|auto]. }
      apply In_nth_error in Hin' as [n Hn]. rewrite positions_nth in Hn. destruct (nth_error ts n); [|discriminate].
      cbn in Hn. assert (x = Z.of_nat n) by congruence. lia. }
    assert (Hpos : forall z, (0 <= z)%Z -> forall a, masked (dv_default v) z a = a).
    { intros z Hz a. unfold masked. destruct (Z.ltb_spec z 0); [lia|auto]. }
    split.
    - intros m jj row Hr Hm1 Hj1. destruct (nth_error_lt zs jj) as (zj & Hzj); [lia|].
      rewrite (Hent m jj (index_fill cfg) zj row (Hlow m Hm1) Hzj Hr).
      assert (Hg : gather (dv_rows v) (index_fill cfg) = snd first).
      { unfold gather. destruct (Z.ltb_spec (index_fill cfg) 0); [|lia].
        replace (Z.to_nat (Z.max 0 (Z.min (index_fill cfg + Z.of_nat (length (dv_rows v))) (Z.of_nat (length (dv_rows v)) - 1)))) with 0 by lia.
        unfold timed in Hfirst. destruct ts as [|t1 ts1]; [discriminate|]. destruct (dv_rows v) as [|r1 rs]; [tauto|].
        cbn in Hfirst. assert (first = (t1, r1)) by congruence. subst first. reflexivity. }
      rewrite Hg. pose proof (Hpos zj (Hhigh jj zj (proj1 Hj1) Hzj)) as Hp2.
      destruct (nth_error (snd first) jj); cbn; [rewrite Hp2|]; reflexivity.
    - intros m jj row Hr Hm1 Hj1. destruct (nth_error_lt zs m) as (z & Hz).
      { rewrite <- Hlen. apply nth_error_Some. congruence. }
      rewrite (Hent m jj z (index_fill cfg) row Hz (Hlow jj Hj1) Hr).
      destruct (nth_error_lt (gather (dv_rows v) z) jj) as (x & Hx).
      { rewrite Forall_forall in Hw. rewrite (Hw _ (gather_in _ z Hne)). lia. }
      rewrite Hx. cbn. unfold masked. destruct (Z.ltb_spec (index_fill cfg) 0); [reflexivity|lia].
  Qed.
End Square.
