From Coq Require Import String ZArith List Bool Arith Lia.
From Verif Require Import Model.Tree Model.Unroll Model.Stream Model.Format Model.Accessors
  Spec.StreamSpec Spec.FormatSpec Spec.AccessorSpec Proofs.ListFacts Proofs.StreamProofs Proofs.StreamTrace
  Proofs.FormatProofs Proofs.AccessorProofs Proofs.AccessorProofs4.
Import ListNotations.
Local Open Scope list_scope.

Definition row_at {A} (v : dvar A) (z : Z) : list A := map (masked (dv_default v) z) (gather (dv_rows v) z).

Lemma row_at_nth {A} (v : dvar A) i r : nth_error (dv_rows v) i = Some r -> row_at v (Z.of_nat i) = r.
Proof. intros H. unfold row_at. rewrite (gather_nth _ _ _ H). apply masked_nonneg. lia. Qed.
Lemma gather_in {A} (rows : list (list A)) z : rows <> [] -> In (gather rows z) rows.
Proof.
  intros H. unfold gather. apply nth_In. destruct rows; [tauto|]. cbn [length].
  destruct (Z.ltb z 0); lia.
Qed.
Lemma row_at_neg {A} (v : dvar A) z w : (z < 0)%Z -> dv_rows v <> [] -> Forall (fun r => length r = w) (dv_rows v) ->
  row_at v z = repeat (dv_default v) w.
Proof.
  intros Hz Hne HF. unfold row_at. rewrite Forall_forall in HF. rewrite <- (HF _ (gather_in (dv_rows v) z Hne)).
  generalize (gather (dv_rows v) z). induction l as [|a l IH]; [reflexivity|]. cbn. rewrite IH. f_equal.
  unfold masked. destruct (Z.ltb_spec z 0); [auto|lia].
Qed.

Lemma positions_rows {A} (v : dvar A) ts : length ts = length (dv_rows v) ->
  map (mapv (row_at v)) (positions ts) = timed ts (dv_rows v).
Proof.
  intros H. apply nth_error_ext. intros i. rewrite nth_error_map, positions_nth. unfold timed.
  destruct (Nat.lt_ge_cases i (length ts)) as [Hi|Hi].
  - destruct (nth_error_lt ts i Hi) as (t & Ht). destruct (nth_error_lt (dv_rows v) i) as (r & Hr); [lia|].
    rewrite Ht. cbn. rewrite (nth_error_combine _ _ _ _ _ Ht Hr). unfold mapv. cbn [fst snd].
    rewrite (row_at_nth _ _ _ Hr). reflexivity.
  - rewrite (proj2 (nth_error_None ts i) Hi). cbn. symmetry. apply nth_error_None. rewrite combine_length. lia.
Qed.

Lemma strictly_before_map {V W} (f : V -> W) T (g : list (@obs V)) :
  strictly_before T (map (mapv f) g) = map (mapv f) (strictly_before T g).
Proof. unfold strictly_before. induction g as [|o g IH]; cbn; auto. destruct (Z.ltb (fst o) T); cbn; congruence. Qed.
Lemma between_map {V W} (f : V -> W) T0 T (g : list (@obs V)) :
  between T0 T (map (mapv f) g) = map (mapv f) (between T0 T g).
Proof. unfold between. induction g as [|o g IH]; cbn; auto. destruct (Z.leb T0 (fst o) && Z.ltb (fst o) T); cbn; congruence. Qed.

Lemma last_dup {B} (x : B) l d : last (x :: x :: l) d = last (x :: l) d.
Proof. reflexivity. Qed.

(** the value of the last cell *)
Lemma last_cell {V} (f : Z -> V) (l : list (@obs Z)) k :
  f (snd (last (map real l) (None, k))) = last (map snd (map (mapv f) l)) (f k).
Proof.
  rewrite map_map. rewrite <- (map_last (fun c : @cell Z => f (snd c))).
  rewrite map_map. cbn. f_equal.
Qed.

  Lemma order_positions (xs : list Z) : in_order xs -> chronological (positions xs).
  Proof.
    intros H a b x y Hab Ha Hb. rewrite positions_nth in Ha, Hb.
    destruct (nth_error xs a) as [p|] eqn:Ea; [|discriminate]. destruct (nth_error xs b) as [q|] eqn:Eb; [|discriminate].
    cbn in Ha, Hb. assert (x = (p, Z.of_nat a)) by congruence. assert (y = (q, Z.of_nat b)) by congruence. subst. cbn. eauto.
  Qed.
  Lemma map_fst_positions (xs : list Z) : map fst (positions xs) = xs.
  Proof.
    apply nth_error_ext. intros k. rewrite nth_error_map, positions_nth. destruct (nth_error xs k); reflexivity.
  Qed.

Section Secondary.
  Context {A C : Type} (dt : C -> option (list Z)).
  Variables (cfg : stream_cfg) (vars : list (dvar A)) (coords : list (coord C)) (views : list (list (string * seen A))).
  Hypothesis Hnd : NoDup (map c_name coords).
  Hypothesis Hp : prepare dt cfg vars coords = Some views.
  Variables (local : string) (lts : list Z).
  Hypothesis Hax : time_axis dt coords local lts.
  Hypothesis Hloc : local_time cfg = local.
  Variables (i : nat) (v : dvar A) (d : string) (ts : list Z) (rest : list string).
  Hypothesis Hi : nth_error vars i = Some v.
  Hypothesis Hd : time_axis dt coords d ts.
  Hypothesis Hdl : d <> local.
  Hypothesis Hdim : dv_dims v = d :: rest.

  Lemma axis_unique (x : string) (a b : list Z) : time_axis dt coords x a -> time_axis dt coords x b -> a = b.
  Proof using Hnd.
    intros H1 H2. apply (proj2 (time_coords_iff dt coords _ _)) in H1, H2.
    pose proof (time_coords_nodup dt coords Hnd) as Hn. apply (lookup_iff _ _ _ Hn) in H1, H2. congruence.
  Qed.

  Lemma reads_secondary : length views = length lts /\
    exists gl secs items j gz,
      start_dataset_stream (positions lts) = Some gl /\
      merge gl secs = Some items /\ nth_error secs j = Some (sec_cfg_of cfg d, gz) /\
      start_dataset_stream (positions ts) = Some gz /\
      forall t T, nth_error lts t = Some T -> exists outs o s, nth_error items t = Some ((T, Z.of_nat t), outs) /\
        nth_error outs j = Some o /\ access_data v (index_of_out o) = Some s /\ reads views t i s.
  Proof using Hnd Hp Hax Hloc Hi Hd Hdl Hdim.
    destruct (prepare_inv dt cfg vars coords views Hnd Hp) as (l0 & lts0 & ti & Eti & Hl & Hax0 & Hlen & Hall).
    destruct (time_index_inv _ _ _ _ _ Hnd Eti) as (lts1 & Hax1 & Hc & Hl1 & Hdims & Hsec).
    assert (l0 = local).
    { destruct Hc as [Hc|Hc]; [|congruence].
      unfold time_index in Eti. destruct (time_coords dt coords) eqn:Etc; [discriminate|].
      rewrite Hc in Eti. unfold get_local_time in Eti. cbn [String.eqb map] in Eti. destruct l; [|discriminate].
      assert (G := proj2 (time_coords_iff dt coords _ _) Hax). assert (G0 := proj2 (time_coords_iff dt coords _ _) Hax0).
      rewrite Etc in G, G0. destruct G as [->|[]], G0 as [G0|[]]. congruence. }
    subst l0. pose proof (axis_unique _ _ _ Hax Hax0) as <-. pose proof (axis_unique _ _ _ Hax Hax1) as <-.
    split; [exact Hlen|].
    destruct (Hsec d ts Hd Hdl) as (gl & secs & items & j & gz & col & H1 & H2 & H3 & H4 & H5 & H6 & H7 & H8).
    exists gl, secs, items, j, gz. split; [exact H1|]. split; [exact H3|]. split; [exact H5|]. split; [exact H6|].
    intros t T HT. assert (Ht : t < length lts) by (apply nth_error_Some; congruence).
    destruct (Hall t i v Ht Hi) as (idxs & idx & s & Hv & Hidx & Ha & Hre).
    assert (Eitems : map fst items = positions lts).
    { rewrite (merge_local _ _ _ H3). apply start_positions in H1 as (o & -> & _). reflexivity. }
    assert (Hti : t < length items).
    { rewrite <- (map_length fst), Eitems, positions_length. auto. }
    destruct (nth_error_lt items t Hti) as ([o outs] & Hit).
    assert (Eo : o = (T, Z.of_nat t)).
    { assert (E := f_equal (fun l => nth_error l t) Eitems). cbn in E. rewrite nth_error_map, Hit, positions_nth, HT in E.
      cbn in E. congruence. }
    subst o.
    assert (Hcol := f_equal (fun l => nth_error l t) H8). cbn in Hcol. rewrite !nth_error_map, Hit in Hcol. cbn [option_map snd] in Hcol.
    unfold var_index in Hv. rewrite Hdim in Hv.
    assert (E : existsb (fun d => mem_str d (map fst ti)) (d :: rest) = true).
    { cbn. apply orb_true_iff. left. apply mem_str_iff. apply Hdims. eauto. }
    rewrite E, H7 in Hv. cbn [option_map] in Hv. assert (idxs = map index_of_out col) by congruence. subst idxs.
    rewrite nth_error_map in Hidx. destruct (nth_error col t) as [oz|] eqn:Ecol; [|discriminate].
    cbn in Hidx, Hcol. exists outs, oz, s. split; [auto|]. split; [congruence|].
    assert (idx = index_of_out oz) by congruence. subst idx. auto.
  Qed.

  Hypothesis Hord : in_order lts.
  Hypothesis Hord2 : in_order ts.
  Hypothesis Hmono : monotone_on lts (embedding cfg d).
  Hypothesis Hrows : length ts = length (dv_rows v).
  Variable w : nat.
  Hypothesis Hw : Forall (fun r => length r = w) (dv_rows v).
  Hypothesis Hk : (index_fill cfg < 0)%Z.

  Lemma embed_of : embed (sec_cfg_of cfg d) = embedding cfg d.
  Proof using. unfold sec_cfg_of, embedding. cbn. destruct (daily cfg d); reflexivity. Qed.

  Lemma rows_nonempty gz : start_dataset_stream (positions ts) = Some gz -> dv_rows v <> [].
  Proof using Hrows.
    intros H E. pose proof Hrows as Hz. rewrite E in Hz. apply length_zero_iff_nil in Hz. rewrite Hz in H. discriminate.
  Qed.

  Lemma reads_ffill t T :
    nth_error lts t = Some T -> ffills cfg d = true -> buffer_maxlen cfg d = None ->
    reads views t i (SOne (last (map snd (strictly_before (embedding cfg d T) (timed ts (dv_rows v))))
                                (repeat (dv_default v) w))).
  Proof using Hnd Hp Hax Hloc Hi Hd Hdl Hdim Hord Hord2 Hmono Hrows Hw Hk.
    intros HT Hff Hml. destruct reads_secondary as (_ & gl & secs & items & j & gz & Hgl & Hm & Hsec & Hgz & Hall).
    destruct (Hall t T HT) as (outs & o & s & Hit & Ho & Ha & Hre).
    pose proof (merge_ffill gl secs items t (T, Z.of_nat t) outs j (sec_cfg_of cfg d) gz Hm Hit Hsec) as G.
    destruct (start_positions _ _ Hgl) as (l0 & Egl & _). destruct (start_positions _ _ Hgz) as (z0 & Egz & Hz0).
    rewrite embed_of in G. cbn [fst] in G. rewrite Egl in G. cbn [tl] in G. rewrite map_fst_positions in G.
    specialize (G (order_positions _ Hord)).
    specialize (G (dataset_chronological _ _ Hgz (order_positions _ Hord2)) Hmono Hff Hml).
    cbn [sec_cfg_of default] in G.
    assert (Eo : o = One (last (map real (strictly_before (embedding cfg d T) gz)) (None, index_fill cfg))) by congruence.
    subst o. unfold index_of_out, access_data in Ha. fold (row_at v) in Ha.
    match type of Ha with Some (SOne (map (masked _ ?z) (gather _ ?z))) = _ => change (Some (SOne (row_at v z)) = Some s) in Ha end.
    rewrite last_cell, <- strictly_before_map in Ha.
    rewrite Egz in Ha. cbn [map] in Ha. rewrite (positions_rows v ts Hrows) in Ha.
    rewrite (row_at_neg v _ w Hk (rows_nonempty _ Hgz) Hw) in Ha.
    assert (Hs := f_equal (fun x => match x with Some y => y | None => s end) Ha). cbn beta iota in Hs. rewrite <- Hs in Hre.
    enough (E : last (map snd (strictly_before (embedding cfg d T) (mapv (row_at v) z0 :: timed ts (dv_rows v)))) (repeat (dv_default v) w) =
                last (map snd (strictly_before (embedding cfg d T) (timed ts (dv_rows v)))) (repeat (dv_default v) w)) by (rewrite <- E; exact Hre).
    rewrite <- (positions_rows v ts Hrows). destruct (positions ts) as [|z1 r]; [discriminate|].
    cbn in Hz0. assert (z1 = z0) by congruence. subst z1. unfold strictly_before. cbn [map filter].
    destruct (Z.ltb (fst (mapv (row_at v) z0)) (embedding cfg d T)); [|reflexivity]. cbn [map]. apply last_dup.
  Qed.

  Lemma reads_no_ffill t T0 T :
    nth_error lts t = Some T0 -> nth_error lts (Datatypes.S t) = Some T -> ffills cfg d = false -> buffer_maxlen cfg d = None ->
    reads views (Datatypes.S t) i
      (SOne (last (map snd (between (embedding cfg d T0) (embedding cfg d T) (timed ts (dv_rows v))))
                  (repeat (dv_default v) w))).
  Proof using Hnd Hp Hax Hloc Hi Hd Hdl Hdim Hord Hord2 Hmono Hrows Hw Hk.
    intros HT0 HT Hff Hml. destruct reads_secondary as (_ & gl & secs & items & j & gz & Hgl & Hm & Hsec & Hgz & Hall).
    destruct (Hall _ T HT) as (outs & o & s & Hit & Ho & Ha & Hre). destruct (Hall _ T0 HT0) as (outs0 & o0 & s0 & Hit0 & _).
    pose proof (merge_no_ffill gl secs items t (T0, Z.of_nat t) (T, Z.of_nat (Datatypes.S t)) outs0 outs j (sec_cfg_of cfg d) gz Hm Hit0 Hit Hsec) as G.
    destruct (start_positions _ _ Hgl) as (l0 & Egl & _). destruct (start_positions _ _ Hgz) as (z0 & Egz & Hz0).
    rewrite embed_of in G. cbn [fst] in G. rewrite Egl in G. cbn [tl] in G. rewrite map_fst_positions in G.
    specialize (G (order_positions _ Hord)).
    specialize (G (dataset_chronological _ _ Hgz (order_positions _ Hord2)) Hmono Hff Hml).
    cbn [sec_cfg_of default] in G.
    assert (Eo : o = One (last (map real (between (embedding cfg d T0) (embedding cfg d T) gz)) (None, index_fill cfg))) by congruence.
    subst o. unfold index_of_out, access_data in Ha.
    match type of Ha with Some (SOne (map (masked _ ?z) (gather _ ?z))) = _ => change (Some (SOne (row_at v z)) = Some s) in Ha end.
    rewrite last_cell, <- between_map in Ha.
    rewrite Egz in Ha. cbn [map] in Ha. rewrite (positions_rows v ts Hrows) in Ha.
    rewrite (row_at_neg v _ w Hk (rows_nonempty _ Hgz) Hw) in Ha.
    assert (Hs := f_equal (fun x => match x with Some y => y | None => s end) Ha). cbn beta iota in Hs. rewrite <- Hs in Hre.
    enough (E : last (map snd (between (embedding cfg d T0) (embedding cfg d T) (mapv (row_at v) z0 :: timed ts (dv_rows v)))) (repeat (dv_default v) w) =
                last (map snd (between (embedding cfg d T0) (embedding cfg d T) (timed ts (dv_rows v)))) (repeat (dv_default v) w)) by (rewrite <- E; exact Hre).
    rewrite <- (positions_rows v ts Hrows). destruct (positions ts) as [|z1 r]; [discriminate|].
    cbn in Hz0. assert (z1 = z0) by congruence. subst z1. unfold between. cbn [map filter].
    destruct (Z.leb (embedding cfg d T0) (fst (mapv (row_at v) z0)) && Z.ltb (fst (mapv (row_at v) z0)) (embedding cfg d T)); [|reflexivity].
    cbn [map]. apply last_dup.
  Qed.

  (** a buffered variable with one dimension: a window on the rows, the first one counted twice *)
  Lemma reads_window t T n :
    nth_error lts t = Some T -> ffills cfg d = true -> buffer_maxlen cfg d = Some n -> rest = [] ->
    exists first, hd_error (timed ts (dv_rows v)) = Some first /\
    reads views t i (SMany (map snd (padded_window n (None, repeat (dv_default v) w)
      (strictly_before (embedding cfg d T) (first :: timed ts (dv_rows v)))))).
  Proof using Hnd Hp Hax Hloc Hi Hd Hdl Hdim Hord Hord2 Hmono Hrows Hw Hk.
    intros HT Hff Hml Hr. destruct reads_secondary as (_ & gl & secs & items & j & gz & Hgl & Hm & Hsec & Hgz & Hall).
    destruct (Hall t T HT) as (outs & o & s & Hit & Ho & Ha & Hre).
    pose proof (merge_window_ffill gl secs items t (T, Z.of_nat t) outs j (sec_cfg_of cfg d) gz n Hm Hit Hsec) as G.
    destruct (start_positions _ _ Hgl) as (l0 & Egl & _). destruct (start_positions _ _ Hgz) as (z0 & Egz & Hz0).
    rewrite embed_of in G. cbn [fst] in G. rewrite Egl in G. cbn [tl] in G. rewrite map_fst_positions in G.
    specialize (G (order_positions _ Hord)).
    specialize (G (dataset_chronological _ _ Hgz (order_positions _ Hord2)) Hmono Hff Hml).
    cbn [sec_cfg_of default] in G.
    assert (Eo : o = Win (padded_window n (None, index_fill cfg) (strictly_before (embedding cfg d T) gz))) by congruence.
    subst o. unfold index_of_out, access_data in Ha. rewrite Hdim, Hr in Ha. cbn [length Nat.leb] in Ha.
    rewrite map_map in Ha.
    assert (Ew : map (fun c : @cell Z => row_at v (snd c)) (padded_window n (None, index_fill cfg) (strictly_before (embedding cfg d T) gz)) =
      map snd (padded_window n (None, row_at v (index_fill cfg)) (strictly_before (embedding cfg d T) (map (mapv (row_at v)) gz)))).
    { rewrite strictly_before_map. unfold padded_window. rewrite <- !map_lastn, !map_app, !map_rep. f_equal. f_equal.
      rewrite !map_map. apply map_ext. intros [a b]. reflexivity. }
    change (Some (SMany (map (fun c : @cell Z => row_at v (snd c)) (padded_window n (None, index_fill cfg) (strictly_before (embedding cfg d T) gz)))) = Some s) in Ha.
    rewrite Ew, Egz in Ha. cbn [map] in Ha. rewrite (positions_rows v ts Hrows) in Ha.
    rewrite (row_at_neg v _ w Hk (rows_nonempty _ Hgz) Hw) in Ha.
    exists (mapv (row_at v) z0). split.
    - rewrite <- (positions_rows v ts Hrows). destruct (positions ts); [discriminate|]. cbn in *. congruence.
    - assert (Hs := f_equal (fun x => match x with Some y => y | None => s end) Ha). cbn beta iota in Hs. rewrite <- Hs in Hre. exact Hre.
  Qed.
End Secondary.
