From Coq Require Import String ZArith List Bool Arith Lia.
From Verif Require Import Model.Tree Model.Unroll Model.Stream Model.Format Model.Accessors
  Spec.StreamSpec Spec.FormatSpec Spec.AccessorSpec Proofs.ListFacts Proofs.UnrollProofs Proofs.StreamProofs Proofs.StreamTrace
  Proofs.FormatProofs Proofs.AccessorProofs Proofs.AccessorProofs4 Proofs.AccessorProofs5 Proofs.AccessorProofs6.
Import ListNotations.
Local Open Scope list_scope.

(** *** applying a module: it is unrolled on what it reads *)
Lemma stream_apply_views {K P S A C Y} (split : K -> K * K) (dt : C -> option (list Z)) cfg (vars : list (dvar A)) coords
  (m : transformed K P S (list (string * seen A)) Y) skip rng params state :
  stream_apply split dt cfg vars coords m skip rng params state =
  match prepare dt cfg vars coords with
  | Some views => unroll split m skip rng params state views
  | None => None
  end.
Proof. unfold stream_apply. destruct (prepare dt cfg vars coords); [apply unroll_transform_dataset|reflexivity]. Qed.

Lemma prepare_length {A C} (dt : C -> option (list Z)) cfg (vars : list (dvar A)) coords views local lts :
  NoDup (map c_name coords) -> prepare dt cfg vars coords = Some views -> time_axis dt coords local lts ->
  local_time cfg = local \/ (forall d ts, time_axis dt coords d ts -> d = local) -> length views = length lts.
Proof.
  intros Hnd Hp Hax Hloc. destruct (prepare_inv dt cfg vars coords views Hnd Hp) as (l0 & lts0 & ti & Eti & _ & Hax0 & Hlen & _).
  assert (l0 = local).
  { destruct Hloc as [Hl|Hl]; [|eapply Hl; eauto].
    destruct (time_index_inv _ _ _ _ _ Hnd Eti) as (x & Hx & Hc & _). destruct Hc as [Hc|Hc]; [|congruence].
    unfold time_index in Eti. destruct (time_coords dt coords) eqn:Etc; [discriminate|].
    rewrite Hc in Eti. unfold get_local_time in Eti. cbn [String.eqb map] in Eti. destruct l; [|discriminate].
    assert (G := proj2 (time_coords_iff dt coords _ _) Hax). assert (G0 := proj2 (time_coords_iff dt coords _ _) Hax0).
    rewrite Etc in G, G0. destruct G as [->|[]], G0 as [G0|[]]. congruence. }
  subst l0. rewrite (axis_unique dt coords Hnd _ _ _ Hax Hax0). exact Hlen.
Qed.

Lemma outputs_same {K P S A C Y} (split : K -> K * K) (dt : C -> option (list Z)) cfg known local n
  (vars vars' : list (dvar A)) coords coords' lts lts' (m : transformed K P S (list (string * seen A)) Y) rng params state ys ys' sF sF' :
  NoDup (map c_name coords) ->
  time_axis dt coords local lts -> time_axis dt coords' local lts' ->
  local_time cfg = local \/ (forall d ts, time_axis dt coords d ts -> d = local) ->
  known local = n -> n <= length lts -> n <= length lts' ->
  same_known_times dt known coords coords' -> Forall2 (same_known_rows dt known coords) vars vars' ->
  unknown_is_later dt cfg known local (firstn n lts) coords ->
  unknown_is_later dt cfg known local (firstn n lts) coords' ->
  Forall (rows_match_times dt coords) vars -> Forall (rows_match_times dt coords') vars' ->
  (index_fill cfg < 0)%Z -> Forall (readable dt cfg local coords) vars ->
  stream_apply split dt cfg vars coords m false rng params state = Some (ys, sF) ->
  stream_apply split dt cfg vars' coords' m false rng params state = Some (ys', sF') ->
  firstn n ys = firstn n ys'.
Proof.
  intros Hnd Hax Hax' Hloc Hkl Hn Hn' Htimes Hrows Hlater Hlater' Hmatch Hmatch' Hk Hread H H'.
  rewrite stream_apply_views in H, H'.
  destruct (prepare dt cfg vars coords) as [views|] eqn:Hp; [|discriminate].
  destruct (prepare dt cfg vars' coords') as [views'|] eqn:Hp'; [|discriminate].
  destruct n as [|n']; [reflexivity|]. set (n := Datatypes.S n') in *.
  assert (Hbuf : forall v d, In v vars -> hd_error (dv_dims v) = Some d -> d <> local ->
    buffer_maxlen cfg d = None \/ length (dv_dims v) <= 1).
  { intros v d Hin Hd Hdl. rewrite Forall_forall in Hread. destruct (Hread v Hin) as [(d' & rest & ts & E & _ & Hc)|[_ Hl]]; [|auto].
    rewrite E in Hd. cbn in Hd. assert (d' = d) by congruence. subst d'. destruct Hc as [Hc|[Hc|Hc]]; [tauto|auto|].
    right. rewrite E, Hc. cbn. lia. }
  assert (Hv : firstn n views = firstn n views').
  { apply nth_error_firstn_eq. intros t Ht.
    apply (views_same dt cfg known local n vars vars' coords coords' lts lts' views views'); auto. }
  assert (Hloc' : local_time cfg = local \/ (forall d ts, time_axis dt coords' d ts -> d = local)).
  { destruct Hloc as [Hl|Hl]; [auto|]. right. intros d ts Hts.
    destruct (axis_same' dt known coords coords' Htimes d ts Hts) as (x & Hx). eapply Hl; eauto. }
  assert (Hnd2 : NoDup (map c_name coords')) by (rewrite <- (same_names dt known coords coords' Htimes); exact Hnd).
  pose proof (prepare_length dt cfg vars coords views local lts Hnd Hp Hax Hloc) as L.
  pose proof (prepare_length dt cfg vars' coords' views' local lts' Hnd2 Hp' Hax' Hloc') as L'.
  rewrite <- (firstn_skipn n views) in H. rewrite <- (firstn_skipn n views'), <- Hv in H'.
  assert (Hl : length (firstn n views) = n) by (rewrite firstn_length; lia).
  destruct (firstn n views) as [|x0 pre] eqn:E; [cbn in Hl; discriminate|].
  rewrite <- Hl. exact (unroll_causal split m rng params state x0 pre _ _ ys ys' sF sF' H H').
Qed.

(** *** no exception *)
Lemma mapM_total {X Y} (f : X -> option Y) l : (forall x, In x l -> exists y, f x = Some y) -> exists l', mapM f l = Some l'.
Proof.
  induction l as [|a l IH]; intros H; [exists []; reflexivity|]. cbn.
  destruct (H a (or_introl eq_refl)) as (b & ->). destruct IH as (l' & ->); [intros; apply H; right; auto|]. eauto.
Qed.

Lemma time_index_defined {C} (dt : C -> option (list Z)) cfg coords local lts :
  NoDup (map c_name coords) -> time_axis dt coords local lts ->
  (local_time cfg = local /\ local <> ""%string) \/ (local_time cfg = ""%string /\ forall d ts, time_axis dt coords d ts -> d = local) ->
  (forall d ts, time_axis dt coords d ts -> ts <> [] /\ (d <> local -> buffer_maxlen cfg d <> Some 0)) ->
  exists ti, time_index dt cfg coords = Some (local, ti).
Proof.
  intros Hnd Hax Hloc Hok. unfold time_index.
  pose proof (time_coords_nodup dt coords Hnd) as Hn.
  assert (Hiff : forall d ts, In (d, ts) (time_coords dt coords) <-> time_axis dt coords d ts) by apply time_coords_iff.
  set (tcs := time_coords dt coords) in *. clearbody tcs.
  assert (Hin : In (local, lts) tcs) by (apply Hiff; auto).
  destruct tcs as [|p r] eqn:Et; [destruct Hin|]. rewrite <- Et in *.
  assert (El : get_local_time (local_time cfg) (map fst tcs) = Some local).
  { unfold get_local_time. destruct Hloc as [[-> Hne]|[-> Hone]].
    - destruct (String.eqb_spec local ""); [tauto|reflexivity].
    - cbn. rewrite Et in *. destruct p as [d ts]. assert (d = local) by (apply (Hone d ts), Hiff; left; auto). subst d.
      destruct r as [|[d2 ts2] r]; [reflexivity|].
      assert (d2 = local) by (apply (Hone d2 ts2), Hiff; right; left; auto). subst d2.
      cbn in Hn. inversion Hn as [|? ? Hni _]; subst. exfalso. apply Hni. left. reflexivity. }
  rewrite El. rewrite (proj2 (lookup_iff tcs local lts Hn) Hin).
  destruct (Hok local lts Hax) as [Hlne _].
  destruct (start_dataset_stream (positions lts)) as [gl|] eqn:Eg.
  2:{ exfalso. unfold start_dataset_stream in Eg. destruct (positions lts) eqn:Ep; [|discriminate].
      apply Hlne. pose proof (positions_length lts) as X. rewrite Ep in X. destruct lts; [auto|discriminate]. }
  rewrite Et. destruct r as [|q r]; [eauto|]. rewrite <- Et. cbv zeta.
  match goal with |- context [mapM ?f (filter ?g tcs)] => change (mapM f (filter g tcs)) with (mapM (sec_of cfg) (others_of local tcs)); change (filter g tcs) with (others_of local tcs) end.
  destruct (mapM_total (sec_of cfg) (others_of local tcs)) as (secs & Es).
  { intros [d ts] Hd. apply others_in in Hd as [Hd _]. destruct (Hok d ts) as [Hne _]; [apply Hiff; auto|].
    unfold sec_of. cbn [fst snd]. destruct ts as [|t0 ts]; [tauto|]. cbn. eauto. }
  rewrite Es. destruct (mapM_inv _ _ _ Es) as [Hsl Hsn].
  destruct (proj2 (merge_defined gl secs)) as (items & Em).
  { split.
    - intros ->. apply start_positions in Eg as (o & E & _). discriminate.
    - intros c g Hcg. apply In_nth_error in Hcg as [k Hk].
      destruct (nth_error_lt (others_of local tcs) k) as ([d ts] & Hd).
      { rewrite <- Hsl. apply nth_error_Some. unfold obs in *. congruence. }
      destruct (Hsn _ _ Hd) as (b & Hb & Hs). unfold sec_of in Hs. cbn [fst snd] in Hs.
      destruct (start_dataset_stream (positions ts)) as [g'|] eqn:Eg'; [|discriminate]. cbn in Hs.
      assert (Eb : b = (sec_cfg_of cfg d, g')) by congruence. subst b.
      assert (Ec : (c, g) = (sec_cfg_of cfg d, g')) by (unfold obs in *; congruence).
      assert (c = sec_cfg_of cfg d) by congruence. assert (g = g') by congruence. subst c g. split.
      + intros ->. apply start_positions in Eg' as (o & E & _). discriminate.
      + cbn. apply nth_error_In, others_in in Hd as [Hd Hdl]. apply (Hok d ts); auto. apply Hiff. auto. }
  rewrite Em.
  destruct (unroll_stream_runs (map (fun it : @obs Z * list (@out Z) => One (real (fst it)) :: snd it) items) (Datatypes.S (length secs))) as (cols & Ec).
  - pose proof (merge_local _ _ _ Em) as HL. apply start_positions in Eg as (o & Egl & Ho).
    intros E. destruct items; [|discriminate]. rewrite Egl in HL. cbn in HL. rewrite <- HL in Ho. discriminate.
  - apply Forall_forall. intros x Hx. apply in_map_iff in Hx as ([o outs] & <- & Hi).
    apply In_nth_error in Hi as [j Hj]. cbn. f_equal. eapply merge_outs; eauto.
  - rewrite Ec. eauto.
Qed.

Lemma prepare_defined {A C} (dt : C -> option (list Z)) cfg (vars : list (dvar A)) coords local lts :
  NoDup (map c_name coords) -> time_axis dt coords local lts ->
  (local_time cfg = local /\ local <> ""%string) \/ (local_time cfg = ""%string /\ forall d ts, time_axis dt coords d ts -> d = local) ->
  (forall d ts, time_axis dt coords d ts -> ts <> [] /\ (d <> local -> buffer_maxlen cfg d <> Some 0)) ->
  Forall (readable dt cfg local coords) vars ->
  exists views, prepare dt cfg vars coords = Some views.
Proof.
  intros Hnd Hax Hloc Hok Hread. destruct (time_index_defined dt cfg coords local lts Hnd Hax Hloc Hok) as (ti & Eti).
  unfold prepare. rewrite Eti. destruct (time_index_inv _ _ _ _ _ Hnd Eti) as (l1 & Hax1 & _ & Hl & Hdims & Hsec).
  rewrite <- (axis_unique dt coords Hnd _ _ _ Hax Hax1) in *. clear l1 Hax1.
  rewrite Hl. cbv zeta. rewrite map_length, positions_length.
  assert (Hidx : forall v, In v vars -> exists idxs, var_index ti (length lts) v = Some idxs /\ length idxs = length lts /\
    forall idx, In idx idxs -> exists s, access_data v idx = Some s).
  { intros v Hin. rewrite Forall_forall in Hread. specialize (Hread v Hin). unfold var_index.
    assert (Hsmall : length (dv_dims v) <= 1 -> forall idx, exists s, access_data v idx = Some s).
    { intros Hs idx. unfold access_data. destruct idx; [eauto|]. apply Nat.leb_le in Hs. rewrite Hs. eauto. }
    destruct Hread as [(d & rest & ts & Ed & Ha & Hc)|[Hno Hs]].
    - assert (E : existsb (fun d => mem_str d (map fst ti)) (dv_dims v) = true).
      { apply existsb_exists. exists d. split; [rewrite Ed; left; auto|]. apply mem_str_iff, Hdims. eauto. }
      rewrite E, Ed. destruct (String.eqb_spec d local) as [->|Hdl].
      + rewrite Hl. cbn [option_map]. eexists. split; [reflexivity|]. split; [rewrite !map_length; apply positions_length|].
        intros idx Hi. rewrite map_map in Hi. apply in_map_iff in Hi as (o & <- & _). cbn. eauto.
      + destruct (Hsec d ts Ha Hdl) as (gl & secs & items & j & gz & col & S1 & S2 & S3 & S4 & S5 & S6 & S7 & S8).
        rewrite S7. cbn [option_map]. eexists. split; [reflexivity|].
        assert (Hcl : length col = length lts).
        { apply (f_equal (@length _)) in S8. rewrite !map_length in S8. rewrite S8, <- (map_length fst), (merge_local _ _ _ S3).
          apply start_positions in S1 as (o & -> & _). cbn. apply positions_length. }
        split; [rewrite map_length; exact Hcl|].
        intros idx Hi. apply in_map_iff in Hi as (o & <- & Ho).
        destruct Hc as [Hc|[Hc|Hc]]; [tauto| |apply Hsmall; rewrite Ed, Hc; cbn; lia].
        apply In_nth_error in Ho as [t Ht].
        assert (Q := f_equal (fun l => nth_error l t) S8). cbn in Q. rewrite !nth_error_map, Ht in Q.
        destruct (nth_error items t) as [[lo outs]|] eqn:Eit; [|discriminate]. cbn in Q.
        destruct (merge_lane _ _ _ _ _ _ _ _ _ S3 Eit S5) as [_ Hres].
        assert (Hone : forall P tw, exists c, result (sec_cfg_of cfg d) P tw = One c).
        { intros P tw. unfold result, out_of. cbn [sec_cfg_of maxlen]. rewrite Hc. destruct (ffill _), tw; eauto. }
        match type of Hres with _ = Some (result ?c ?P ?tw) => destruct (Hone P tw) as (c1 & Hc1) end.
        assert (o = One c1) by congruence. subst o. cbn. eauto.
    - assert (E : existsb (fun d => mem_str d (map fst ti)) (dv_dims v) = false).
      { destruct (existsb _ _) eqn:E; [|reflexivity]. apply existsb_exists in E as (d & Hd & Hm).
        apply mem_str_iff, Hdims in Hm as (ts & Hts). exfalso. eapply Hno; eauto. }
      rewrite E. destruct (dv_dims v); eexists; (split; [reflexivity|split; [rewrite map_length, seq_length; reflexivity|auto]]). }
  destruct (mapM_total (var_index ti (length lts)) vars) as (indices & Ei).
  { intros v Hin. destruct (Hidx v Hin) as (idxs & H & _). eauto. }
  rewrite Ei. apply mapM_total. intros t Ht. apply in_seq in Ht. unfold view_at. apply mapM_total.
  intros [v idxs] Hin. cbn [fst snd]. apply In_nth_error in Hin as [k Hk].
  destruct (mapM_inv _ _ _ Ei) as [Hil Hin].
  assert (Hkl : k < length vars).
  { assert (k < length (combine vars indices)) by (apply nth_error_Some; congruence). rewrite combine_length in H. lia. }
  destruct (nth_error_lt vars k Hkl) as (v1 & Hv1). destruct (Hin k v1 Hv1) as (i1 & Hi1 & Hvi).
  rewrite (nth_error_combine _ _ _ _ _ Hv1 Hi1) in Hk. assert (v1 = v) by congruence. assert (i1 = idxs) by congruence. subst v1 i1.
  destruct (Hidx v) as (idxs' & H1 & H2 & H3); [eapply nth_error_In; eauto|]. assert (idxs' = idxs) by congruence. subst idxs'.
  destruct (nth_error_lt idxs t) as (idx & Hx); [lia|]. rewrite Hx. destruct (H3 idx) as (s & ->); [eapply nth_error_In; eauto|]. cbn. eauto.
Qed.

(** *** variables with more dimensions: the code fails *)
Lemma matrix_window_fails {A} (v : dvar A) zs :
  2 <= length (dv_dims v) -> length zs <> dv_last v -> length zs <> 1 -> dv_last v <> 1 -> access_data v (IMany zs) = None.
Proof.
  intros H1 H2 H3 H4. unfold access_data.
  destruct (Nat.leb_spec (length (dv_dims v)) 1); [lia|].
  destruct (Nat.eqb_spec (length zs) (dv_last v)); [tauto|].
  destruct (Nat.eqb_spec (length zs) 1); [tauto|]. destruct (Nat.eqb_spec (dv_last v) 1); [tauto|]. reflexivity.
Qed.

Lemma constant_matrix_fails {A C} (dt : C -> option (list Z)) cfg (vars : list (dvar A)) coords local lts v :
  NoDup (map c_name coords) -> time_axis dt coords local lts -> lts <> [] ->
  local_time cfg = local \/ (forall d ts, time_axis dt coords d ts -> d = local) ->
  In v vars -> (forall d ts, In d (dv_dims v) -> ~ time_axis dt coords d ts) ->
  2 <= length (dv_dims v) -> dv_size v <> dv_last v -> dv_size v <> 1 -> dv_last v <> 1 ->
  prepare dt cfg vars coords = None.
Proof.
  intros Hnd Hax Hne Hloc Hin Hno H2 Hs1 Hs2 Hs3. destruct (prepare dt cfg vars coords) as [views|] eqn:Hp; [|reflexivity]. exfalso.
  pose proof (prepare_length dt cfg vars coords views local lts Hnd Hp Hax Hloc) as L.
  destruct (prepare_inv dt cfg vars coords views Hnd Hp) as (l0 & lts0 & ti & Eti & Hl & Hax0 & Hlen & Hall).
  apply In_nth_error in Hin as [i Hi].
  assert (H0 : 0 < length lts0) by (rewrite <- Hlen, L; destruct lts; [tauto|cbn; lia]).
  destruct (Hall 0 i v H0 Hi) as (idxs & idx & s & Hv & Hidx & Ha & _).
  destruct (time_index_inv _ _ _ _ _ Hnd Eti) as (lts1 & _ & _ & _ & Hdim & _).
  unfold var_index in Hv.
  assert (E : existsb (fun d => mem_str d (map fst ti)) (dv_dims v) = false).
  { destruct (existsb _ _) eqn:E; [|reflexivity]. apply existsb_exists in E as (d & Hd & Hm).
    apply mem_str_iff, Hdim in Hm as (ts & Hts). exfalso. eapply Hno; eauto. }
  rewrite E in Hv. destruct (dv_dims v) as [|d0 rest] eqn:Ed; [cbn in H2; lia|].
  assert (Hv' : idxs = map (fun s => IMany (map (fun j => Z.of_nat (s * j)) (seq 0 (dv_size v)))) (seq 0 (length lts0))) by congruence.
  subst idxs. rewrite nth_error_map, (nth_error_nth' _ 0) in Hidx by (rewrite seq_length; auto).
  rewrite seq_nth in Hidx by auto. cbn [option_map plus] in Hidx.
  assert (idx = IMany (map (fun j => Z.of_nat (0 * j)) (seq 0 (dv_size v)))) by congruence. subst idx.
  rewrite matrix_window_fails in Ha; [discriminate|rewrite Ed; auto|rewrite map_length, seq_length; auto|rewrite map_length, seq_length; auto|auto].
Qed.

(** a buffered variable with several dimensions *)
Lemma buffered_matrix_fails {A C} (dt : C -> option (list Z)) cfg (vars : list (dvar A)) coords local lts v d e rest ts k :
  NoDup (map c_name coords) -> time_axis dt coords local lts -> lts <> [] -> local_time cfg = local ->
  In v vars -> dv_dims v = d :: e :: rest -> time_axis dt coords d ts -> d <> local ->
  buffer_maxlen cfg d = Some k -> k <> dv_last v -> k <> 1 -> dv_last v <> 1 ->
  prepare dt cfg vars coords = None.
Proof.
  intros Hnd Hax Hne Hloc Hin Ed Hts Hdl Hml H1 H2 H3. destruct (prepare dt cfg vars coords) as [views|] eqn:Hp; [|reflexivity]. exfalso.
  apply In_nth_error in Hin as [i Hi].
  destruct (reads_secondary dt cfg vars coords views Hnd Hp local lts Hax Hloc i v d ts (e :: rest) Hi Hts Hdl Ed)
    as (_ & gl & secs & items & j & gz & Hgl & Hm & Hsec & Hgz & Hall).
  destruct lts as [|T lts]; [tauto|]. destruct (Hall 0 T eq_refl) as (outs & o & s & Hit & Ho & Ha & _).
  destruct (merge_lane _ _ _ _ _ _ _ _ _ Hm Hit Hsec) as [_ Hres].
  assert (Hwin : forall P tw, exists l, result (sec_cfg_of cfg d) P tw = Win l /\ length l = k).
  { assert (G : forall P, exists l, out_of (sec_cfg_of cfg d) P = Win l /\ length l = k).
    { intros P. unfold out_of. cbn [sec_cfg_of maxlen]. rewrite Hml. eexists. split; [reflexivity|].
      unfold padded_window, lastn. rewrite skipn_length, app_length, repeat_length, map_length. lia. }
    intros P tw. unfold result. destruct (ffill _), tw; apply G. }
  match type of Hres with _ = Some (result ?c ?P ?tw) => destruct (Hwin P tw) as (l & Hl & Hlen) end.
  assert (o = Win l) by congruence. subst o. cbn [index_of_out] in Ha.
  rewrite matrix_window_fails in Ha; [discriminate|rewrite Ed; cbn; lia|rewrite map_length; unfold cell in *; congruence|rewrite map_length; unfold cell in *; congruence|auto].
Qed.
