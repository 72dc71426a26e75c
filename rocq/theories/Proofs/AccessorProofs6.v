From Coq Require Import String ZArith List Bool Arith Lia.
From Verif Require Import Model.Tree Model.Unroll Model.Stream Model.Format Model.Accessors
  Spec.StreamSpec Spec.FormatSpec Spec.AccessorSpec Proofs.ListFacts Proofs.UnrollProofs Proofs.StreamProofs Proofs.StreamTrace
  Proofs.FormatProofs Proofs.AccessorProofs Proofs.AccessorProofs4 Proofs.AccessorProofs5.
Import ListNotations.
Local Open Scope list_scope.

Lemma result_cells_all {V} (cfg : @sec_cfg V) P tw c : In c (cells (result cfg P tw)) ->
  c = init_obs cfg \/ exists o, c = real o.
Proof.
  assert (G : forall P, In c (cells (out_of cfg P)) -> c = init_obs cfg \/ exists o, c = real o).
  { intros Q. unfold out_of. destruct (maxlen cfg) as [n|]; cbn [cells].
    - unfold padded_window, lastn. intros Hin. match type of Hin with In _ (skipn ?k ?l) => assert (Hin2 : In c l) by (rewrite <- (firstn_skipn k l); apply in_or_app; auto) end. clear Hin. rename Hin2 into Hin. apply in_app_or in Hin as [Hin|Hin].
      + apply repeat_spec in Hin. auto.
      + apply in_map_iff in Hin as (o & <- & _). right. eauto.
    - intros [<-|[]]. destruct Q as [|q Q] using rev_ind; [auto|].
      rewrite map_app. cbn. rewrite last_last. right. eauto. }
  unfold result. destruct (ffill cfg); [apply G|]. destruct tw; apply G.
Qed.

Lemma firstn_nth_error {B} (l l' : list B) k i : firstn k l = firstn k l' -> i < k -> nth_error l i = nth_error l' i.
Proof. intros H Hi. apply (f_equal (fun x => nth_error x i)) in H. rewrite !nth_firstn_if in H. destruct (Nat.ltb_spec i k); [auto|lia]. Qed.
Lemma nth_error_firstn_eq {B} (l l' : list B) k : (forall i, i < k -> nth_error l i = nth_error l' i) -> firstn k l = firstn k l'.
Proof.
  intros H. apply nth_error_ext. intros i. rewrite !nth_firstn_if. destruct (Nat.ltb_spec i k); auto.
Qed.

Section Causal.
  Context {A C : Type} (dt : C -> option (list Z)).
  Variables (cfg : stream_cfg) (known : string -> nat) (local : string) (n : nat).
  Variables (vars vars' : list (dvar A)) (coords coords' : list (coord C)) (lts lts' : list Z).
  Variables (views views' : list (list (string * seen A))).
  Hypothesis Hnd : NoDup (map c_name coords).
  Hypothesis Hp : prepare dt cfg vars coords = Some views.
  Hypothesis Hp' : prepare dt cfg vars' coords' = Some views'.
  Hypothesis Hax : time_axis dt coords local lts.
  Hypothesis Hax' : time_axis dt coords' local lts'.
  Hypothesis Hloc : local_time cfg = local \/ (forall d ts, time_axis dt coords d ts -> d = local).
  Hypothesis Hkl : known local = n.
  Hypothesis Hn : n <= length lts.
  Hypothesis Hn' : n <= length lts'.
  Hypothesis Htimes : same_known_times dt known coords coords'.
  Hypothesis Hrows : Forall2 (same_known_rows dt known coords) vars vars'.
  Hypothesis Hlater : unknown_is_later dt cfg known local (firstn n lts) coords.
  Hypothesis Hlater' : unknown_is_later dt cfg known local (firstn n lts) coords'.
  Hypothesis Hmatch : Forall (rows_match_times dt coords) vars.
  Hypothesis Hmatch' : Forall (rows_match_times dt coords') vars'.
  Hypothesis Hk : (index_fill cfg < 0)%Z.
  Hypothesis Hbuf : forall v d, In v vars -> hd_error (dv_dims v) = Some d -> d <> local ->
    buffer_maxlen cfg d = None \/ length (dv_dims v) <= 1.

  Lemma same_names : map c_name coords = map c_name coords'.
  Proof. pose proof Htimes as HX. clear -HX. unfold same_known_times in HX. induction HX as [|c c' l l' [H _] _ IH]; cbn; congruence. Qed.
  Lemma Hnd' : NoDup (map c_name coords').
  Proof. rewrite <- same_names. exact Hnd. Qed.

  Lemma axis_same d ts : time_axis dt coords d ts ->
    exists ts', time_axis dt coords' d ts' /\ firstn (known d) ts = firstn (known d) ts'.
  Proof.
    pose proof Htimes as HX. clear -HX. unfold same_known_times in HX. intros (c & Hin & <- & Hc). induction HX as [|a a' l l' [Hnm Ha] HF IH]; [destruct Hin|].
    destruct Hin as [->|Hin].
    - rewrite Hc in Ha. destruct (dt (c_val a')) as [ts'|] eqn:E; [|destruct Ha].
      exists ts'. split; [|exact Ha]. exists a'. split; [left; auto|]. split; auto.
    - destruct (IH Hin) as (ts' & (c' & H1 & H2) & H3). exists ts'. split; [|exact H3]. exists c'. split; [right; auto|auto].
  Qed.
  Lemma axis_same' d ts' : time_axis dt coords' d ts' -> exists ts, time_axis dt coords d ts.
  Proof.
    pose proof Htimes as HX. clear -HX. unfold same_known_times in HX. intros (c & Hin & <- & Hc). induction HX as [|a a' l l' [Hnm Ha] HF IH]; [destruct Hin|].
    destruct Hin as [->|Hin].
    - rewrite Hc in Ha. destruct (dt (c_val a)) as [ts|] eqn:E; [|destruct Ha].
      exists ts. exists a. split; [left; auto|]. split; auto.
    - destruct (IH Hin) as (ts & c' & H1 & H2). exists ts. exists c'. split; [right; auto|auto].
  Qed.
  Lemma axis_pair d ts ts' : time_axis dt coords d ts -> time_axis dt coords' d ts' -> firstn (known d) ts = firstn (known d) ts'.
  Proof.
    intros H H'. destruct (axis_same d ts H) as (t2 & H2 & E).
    rewrite (axis_unique dt coords' Hnd' d ts' t2 H' H2). exact E.
  Qed.

  (** the time coordinates correspond *)
  Lemma tcs_same : Forall2 (fun a b => fst a = fst b) (time_coords dt coords) (time_coords dt coords').
  Proof.
    pose proof Htimes as HX. clear -HX. unfold same_known_times in HX. unfold time_coords. induction HX as [|a a' l l' [Hnm Ha] HF IH]; [constructor|].
    cbn [flat_map]. destruct (dt (c_val a)), (dt (c_val a')); try tauto.
    cbn. constructor; [exact Hnm|exact IH].
  Qed.
  Lemma others_same : Forall2 (fun a b => fst a = fst b) (others_of local (time_coords dt coords)) (others_of local (time_coords dt coords')).
  Proof.
    pose proof tcs_same as H. clear -H. unfold others_of. induction H as [|a b l l' E H IH]; [constructor|].
    cbn. rewrite <- E. destruct (negb (String.eqb (fst a) local)); [constructor; auto|auto].
  Qed.

  Lemma local_is l0 ti : time_index dt cfg coords = Some (l0, ti) -> l0 = local.
  Proof.
    intros E. destruct (time_index_inv _ _ _ _ _ Hnd E) as (lts1 & Hax1 & Hc & _).
    destruct Hloc as [Hl|Hl]; [|eapply Hl; eauto]. destruct Hc as [Hc|Hc]; [|congruence].
    unfold time_index in E. destruct (time_coords dt coords) eqn:Etc; [discriminate|].
    rewrite Hc in E. unfold get_local_time in E. cbn [String.eqb map] in E. destruct l; [|discriminate].
    assert (G := proj2 (time_coords_iff dt coords _ _) Hax). assert (G0 := proj2 (time_coords_iff dt coords _ _) Hax1).
    rewrite Etc in G, G0. destruct G as [->|[]], G0 as [G0|[]]. congruence.
  Qed.

  (** the index of a secondary variable at a step, and the merge it comes from *)
  Lemma F2_nth' {X Y} (R : X -> Y -> Prop) l l' k x : Forall2 R l l' -> nth_error l k = Some x ->
    exists y, nth_error l' k = Some y /\ R x y.
  Proof.
    intros H. revert k. induction H as [|a b l l' Hab H IH]; intros [|k] E; cbn in *; try discriminate.
    - exists b. split; congruence.
    - apply IH. auto.
  Qed.
  Lemma F2_length' {X Y} (R : X -> Y -> Prop) l l' : Forall2 R l l' -> length l = length l'.
  Proof. induction 1; cbn; congruence. Qed.

  Lemma starts_same d ts ts' g g' :
    time_axis dt coords d ts -> time_axis dt coords' d ts' -> d <> local ->
    start_dataset_stream (positions ts) = Some g -> start_dataset_stream (positions ts') = Some g' ->
    exists past future future', g = past ++ future /\ g' = past ++ future' /\
      forall T o, In T (firstn n lts) -> In o (future ++ future') -> (embedding cfg d T <= fst o)%Z.
  Proof.
    intros H H' Hdl Hg Hg'. pose proof (axis_pair d ts ts' H H') as E.
    assert (Ep : firstn (known d) (positions ts) = firstn (known d) (positions ts')).
    { apply nth_error_firstn_eq. intros k Hk0. rewrite !positions_nth, (firstn_nth_error _ _ _ _ E Hk0). reflexivity. }
    assert (Hin : forall xs (o : @obs Z), In o (skipn (known d) (positions xs)) -> In (fst o) (skipn (known d) xs)).
    { intros xs o Ho. apply In_nth_error in Ho as [k Hk0]. rewrite nth_error_skipn, positions_nth in Hk0.
      destruct (nth_error xs (known d + k)) as [x|] eqn:Ex; [|discriminate]. cbn in Hk0.
      assert (o = (x, Z.of_nat (known d + k))) by congruence. subst o. cbn. rewrite <- nth_error_skipn in Ex.
      eapply nth_error_In; eauto. }
    destruct (start_positions _ _ Hg) as (o & -> & Ho). destruct (start_positions _ _ Hg') as (o' & -> & Ho').
    destruct (known d) as [|k] eqn:Ek.
    - exists [], (o :: positions ts), (o' :: positions ts'). split; [reflexivity|]. split; [reflexivity|].
      intros T x HT Hx. assert (Hx' : In x (positions ts) \/ In x (positions ts')).
      { apply in_app_or in Hx as [[<-|Hx]|[<-|Hx]]; auto; [left|right]; eapply nth_error_In; eauto. }
      destruct Hx' as [Hx'|Hx'].
      + apply (Hlater d ts T (fst x) H Hdl HT). rewrite Ek. cbn. apply (Hin ts x). exact Hx'.
      + apply (Hlater' d ts' T (fst x) H' Hdl HT). rewrite Ek. cbn. apply (Hin ts' x). exact Hx'.
    - assert (o = o').
      { rewrite (firstn_nth_error _ _ _ 0 Ep) in Ho by apply Nat.lt_0_succ. congruence. }
      subst o'. exists (o :: firstn (Datatypes.S k) (positions ts)), (skipn (Datatypes.S k) (positions ts)), (skipn (Datatypes.S k) (positions ts')).
      split; [cbn [app]; rewrite firstn_skipn; reflexivity|]. split; [rewrite Ep; cbn [app]; rewrite firstn_skipn; reflexivity|].
      intros T x HT Hx. apply in_app_or in Hx as [Hx|Hx].
      + apply (Hlater d ts T (fst x) H Hdl HT). rewrite Ek. apply (Hin ts x). exact Hx.
      + apply (Hlater' d ts' T (fst x) H' Hdl HT). rewrite Ek. apply (Hin ts' x). exact Hx.
  Qed.

  Lemma secs_same secs secs' :
    mapM (sec_of cfg) (others_of local (time_coords dt coords)) = Some secs ->
    mapM (sec_of cfg) (others_of local (time_coords dt coords')) = Some secs' ->
    same_past (firstn n lts) secs secs'.
  Proof.
    intros H H'. pose proof others_same as HF.
    assert (Ho : forall d ts, In (d, ts) (others_of local (time_coords dt coords)) -> time_axis dt coords d ts /\ d <> local).
    { intros d ts Hin. apply others_in in Hin as [Hin Hne]. split; [apply time_coords_iff|]; auto. }
    assert (Ho' : forall d ts, In (d, ts) (others_of local (time_coords dt coords')) -> time_axis dt coords' d ts /\ d <> local).
    { intros d ts Hin. apply others_in in Hin as [Hin Hne]. split; [apply time_coords_iff|]; auto. }
    revert secs secs' H H' Ho Ho'. induction HF as [|[d ts] [d' ts'] l l' E HF IH]; intros secs secs' H H' Ho Ho'; cbn in H, H'.
    - assert (secs = []) by congruence. assert (secs' = []) by congruence. subst secs secs'. constructor.
    - cbn in E. subst d'.
      unfold sec_of at 1 in H. unfold sec_of at 1 in H'. cbn [fst snd] in H, H'.
      destruct (start_dataset_stream (positions ts)) as [g|] eqn:Eg; [|discriminate].
      destruct (start_dataset_stream (positions ts')) as [g'|] eqn:Eg'; [|discriminate].
      cbn [option_map] in H, H'.
      destruct (mapM (sec_of cfg) l) as [s|] eqn:Es; [|discriminate]. destruct (mapM (sec_of cfg) l') as [s'|] eqn:Es'; [|discriminate].
      assert (secs = (sec_cfg_of cfg d, g) :: s) by congruence. assert (secs' = (sec_cfg_of cfg d, g') :: s') by congruence. subst secs secs'.
      constructor.
      + split; [reflexivity|]. cbn [fst snd]. rewrite embed_of.
        destruct (Ho d ts (or_introl eq_refl)) as [H1 H2]. destruct (Ho' d ts' (or_introl eq_refl)) as [H1' _].
        exact (starts_same d ts ts' g g' H1 H1' H2 Eg Eg').
      + apply IH; auto; intros; [apply Ho|apply Ho']; right; auto.
  Qed.

  (** an index read by a module gives the same row *)
  Lemma same_row (v v' : dvar A) d ts z tz : same_known_rows dt known coords v v' -> hd_error (dv_dims v) = Some d ->
    time_axis dt coords d ts -> length (dv_rows v) = length ts -> dv_rows v' <> [] -> dv_rows v <> [] ->
    (tz = (None : option Z) /\ z = index_fill cfg) \/ (exists k, z = Z.of_nat k /\ k < known d /\ k < length ts) ->
    row_at v z = row_at v' z.
  Proof.
    intros (E1 & E2 & E5 & (w & Hw) & E6 & E7) Hd Ha Hl Hne' Hne Hz.
    apply Forall_app in Hw as [Hw Hw'].
    destruct Hz as [[_ ->]|(k & -> & Hkn & Hlt)].
    - rewrite (row_at_neg v _ w), (row_at_neg v' _ w), E5; auto.
    - specialize (E6 d ts Hd Ha). destruct (nth_error_lt (dv_rows v) k) as (r & Hr); [rewrite Hl; exact Hlt|].
      rewrite (row_at_nth v k r Hr). rewrite (firstn_nth_error _ _ _ _ E6 Hkn) in Hr. rewrite (row_at_nth v' k r Hr). reflexivity.
  Qed.

  Lemma index_of_cells (o : @out Z) : match index_of_out o with IOne z => [z] | IMany zs => zs end = map snd (cells o).
  Proof. destruct o; reflexivity. Qed.

  Lemma access_same (v v' : dvar A) (o : @out Z) s s' :
    dv_dims v = dv_dims v' ->
    (forall c, In c (cells o) -> row_at v (snd c) = row_at v' (snd c)) ->
    (exists c, o = One c) \/ length (dv_dims v) <= 1 ->
    access_data v (index_of_out o) = Some s -> access_data v' (index_of_out o) = Some s' -> s = s'.
  Proof.
    intros Ed Hc Hsh H H'. destruct o as [c|l].
    - cbn in H, H'. change (Some (SOne (row_at v (snd c))) = Some s) in H. change (Some (SOne (row_at v' (snd c))) = Some s') in H'.
      rewrite (Hc c (or_introl eq_refl)) in H. congruence.
    - destruct Hsh as [(c & E)|Hsh]; [discriminate|]. unfold access_data, index_of_out in H, H'.
      rewrite <- Ed in H'. apply Nat.leb_le in Hsh. rewrite Hsh in H, H'. rewrite map_map in H, H'.
      change (Some (SMany (map (fun c : @cell Z => row_at v (snd c)) l)) = Some s) in H.
      change (Some (SMany (map (fun c : @cell Z => row_at v' (snd c)) l)) = Some s') in H'.
      assert (E : map (fun c : @cell Z => row_at v (snd c)) l = map (fun c : @cell Z => row_at v' (snd c)) l) by (apply map_ext_in; auto).
      rewrite E in H. congruence.
  Qed.

  Lemma positions_prefix : exists po f f', positions lts = po ++ f /\ positions lts' = po ++ f' /\ length po = n /\ map fst po = firstn n lts.
  Proof.
    pose proof (axis_pair local lts lts' Hax Hax') as E. rewrite Hkl in E.
    assert (Ep : firstn n (positions lts) = firstn n (positions lts')).
    { apply nth_error_firstn_eq. intros k Hk0. rewrite !positions_nth, (firstn_nth_error _ _ _ _ E Hk0). reflexivity. }
    exists (firstn n (positions lts)), (skipn n (positions lts)), (skipn n (positions lts')).
    split; [rewrite firstn_skipn; reflexivity|]. split; [rewrite Ep, firstn_skipn; reflexivity|]. split.
    - rewrite firstn_length, positions_length. lia.
    - rewrite <- firstn_map, map_fst_positions. reflexivity.
  Qed.

  Lemma view_inv (cs : list (coord C)) vs (ws : list (list (string * seen A))) ls t :
    NoDup (map c_name cs) -> prepare dt cfg vs cs = Some ws -> time_axis dt cs local ls ->
    (forall l0 ti, time_index dt cfg cs = Some (l0, ti) -> l0 = local) -> t < length ls ->
    length ws = length ls /\
    exists ti view, time_index dt cfg cs = Some (local, ti) /\ nth_error ws t = Some view /\ length view = length vs /\
      forall i v, nth_error vs i = Some v -> exists idxs idx s, var_index ti (length ls) v = Some idxs /\
        nth_error idxs t = Some idx /\ access_data v idx = Some s /\ nth_error view i = Some (dv_name v, s).
  Proof.
    intros Hd Hq Ha Hlo Ht. unfold prepare in Hq. destruct (time_index dt cfg cs) as [[l0 ti]|] eqn:Et; [|discriminate].
    specialize (Hlo l0 ti eq_refl). subst l0.
    destruct (time_index_inv _ _ _ _ _ Hd Et) as (ls1 & Ha1 & _ & Hl & _ & _).
    rewrite <- (axis_unique dt cs Hd _ _ _ Ha Ha1) in Hl. clear Ha1.
    rewrite Hl in Hq. cbv zeta in Hq. rewrite map_length, positions_length in Hq.
    destruct (mapM (var_index ti (length ls)) vs) as [indices|] eqn:Ei; [|discriminate].
    destruct (mapM_inv _ _ _ Hq) as [Hlen Hv]. rewrite seq_length in Hlen. split; [exact Hlen|].
    destruct (mapM_inv _ _ _ Ei) as [Hil Hin].
    destruct (Hv t t) as (view & Hview & Hva).
    { rewrite (nth_error_nth' _ 0) by (rewrite seq_length; auto). rewrite seq_nth by auto. reflexivity. }
    exists ti, view. split; [reflexivity|]. split; [exact Hview|].
    unfold view_at in Hva. destruct (mapM_inv _ _ _ Hva) as [Hvl Hvn].
    rewrite combine_length, Hil, Nat.min_id in Hvl. split; [exact Hvl|].
    intros i v Hi. destruct (Hin i v Hi) as (idxs & Hidxs & Hvi).
    destruct (Hvn i (v, idxs)) as ([nm s] & Hns & Hs); [apply nth_error_combine; auto|].
    cbn [fst snd] in Hs. destruct (nth_error idxs t) as [idx|] eqn:Eidx; [|discriminate].
    destruct (access_data v idx) as [s'|] eqn:Ea; [|discriminate]. cbn in Hs.
    assert (nm = dv_name v) by congruence. assert (s' = s) by congruence. subst s' nm.
    exists idxs, idx, s. auto.
  Qed.

  Lemma local_is' l0 ti : time_index dt cfg coords' = Some (l0, ti) -> l0 = local.
  Proof.
    intros E. destruct (time_index_inv _ _ _ _ _ Hnd' E) as (lts1 & Hax1 & Hc & _).
    destruct (axis_same' _ _ Hax1) as (u & Hu).
    destruct Hloc as [Hl|Hl]; [|eapply Hl; eauto]. destruct Hc as [Hc|Hc]; [|congruence].
    unfold time_index in E. destruct (time_coords dt coords') eqn:Etc; [discriminate|].
    rewrite Hc in E. unfold get_local_time in E. cbn [String.eqb map] in E. destruct l; [|discriminate].
    assert (G := proj2 (time_coords_iff dt coords' _ _) Hax'). assert (G0 := proj2 (time_coords_iff dt coords' _ _) Hax1).
    rewrite Etc in G, G0. destruct G as [->|[]], G0 as [G0|[]]. congruence.
  Qed.

  Lemma views_same t : t < n -> nth_error views t = nth_error views' t.
  Proof.
    intros Ht.
    destruct (view_inv coords vars views lts t Hnd Hp Hax local_is) as (_ & ti & view & Eti & Hview & Hvl & Hv); [lia|].
    destruct (view_inv coords' vars' views' lts' t Hnd' Hp' Hax' local_is') as (_ & ti' & view' & Eti' & Hview' & Hvl' & Hv'); [lia|].
    rewrite Hview, Hview'. f_equal. apply nth_error_ext. intros i.
    pose proof (F2_length' _ _ _ Hrows) as HL.
    destruct (nth_error vars i) as [v|] eqn:Hi.
    2:{ apply nth_error_None in Hi. rewrite (proj2 (nth_error_None view i)), (proj2 (nth_error_None view' i)) by lia. reflexivity. }
    destruct (F2_nth' _ _ _ _ _ Hrows Hi) as (v' & Hi' & Hvv).
    destruct (Hv i v Hi) as (idxs & idx & s & Hvi & Hidx & Ha & Hview_i).
    destruct (Hv' i v' Hi') as (idxs' & idx' & s' & Hvi' & Hidx' & Ha' & Hview_i').
    rewrite Hview_i, Hview_i'.
    pose proof Hvv as (E1 & E2 & E5 & (w & Hw) & E6 & E7). rewrite E1. f_equal. f_equal.
    destruct (time_index_inv _ _ _ _ _ Hnd Eti) as (u & Hu & _ & Hl & Hdims & Hsec).
    rewrite <- (axis_unique dt coords Hnd _ _ _ Hax Hu) in *. clear u Hu.
    destruct (time_index_inv _ _ _ _ _ Hnd' Eti') as (u & Hu & _ & Hl' & Hdims' & Hsec').
    rewrite <- (axis_unique dt coords' Hnd' _ _ _ Hax' Hu) in *. clear u Hu.
    assert (Hmem : forall d, mem_str d (map fst ti) = mem_str d (map fst ti')).
    { intros d. destruct (mem_str d (map fst ti)) eqn:Em, (mem_str d (map fst ti')) eqn:Em'; auto; exfalso.
      - apply mem_str_iff, Hdims in Em as (x & Hx). destruct (axis_same _ _ Hx) as (x' & Hx' & _).
        assert (In d (map fst ti')) by (apply Hdims'; eauto). apply mem_str_iff in H. congruence.
      - apply mem_str_iff, Hdims' in Em' as (x & Hx). destruct (axis_same' _ _ Hx) as (x' & Hx').
        assert (In d (map fst ti)) by (apply Hdims; eauto). apply mem_str_iff in H. congruence. }
    unfold var_index in Hvi, Hvi'. rewrite <- E2 in Hvi'.
    assert (Eex : existsb (fun d => mem_str d (map fst ti)) (dv_dims v) = existsb (fun d => mem_str d (map fst ti')) (dv_dims v)).
    { generalize (dv_dims v). induction l as [|d l IH]; cbn; [auto|]. rewrite Hmem, IH. reflexivity. }
    rewrite <- Eex in Hvi'.
    destruct (existsb (fun d => mem_str d (map fst ti)) (dv_dims v)) eqn:Ex.
    - destruct (dv_dims v) as [|d rest] eqn:Ed; [discriminate|].
      assert (Hmt : In v vars) by (eapply nth_error_In; eauto).
      assert (Hmt' : In v' vars') by (eapply nth_error_In; eauto).
      assert (Hv1 := proj1 (Forall_forall _ _) Hmatch v Hmt). assert (Hv2 := proj1 (Forall_forall _ _) Hmatch' v' Hmt').
      destruct (String.eqb_spec d local) as [->|Hdl].
      + rewrite Hl in Hvi. rewrite Hl' in Hvi'. cbn [option_map] in Hvi, Hvi'.
        assert (X : idxs = map index_of_out (map (fun o => One (real o)) (positions lts))) by congruence.
        assert (X' : idxs' = map index_of_out (map (fun o => One (real o)) (positions lts'))) by congruence.
        subst idxs idxs'. rewrite map_map, nth_error_map, positions_nth in Hidx, Hidx'.
        destruct (nth_error_lt lts t) as (T & HT); [lia|]. destruct (nth_error_lt lts' t) as (T' & HT'); [lia|].
        rewrite HT in Hidx. rewrite HT' in Hidx'. cbn in Hidx, Hidx'.
        assert (idx = IOne (Z.of_nat t)) by congruence. assert (idx' = IOne (Z.of_nat t)) by congruence. subst idx idx'.
        cbn in Ha, Ha'. change (Some (SOne (row_at v (Z.of_nat t))) = Some s) in Ha. change (Some (SOne (row_at v' (Z.of_nat t))) = Some s') in Ha'.
        specialize (E6 local lts). rewrite ?Ed in E6. specialize (E6 eq_refl Hax). rewrite Hkl in E6.
        specialize (Hv1 local lts). rewrite Ed in Hv1. specialize (Hv1 eq_refl Hax).
        destruct (nth_error_lt (dv_rows v) t) as (r & Hr); [lia|].
        rewrite (row_at_nth v t r Hr) in Ha. rewrite (firstn_nth_error _ _ _ _ E6 Ht) in Hr. rewrite (row_at_nth v' t r Hr) in Ha'. congruence.
      + destruct (lookup d ti) as [col|] eqn:Ecol; [|discriminate]. destruct (lookup d ti') as [col'|] eqn:Ecol'; [|discriminate].
        cbn [option_map] in Hvi, Hvi'. assert (idxs = map index_of_out col) by congruence. assert (idxs' = map index_of_out col') by congruence.
        subst idxs idxs'. rewrite nth_error_map in Hidx, Hidx'.
        destruct (nth_error col t) as [o|] eqn:Eo; [|discriminate]. destruct (nth_error col' t) as [o'|] eqn:Eo'; [|discriminate].
        cbn in Hidx, Hidx'. assert (idx = index_of_out o) by congruence. assert (idx' = index_of_out o') by congruence. subst idx idx'.
        assert (Hts : exists ts, time_axis dt coords d ts).
        { destruct (mem_str d (map fst ti)) eqn:Em; [apply Hdims, mem_str_iff; auto|].
          rewrite lookup_none in Ecol; [discriminate|]. intros Hin. apply mem_str_iff in Hin. congruence. }
        destruct Hts as (ts & Hts). destruct (axis_same d ts Hts) as (ts' & Hts' & Ets).
        destruct (Hsec d ts Hts Hdl) as (gl & secs & items & j & gz & col2 & S1 & S2 & S3 & S4 & S5 & S6 & S7 & S8).
        destruct (Hsec' d ts' Hts' Hdl) as (gl' & secs' & items' & j' & gz' & col2' & S1' & S2' & S3' & S4' & S5' & S6' & S7' & S8').
        assert (col2 = col) by congruence. assert (col2' = col') by congruence. subst col2 col2'.
        assert (j' = j).
        { pose proof others_same as HO. destruct (F2_nth' _ _ _ _ _ HO S4) as ([d2 ts2] & S9 & Ed2). cbn in Ed2. subst d2.
          pose proof (others_nodup local _ (time_coords_nodup dt coords' Hnd')) as HN. inversion HN as [|? ? _ HN']; subst.
          apply (map_nth_error fst) in S9. apply (map_nth_error fst) in S4'. cbn in S9, S4'.
          eapply (NoDup_nth_error (map fst (others_of local (time_coords dt coords'))));
            [exact HN'|apply nth_error_Some; congruence|congruence]. }
        subst j'.
        destruct positions_prefix as (po & f & f' & P1 & P2 & P3 & P4).
        destruct (start_positions _ _ S1) as (g0 & Egl & _). destruct (start_positions _ _ S1') as (g0' & Egl' & _).
        assert (Hc : firstn n items = firstn n items').
        { rewrite Egl, P1 in S3. rewrite Egl', P2 in S3'.
          pose proof (merge_causal g0 g0' po f f' secs secs' items items' S3 S3') as G. rewrite P3, P4 in G. apply G.
          apply secs_same; auto. }
        assert (Hti : nth_error items t = nth_error items' t) by (apply (firstn_nth_error _ _ _ _ Hc Ht)).
        assert (Q := f_equal (fun l => nth_error l t) S8). assert (Q' := f_equal (fun l => nth_error l t) S8'). cbn in Q, Q'.
        rewrite !nth_error_map, Eo in Q. rewrite !nth_error_map, Eo', <- Hti in Q'.
        destruct (nth_error items t) as [[lo outs]|] eqn:Eit; [|discriminate]. cbn in Q, Q'.
        assert (Eoo : o' = o) by congruence. subst o'.
        assert (Ho : nth_error outs j = Some o) by congruence.
        specialize (Hv1 d ts). rewrite Ed in Hv1. specialize (Hv1 eq_refl Hts).
        specialize (Hv2 d ts'). rewrite <- E2 in Hv2. specialize (Hv2 eq_refl Hts').
        assert (Hne : ts <> []) by (intros ->; discriminate). assert (Hne' : ts' <> []) by (intros ->; discriminate).
        apply (access_same v v' o s s'); auto.
        * rewrite Ed. auto.
        * intros c Hcin. apply (same_row v v' d ts (snd c) (fst c)); auto.
          -- rewrite Ed. reflexivity.
          -- intros X. rewrite X in Hv2. destruct ts'; [tauto|discriminate].
          -- intros X. rewrite X in Hv1. destruct ts; [tauto|discriminate].
          -- destruct (merge_lane _ _ _ _ _ _ _ _ _ S3 Eit S5) as [_ Hres]. rewrite Ho in Hres.
             assert (Hr2 : In c (cells (result (sec_cfg_of cfg d) (fst (con (embed (sec_cfg_of cfg d)) (map fst (firstn t (tl gl))) gz))
               (takeW (embed (sec_cfg_of cfg d) (fst lo)) (snd (con (embed (sec_cfg_of cfg d)) (map fst (firstn t (tl gl))) gz)))))).
             { match goal with |- In _ (cells ?r) => assert (o = r) by congruence end. congruence. }
             apply result_cells_all in Hr2 as [-> | ([tt z] & ->)]; [left; split; reflexivity|]. right.
             destruct (merge_shows_past gl secs items t lo outs j (sec_cfg_of cfg d) gz o tt z S3 Eit S5 Ho Hcin) as [Hg (T & HT & Hb)].
             destruct (start_positions _ _ S6) as (z0 & Egz & Hz0).
             assert (Hin : In (tt, z) (positions ts)).
             { rewrite Egz in Hg. destruct Hg as [<-|Hg]; [eapply nth_error_In; eauto|auto]. }
             apply In_nth_error in Hin as [k Hk0]. rewrite positions_nth in Hk0.
             destruct (nth_error ts k) as [tk|] eqn:Etk; [|discriminate]. cbn in Hk0.
             assert (tt = tk) by congruence. assert (z = Z.of_nat k) by congruence. subst tk z. exists k. cbn [snd real]. split; [reflexivity|].
             split; [|apply nth_error_Some; congruence].
             destruct (Nat.lt_ge_cases k (known d)) as [Hlt|Hge]; [exact Hlt|]. exfalso.
             assert (Hlate : (embedding cfg d T <= tt)%Z).
             { apply (Hlater d ts T tt Hts Hdl).
               - rewrite Egl in HT. cbn [tl] in HT. rewrite <- firstn_map, map_fst_positions in HT.
                 replace n with (Datatypes.S t + (n - Datatypes.S t)) by lia. rewrite <- firstn_map in HT || idtac.
                 apply In_nth_error in HT as [q Hq]. rewrite nth_firstn_if in Hq. destruct (Nat.ltb_spec q (Datatypes.S t)); [|discriminate].
                 apply (nth_error_In _ q). rewrite nth_firstn_if. destruct (Nat.ltb_spec q (Datatypes.S t + (n - Datatypes.S t))); [auto|lia].
               - apply (nth_error_In _ (k - known d)). rewrite nth_error_skipn. replace (known d + (k - known d)) with k by lia. exact Etk. }
             rewrite embed_of in Hb. lia.
        * destruct (Hbuf v d Hmt) as [Hb|Hb]; auto; [rewrite Ed; reflexivity|]. left.
          destruct (merge_lane _ _ _ _ _ _ _ _ _ S3 Eit S5) as [_ Hres]. rewrite Ho in Hres.
          assert (Hone : forall P tw, exists c, result (sec_cfg_of cfg d) P tw = One c).
          { intros P tw. unfold result, out_of. cbn [sec_cfg_of maxlen]. rewrite Hb. destruct (ffill _), tw; eauto. }
          match type of Hres with Some o = Some (result ?c ?P ?tw) => destruct (Hone P tw) as (c1 & Hc1) end. exists c1. congruence.
    - assert (Hno : forall d ts, In d (dv_dims v) -> ~ time_axis dt coords d ts).
      { intros d ts Hin Hts. assert (Hm : existsb (fun d => mem_str d (map fst ti)) (dv_dims v) = true); [|congruence].
        apply existsb_exists. exists d. split; [auto|]. apply mem_str_iff, Hdims. eauto. }
      destruct (E7 Hno) as (E7' & E3 & E4).
      assert (Eidx : idx' = idx).
      { destruct (dv_dims v) as [|d0 rest].
        - assert (X : idxs = map (fun s => IOne (Z.of_nat s)) (seq 0 (length lts))) by congruence.
          assert (X' : idxs' = map (fun s => IOne (Z.of_nat s)) (seq 0 (length lts'))) by congruence.
          subst idxs idxs'. rewrite nth_error_map, (nth_error_nth' _ 0), seq_nth in Hidx by (rewrite ?seq_length; lia).
          rewrite nth_error_map, (nth_error_nth' _ 0), seq_nth in Hidx' by (rewrite ?seq_length; lia). congruence.
        - assert (X : idxs = map (fun s => IMany (map (fun j => Z.of_nat (s * j)) (seq 0 (dv_size v)))) (seq 0 (length lts))) by congruence.
          assert (X' : idxs' = map (fun s => IMany (map (fun j => Z.of_nat (s * j)) (seq 0 (dv_size v')))) (seq 0 (length lts'))) by congruence.
          subst idxs idxs'. rewrite nth_error_map, (nth_error_nth' _ 0), seq_nth in Hidx by (rewrite ?seq_length; lia).
          rewrite nth_error_map, (nth_error_nth' _ 0), seq_nth in Hidx' by (rewrite ?seq_length; lia). rewrite <- E3 in Hidx'. congruence. }
      subst idx'. unfold access_data in Ha, Ha'. rewrite <- E7', <- E2, <- E4, <- E5 in Ha'. congruence.
  Qed.
End Causal.
