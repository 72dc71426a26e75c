From Coq Require Import String ZArith List Bool Arith Lia.
From Verif Require Import Model.Tree Model.Unroll Model.Stream Model.Format Model.Accessors
  Spec.StreamSpec Spec.FormatSpec Spec.AccessorSpec Proofs.ListFacts Proofs.StreamProofs Proofs.StreamTrace
  Proofs.FormatProofs Proofs.AccessorProofs.
Import ListNotations.
Local Open Scope list_scope.

Lemma mem_str_iff s l : mem_str s l = true <-> In s l.
Proof.
  induction l as [|a l IH]; cbn; [split; [discriminate|tauto]|].
  rewrite orb_true_iff, IH, String.eqb_eq. split; intros [H|H]; auto.
Qed.

Lemma lookup_iff {B} (l : list (string * B)) k b : NoDup (map fst l) -> lookup k l = Some b <-> In (k, b) l.
Proof.
  induction l as [|[k' b'] l IH]; intros Hn; cbn; [split; [discriminate|tauto]|].
  inversion Hn as [|? ? Hni Hn']; subst. destruct (String.eqb_spec k k') as [->|Hne].
  - split; [intros H; left; congruence|]. intros [H|H]; [congruence|].
    exfalso. apply Hni. apply (in_map fst) in H. auto.
  - rewrite IH by auto. split; [auto|]. intros [H|H]; [congruence|auto].
Qed.
Lemma lookup_none {B} (l : list (string * B)) k : ~ In k (map fst l) -> lookup k l = None.
Proof.
  induction l as [|[k' b'] l IH]; intros H; cbn; [reflexivity|]. cbn in H.
  destruct (String.eqb_spec k k') as [->|]; [tauto|auto].
Qed.

Lemma time_coords_iff {C} (dt : C -> option (list Z)) coords d ts :
  In (d, ts) (time_coords dt coords) <-> time_axis dt coords d ts.
Proof.
  unfold time_coords, time_axis. rewrite in_flat_map. split.
  - intros (c & Hc & H). exists c. destruct (dt (c_val c)) as [x|]; [|destruct H].
    destruct H as [H|[]]. split; [auto|]. split; congruence.
  - intros (c & Hc & <- & H). exists c. split; [auto|]. rewrite H. left. reflexivity.
Qed.
Lemma time_coords_nodup {C} (dt : C -> option (list Z)) coords :
  NoDup (map c_name coords) -> NoDup (map fst (time_coords dt coords)).
Proof.
  induction coords as [|c l IH]; intros H; cbn; [constructor|]. inversion H as [|? ? Hn Hd]; subst.
  specialize (IH Hd). destruct (dt (c_val c)); cbn; [|exact IH]. constructor; [|exact IH].
  intros Hin. apply Hn. clear -Hin. unfold time_coords in Hin.
  induction l as [|c' l IH]; cbn in *; [tauto|]. rewrite map_app, in_app_iff in Hin. destruct Hin as [Hin|Hin].
  - destruct (dt (c_val c')); cbn in Hin; [destruct Hin as [->|[]]; auto|tauto].
  - right. auto.
Qed.

Lemma start_positions ts g : start_dataset_stream (positions ts) = Some g ->
  exists o, g = o :: positions ts /\ nth_error (positions ts) 0 = Some o.
Proof.
  unfold start_dataset_stream. destruct (positions ts) as [|o r]; [discriminate|].
  intros H. exists o. split; [congruence|reflexivity].
Qed.

Lemma lookup_combine {B} (l : list (string * B)) (k : string) (b : B) names cols :
  lookup k (combine names cols) = Some b -> exists i, nth_error names i = Some k /\ nth_error cols i = Some b.
Proof.
  revert cols. induction names as [|n names IH]; intros [|c cols] H; cbn in *; try discriminate.
  destruct (String.eqb_spec k n) as [->|].
  - exists 0. cbn. split; congruence.
  - destruct (IH _ H) as (i & H1 & H2). exists (Datatypes.S i). auto.
Qed.
Lemma lookup_combine_nth {B} names (cols : list B) i k b :
  NoDup names -> nth_error names i = Some k -> nth_error cols i = Some b -> lookup k (combine names cols) = Some b.
Proof.
  revert cols i. induction names as [|n names IH]; intros [|c cols] [|i] Hn H1 H2; cbn in *; try discriminate.
  - injection H1 as ->. rewrite String.eqb_refl. auto.
  - inversion Hn as [|? ? Hni Hn']; subst. destruct (String.eqb_spec k n) as [->|].
    + exfalso. apply Hni. eapply nth_error_In. eauto.
    + eapply IH; eauto.
Qed.

Definition others_of (local : string) (tcs : list (string * list Z)) :=
  filter (fun dt : string * list Z => negb (String.eqb (fst dt) local)) tcs.

Lemma others_in local tcs d ts : In (d, ts) (others_of local tcs) <-> In (d, ts) tcs /\ d <> local.
Proof.
  unfold others_of. rewrite filter_In. cbn. rewrite negb_true_iff, String.eqb_neq. tauto.
Qed.
Lemma others_nodup local tcs : NoDup (map fst tcs) -> NoDup (local :: map fst (others_of local tcs)).
Proof.
  intros H. constructor.
  - intros Hin. apply in_map_iff in Hin as ([d ts] & E & Hin). apply others_in in Hin as [_ Hin]. cbn in E. congruence.
  - unfold others_of. induction tcs as [|[d ts] l IH]; cbn; [constructor|]. inversion H as [|? ? Hn Hd]; subst.
    destruct (negb (String.eqb d local)); cbn; [|auto]. constructor; [|auto].
    intros Hin. apply Hn. apply in_map_iff in Hin as ([d' ts'] & E & Hin). apply filter_In in Hin as [Hin _].
    apply in_map_iff. exists (d', ts'). auto.
Qed.

Definition sec_of (cfg : stream_cfg) (dt : string * list Z) : option (@sec_cfg Z * list (@obs Z)) :=
  option_map (fun g => (sec_cfg_of cfg (fst dt), g)) (start_dataset_stream (positions (snd dt))).

(** what time_index computes, with several time axes *)
Lemma time_index_inv {C} (dt : C -> option (list Z)) cfg coords local ti :
  NoDup (map c_name coords) ->
  time_index dt cfg coords = Some (local, ti) ->
  exists lts, time_axis dt coords local lts /\ (local_time cfg = ""%string \/ local_time cfg = local) /\
    lookup local ti = Some (map (fun o => One (real o)) (positions lts)) /\
    (forall d, In d (map fst ti) <-> exists ts, time_axis dt coords d ts) /\
    (forall d ts, time_axis dt coords d ts -> d <> local ->
       exists gl secs items j gz col,
         start_dataset_stream (positions lts) = Some gl /\
         mapM (sec_of cfg) (others_of local (time_coords dt coords)) = Some secs /\
         merge gl secs = Some items /\
         nth_error (others_of local (time_coords dt coords)) j = Some (d, ts) /\
         nth_error secs j = Some (sec_cfg_of cfg d, gz) /\
         start_dataset_stream (positions ts) = Some gz /\
         lookup d ti = Some col /\ map Some col = map (fun it => nth_error (snd it) j) items).
Proof.
  intros Hnd H. unfold time_index in H. set (tcs := time_coords dt coords) in *.
  pose proof (time_coords_nodup dt coords Hnd) as Hn. fold tcs in Hn.
  assert (Hax : forall d ts, In (d, ts) tcs <-> time_axis dt coords d ts) by apply time_coords_iff.
  clearbody tcs.
  destruct tcs as [|p tcs']; [discriminate|]. set (tcs := p :: tcs') in *.
  destruct (get_local_time (local_time cfg) (map fst tcs)) as [l0|] eqn:El; [|discriminate].
  destruct (lookup l0 tcs) as [lts|] eqn:Elk; [|discriminate].
  assert (Hloc : In (l0, lts) tcs) by (apply lookup_iff; auto).
  assert (Hcfg : local_time cfg = ""%string \/ local_time cfg = l0).
  { unfold get_local_time in El. destruct (String.eqb_spec (local_time cfg) ""); [auto|]. right. congruence. }
  subst tcs. destruct tcs' as [|q tcs''].
  - assert (local = l0) by congruence. subst l0. assert (Hti : ti = [(local, map (fun o => One (real o)) (positions lts))]) by congruence.
    subst ti. exists lts. split; [apply Hax; auto|]. split; [auto|]. split; [cbn; rewrite String.eqb_refl; reflexivity|].
    destruct Hloc as [Hloc|[]]. subst p. split.
    + intros d. cbn. split.
      * intros [<-|[]]. exists lts. apply Hax. left. auto.
      * intros (ts & Hts). apply Hax in Hts. destruct Hts as [Hts|[]]. left. congruence.
    + intros d ts Hts Hne. apply Hax in Hts. destruct Hts as [Hts|[]]. congruence.
  - cbv zeta in H. set (tcs := p :: q :: tcs'') in *.
    change (filter (fun dt0 : string * list Z => negb (String.eqb (fst dt0) l0)) tcs) with (others_of l0 tcs) in H.
    destruct (start_dataset_stream (positions lts)) as [gl|] eqn:Eg; [|congruence].
    match type of H with (match ?m with Some _ => _ | None => _ end) = _ =>
      change m with (mapM (sec_of cfg) (others_of l0 tcs)) in H end.
    destruct (mapM (sec_of cfg) (others_of l0 tcs)) as [secs|] eqn:Es; [|congruence].
    destruct (merge gl secs) as [items|] eqn:Em; [|congruence].
    destruct (unroll_stream false _) as [cols|] eqn:Eu; [|congruence].
    assert (local = l0) by congruence. subst l0.
    assert (Hti : ti = combine (local :: map fst (others_of local tcs)) cols) by congruence. subst ti. clear H.
    destruct (mapM_inv _ _ _ Es) as [Hsl Hsn].
    assert (Hne : items <> []).
    { intros ->. discriminate. }
    assert (Hwid : Forall (fun it => length it = Datatypes.S (length secs)) (map (fun it => One (real (fst it)) :: snd it) items)).
    { apply Forall_forall. intros x Hx. apply in_map_iff in Hx as ([o outs] & <- & Hin).
      apply In_nth_error in Hin as [j Hj]. cbn. f_equal. eapply merge_outs; eauto. }
    destruct (unroll_stream_collects (map (fun it : @obs Z * list (@out Z) => One (real (fst it)) :: snd it) items) (Datatypes.S (length secs)) cols) as [Hcl Hcn]; auto.
    { destruct items; [tauto|discriminate]. }
    pose proof (others_nodup local tcs Hn) as Hno.
    assert (Hlen : length cols = length (local :: map fst (others_of local tcs))).
    { cbn [length]. rewrite map_length. unfold obs in *. congruence. }
    exists lts. split; [apply Hax; auto|]. split; [auto|].
    assert (Hlocal : map fst items = positions lts).
    { rewrite (merge_local _ _ _ Em). apply start_positions in Eg as (o & -> & _). reflexivity. }
    split; [|split].
    + destruct (nth_error_lt cols 0) as (c0 & Hc0); [lia|].
      rewrite (lookup_combine_nth _ cols 0 local c0); auto. f_equal.
      specialize (Hcn 0 c0 Hc0). apply map_Some_inj. rewrite Hcn, !map_map. cbn [nth_error].
      rewrite <- Hlocal, map_map. reflexivity.
    + intros d. assert (E : map fst (combine (local :: map fst (others_of local tcs)) cols) = local :: map fst (others_of local tcs)).
      { clear -Hlen. revert cols Hlen. generalize (local :: map fst (others_of local tcs)).
        induction l as [|a l IH]; intros [|b c] H; cbn in *; try discriminate; auto. f_equal. auto. }
      rewrite E. split.
      * intros [<-|Hin]; [exists lts; apply Hax; auto|].
        apply in_map_iff in Hin as ([d' ts] & <- & Hin). apply others_in in Hin as [Hin _]. exists ts. apply Hax. auto.
      * intros (ts & Hts). apply Hax in Hts. destruct (String.eqb_spec d local) as [->|Hdl]; [left; auto|].
        right. apply in_map_iff. exists (d, ts). split; [auto|]. apply others_in. auto.
    + intros d ts Hts Hdl. apply Hax in Hts.
      assert (Hin : In (d, ts) (others_of local tcs)) by (apply others_in; auto).
      apply In_nth_error in Hin as [j Hj].
      destruct (Hsn j (d, ts) Hj) as (sec & Hsec & Hso).
      unfold sec_of in Hso. cbn [fst snd] in Hso.
      destruct (start_dataset_stream (positions ts)) as [gz|] eqn:Egz; [|discriminate].
      cbn in Hso. assert (sec = (sec_cfg_of cfg d, gz)) by congruence. subst sec.
      assert (Hjl : Datatypes.S j < length cols).
      { rewrite Hcl. assert (j < length secs) by (apply nth_error_Some; congruence). lia. }
      destruct (nth_error_lt cols (Datatypes.S j) Hjl) as (col & Hcol).
      exists gl, secs, items, j, gz, col. split; [first [reflexivity|assumption]|]. split; [first [reflexivity|assumption]|]. split; [auto|]. split; [auto|]. split; [auto|].
      split; [first [reflexivity|assumption]|].
      split.
      * apply (lookup_combine_nth _ cols (Datatypes.S j)); auto. cbn [nth_error]. rewrite nth_error_map, Hj. reflexivity.
      * rewrite (Hcn _ _ Hcol), map_map. apply map_ext. intros it. reflexivity.
Qed.

(** *** what the module reads *)
Section Reads.
  Context {A C : Type} (dt : C -> option (list Z)).
  Variables (cfg : stream_cfg) (vars : list (dvar A)) (coords : list (coord C)) (views : list (list (string * seen A))).
  Hypothesis Hnd : NoDup (map c_name coords).
  Hypothesis Hp : prepare dt cfg vars coords = Some views.

  Lemma prepare_inv :
    exists local lts ti, time_index dt cfg coords = Some (local, ti) /\
      lookup local ti = Some (map (fun o => One (real o)) (positions lts)) /\
      time_axis dt coords local lts /\
      length views = length lts /\
      forall t i v, t < length lts -> nth_error vars i = Some v ->
        exists idxs idx s, var_index ti (length lts) v = Some idxs /\ nth_error idxs t = Some idx /\
          access_data v idx = Some s /\ reads views t i s.
  Proof using Hnd Hp.
    unfold prepare in Hp. destruct (time_index dt cfg coords) as [[local ti]|] eqn:Et; [|discriminate].
    destruct (time_index_inv _ _ _ _ _ Hnd Et) as (lts & Hax & _ & Hl & _ & _).
    rewrite Hl in Hp. cbv zeta in Hp. rewrite map_length, positions_length in Hp.
    destruct (mapM (var_index ti (length lts)) vars) as [indices|] eqn:Ei; [|discriminate].
    exists local, lts, ti. split; [reflexivity|]. split; [exact Hl|]. split; [exact Hax|].
    destruct (mapM_inv _ _ _ Hp) as [Hlen Hv]. rewrite seq_length in Hlen. split; [exact Hlen|].
    intros t i v Ht Hi. destruct (mapM_inv _ _ _ Ei) as [Hil Hin]. destruct (Hin i v Hi) as (idxs & Hidxs & Hvi).
    destruct (Hv t t) as (view & Hview & Hva).
    { rewrite (nth_error_nth' _ 0) by (rewrite seq_length; auto). rewrite seq_nth by auto. reflexivity. }
    unfold view_at in Hva. destruct (mapM_inv _ _ _ Hva) as [_ Hvn].
    destruct (Hvn i (v, idxs)) as ([nm s] & Hns & Hs); [apply nth_error_combine; auto|].
    cbn [fst snd] in Hs. destruct (nth_error idxs t) as [idx|] eqn:Eidx; [|discriminate].
    destruct (access_data v idx) as [s'|] eqn:Ea; [|discriminate]. cbn in Hs.
    assert (s' = s) by congruence. subst s'. exists idxs, idx, s. split; [auto|]. split; [auto|]. split; [auto|].
    exists view, nm. auto.
  Qed.

  Lemma reads_local local lts t i v row :
    time_axis dt coords local lts -> local_time cfg = local \/ (forall d ts, time_axis dt coords d ts -> d = local) ->
    nth_error vars i = Some v -> hd_error (dv_dims v) = Some local ->
    nth_error (dv_rows v) t = Some row -> t < length lts -> length views = length lts /\ reads views t i (SOne row).
  Proof using Hnd Hp.
    intros Hax Hloc Hi Hd Hr Ht.
    destruct prepare_inv as (l0 & lts0 & ti & Eti & Hl & Hax0 & Hlen & Hall).
    destruct (time_index_inv _ _ _ _ _ Hnd Eti) as (lts1 & Hax1 & Hc & Hl1 & Hdim & _).
    assert (l0 = local).
    { destruct Hloc as [E|E].
      - destruct Hc as [Hc|Hc]; [|congruence].
        unfold time_index in Eti. destruct (time_coords dt coords) eqn:Etc; [discriminate|].
        rewrite Hc in Eti. unfold get_local_time in Eti. cbn [String.eqb map] in Eti. destruct l; [|discriminate].
        assert (G := proj2 (time_coords_iff dt coords _ _) Hax). assert (G0 := proj2 (time_coords_iff dt coords _ _) Hax0).
        rewrite Etc in G, G0. destruct G as [->|[]], G0 as [G0|[]]. congruence.
      - eapply E; eauto. }
    subst l0.
    assert (lts0 = lts).
    { apply (proj2 (time_coords_iff dt coords _ _)) in Hax, Hax0.
      pose proof (time_coords_nodup dt coords Hnd) as Hn.
      apply (lookup_iff _ _ _ Hn) in Hax, Hax0. congruence. }
    subst lts0. split; [auto|].
    destruct (Hall t i v Ht Hi) as (idxs & idx & s & Hv & Hidx & Ha & Hre).
    unfold var_index in Hv. destruct (dv_dims v) as [|d rest] eqn:Ed; [discriminate|]. cbn [hd_error] in Hd.
    assert (d = local) by congruence. subst d.
    assert (E : existsb (fun d => mem_str d (map fst ti)) (local :: rest) = true).
    { cbn. apply orb_true_iff. left. apply mem_str_iff. apply Hdim. eauto. }
    rewrite E, Hl in Hv. cbn [option_map] in Hv.
    assert (Hi' : idxs = map index_of_out (map (fun o => One (real o)) (positions lts))) by congruence. subst idxs.
    rewrite map_map in Hidx. rewrite nth_error_map, positions_nth in Hidx.
    destruct (nth_error_lt lts t Ht) as (T & HT). rewrite HT in Hidx. cbn in Hidx.
    assert (idx = IOne (Z.of_nat t)) by congruence. subst idx.
    cbn in Ha. rewrite (gather_nth _ _ _ Hr), masked_nonneg in Ha by lia. congruence.
  Qed.

  Lemma reads_constant t i v row :
    nth_error vars i = Some v -> dv_dims v = [] -> dv_rows v = [row] -> t < length views -> reads views t i (SOne row).
  Proof using Hnd Hp.
    intros Hi Hd Hr Ht.
    destruct prepare_inv as (l0 & lts0 & ti & Eti & Hl & Hax0 & Hlen & Hall). rewrite Hlen in Ht.
    destruct (Hall t i v Ht Hi) as (idxs & idx & s & Hv & Hidx & Ha & Hre).
    unfold var_index in Hv. rewrite Hd in Hv. cbn in Hv. assert (Hv' : idxs = map (fun s => IOne (Z.of_nat s)) (seq 0 (length lts0))) by congruence.
    subst idxs. rewrite nth_error_map, (nth_error_nth' _ 0) in Hidx by (rewrite seq_length; auto).
    rewrite seq_nth in Hidx by auto. cbn in Hidx. assert (idx = IOne (Z.of_nat t)) by congruence. subst idx.
    cbn in Ha. rewrite Hr, masked_nonneg in Ha by lia.
    assert (G : gather [row] (Z.of_nat t) = row).
    { unfold gather. destruct (Z.ltb_spec (Z.of_nat t) 0); [lia|]. cbn [length].
      replace (Z.to_nat (Z.max 0 (Z.min (Z.of_nat t) (Z.of_nat 1 - 1)))) with 0 by lia. reflexivity. }
    rewrite G in Ha. congruence.
  Qed.

  (** a vector without time: at step t its j-th element is read at position min(t*j, m-1) *)
  Lemma reads_constant_vector t i v xs :
    nth_error vars i = Some v -> length (dv_dims v) = 1 ->
    (forall d ts, time_axis dt coords d ts -> ~ In d (dv_dims v)) ->
    dv_rows v = map (fun x => [x]) xs -> dv_size v = length xs -> t < length views ->
    exists ys, reads views t i (SMany (map (fun y => [y]) ys)) /\ length ys = length xs /\
      forall j, j < length xs -> nth_error ys j = nth_error xs (Nat.min (t * j) (length xs - 1)).
  Proof using Hnd Hp.
    intros Hi Hd Hno Hr Hsz Ht.
    destruct prepare_inv as (l0 & lts0 & ti & Eti & Hl & Hax0 & Hlen & Hall). rewrite Hlen in Ht.
    destruct (time_index_inv _ _ _ _ _ Hnd Eti) as (lts1 & Hax1 & Hc & Hl1 & Hdim & _).
    destruct (Hall t i v Ht Hi) as (idxs & idx & s & Hv & Hidx & Ha & Hre).
    unfold var_index in Hv.
    assert (E : existsb (fun d => mem_str d (map fst ti)) (dv_dims v) = false).
    { destruct (existsb _ _) eqn:E; [|reflexivity]. apply existsb_exists in E as (d & Hin & Hm).
      apply mem_str_iff, Hdim in Hm as (ts & Hts). exfalso. eapply Hno; eauto. }
    rewrite E in Hv. destruct (dv_dims v) as [|d0 rest] eqn:Ed; [discriminate|].
    assert (Hv' : idxs = map (fun s => IMany (map (fun j => Z.of_nat (s * j)) (seq 0 (dv_size v)))) (seq 0 (length lts0))) by congruence.
    subst idxs. rewrite nth_error_map, (nth_error_nth' _ 0) in Hidx by (rewrite seq_length; auto).
    rewrite seq_nth in Hidx by auto. cbn [option_map plus] in Hidx. assert (idx = IMany (map (fun j => Z.of_nat (t * j)) (seq 0 (dv_size v)))) by congruence. subst idx.
    unfold access_data in Ha. rewrite Ed in Ha. cbn [length] in Ha, Hd. assert (rest = []) by (destruct rest; [auto|discriminate]). subst rest.
    cbn [length Nat.leb] in Ha. rewrite map_map, Hr, Hsz in Ha.
    destruct xs as [|x0 xs'] eqn:Exs.
    { exists []. cbn in Ha. assert (s = SMany []) by congruence. subst s. cbn. split; [auto|]. split; [auto|]. intros j Hj. lia. }
    rewrite <- Exs in *. assert (Hpos : 0 < length xs) by (rewrite Exs; cbn; lia).
    exists (map (fun j => nth (Nat.min (t * j) (length xs - 1)) xs x0) (seq 0 (length xs))).
    split; [|split].
    - enough (Es : s = SMany (map (fun y => [y]) (map (fun j => nth (Nat.min (t * j) (length xs - 1)) xs x0) (seq 0 (length xs))))) by (rewrite <- Es; auto).
      rewrite map_map. assert (Ha' : s = SMany (map (fun x => map (masked (dv_default v) (Z.of_nat (t * x))) (gather (map (fun x1 => [x1]) xs) (Z.of_nat (t * x)))) (seq 0 (length xs)))) by congruence.
      rewrite Ha'. f_equal. apply map_ext. intros j. rewrite masked_nonneg by lia. unfold gather.
      destruct (Z.ltb_spec (Z.of_nat (t * j)) 0); [lia|]. rewrite map_length.
      replace (Z.to_nat (Z.max 0 (Z.min (Z.of_nat (t * j)) (Z.of_nat (length xs) - 1)))) with (Nat.min (t * j) (length xs - 1)) by lia.
      rewrite (nth_indep _ [] [x0]) by (rewrite map_length; lia). apply (map_nth (fun x1 => [x1]) xs x0).
    - rewrite map_length, seq_length. reflexivity.
    - intros j Hj. rewrite nth_error_map, (nth_error_nth' _ 0) by (rewrite seq_length; auto).
      rewrite seq_nth by auto. cbn [option_map plus]. symmetry. apply nth_error_nth'. lia.
  Qed.
End Reads.
