(** What modules read of texts, dates and numbers: the rows of [prepare_raw]. *)
From Coq Require Import String ZArith List Bool Arith Lia.
From Verif Require Import Model.Float Model.Encode Model.Unroll Model.Stream Model.Format Model.Accessors Model.Schema
  Proofs.EncodeProofs Proofs.ListFacts Proofs.StreamProofs Proofs.AccessorProofs Proofs.AccessorProofs4 Proofs.AccessorProofs5 Proofs.AccessorProofs7
  Proofs.SchemaProofs Proofs.SchemaProofs2 Spec.StreamSpec Spec.AccessorSpec Spec.SchemaSpec.
Import ListNotations.
Local Open Scope list_scope.

Lemma axis_time_axis coords d ts : axis coords d ts <-> time_axis dates_of (map coord_of coords) d ts.
Proof.
  unfold axis, time_axis. split.
  - intros (c & Hc & Hn & Hv). exists (coord_of c). split; [apply in_map; auto|]. cbn. rewrite Hv. auto.
  - intros (c' & Hc & Hn & Hv). apply in_map_iff in Hc as (c & <- & Hc). exists c. cbn in *.
    split; [auto|]. split; [auto|]. unfold dates_of in Hv. destruct (np_values c); congruence.
Qed.
Lemma names_coords coords : map c_name (map coord_of coords) = map np_name coords.
Proof. rewrite map_map. reflexivity. Qed.

Section Raw.
  Variables (cfg : stream_cfg) (vars coords : list npvar) (views : list (list (string * seen elem))).
  Hypothesis Hnd : NoDup (map np_name (vars ++ coords)).
  Hypothesis Hp : prepare_raw cfg vars coords = Some views.

  Lemma nd_coords : NoDup (map c_name (map coord_of coords)).
  Proof using Hnd.
    rewrite names_coords. rewrite map_app in Hnd. clear Hp. induction (map np_name vars) as [|a l IH]; [exact Hnd|].
    apply IH. cbn in Hnd. inversion Hnd; auto.
  Qed.

  Lemma raw_inv : exists encs local ti lts,
    get_dataset_schema false vars coords = Some encs /\ time_coords_ok coords = true /\
    time_index dates_of cfg (map coord_of coords) = Some (local, ti) /\
    lookup local ti = Some (map (fun o => One (real o)) (positions lts)) /\
    time_axis dates_of (map coord_of coords) local lts /\ List.length views = List.length lts /\
    forall i v, nth_error vars i = Some v -> exists e idxs, encoded_var encs v = Some e /\
      var_index ti (List.length lts) (unencoded v) = Some idxs /\
      forall t, t < List.length lts -> exists idx s, nth_error idxs t = Some idx /\
        access_data e idx = Some s /\
        (exists view, nth_error views t = Some view /\ nth_error view i = Some (dv_name e, s)).
  Proof using Hnd Hp.
    unfold prepare_raw in Hp. destruct (get_dataset_schema false vars coords) as [encs|]; [|discriminate].
    destruct (time_coords_ok coords); [|discriminate].
    destruct (time_index dates_of cfg (map coord_of coords)) as [[local ti]|] eqn:Et; [|discriminate].
    destruct (time_index_inv _ _ _ _ _ nd_coords Et) as (lts & Hax & _ & Hl & _ & _).
    rewrite Hl in Hp. cbv zeta in Hp. rewrite map_length, positions_length in Hp.
    destruct (mapM (var_index ti (List.length lts)) (map unencoded vars)) as [indices|] eqn:Ei; [|discriminate].
    destruct (mapM (encoded_var encs) vars) as [data|] eqn:Ed; [|discriminate].
    exists encs, local, ti, lts. do 5 (split; [first [reflexivity|eassumption]|]).
    destruct (mapM_inv _ _ _ Hp) as [Hlen Hv]. rewrite seq_length in Hlen. split; [exact Hlen|].
    intros i v Hi. destruct (mapM_inv _ _ _ Ei) as [_ Hin]. destruct (mapM_inv _ _ _ Ed) as [_ Hdat].
    destruct (Hin i (unencoded v)) as (idxs & Hidxs & Hvi); [rewrite nth_error_map, Hi; reflexivity|].
    destruct (Hdat i v Hi) as (e & He & Hev). exists e, idxs. split; [auto|]. split; [auto|].
    intros t Ht. destruct (Hv t t) as (view & Hview & Hva).
    { rewrite (nth_error_nth' _ 0) by (rewrite seq_length; auto). rewrite seq_nth by auto. reflexivity. }
    unfold view_at in Hva. destruct (mapM_inv _ _ _ Hva) as [_ Hvn].
    destruct (Hvn i (e, idxs)) as ([nm s] & Hns & Hs); [apply nth_error_combine; auto|].
    cbn [fst snd] in Hs. destruct (nth_error idxs t) as [idx|] eqn:Eidx; [|discriminate].
    destruct (access_data e idx) as [s'|] eqn:Ea; [|discriminate]. cbn in Hs.
    assert (s' = s) by congruence. assert (nm = dv_name e) by congruence. subst s' nm.
    exists idx, s. split; [auto|]. split; [auto|]. eauto.
  Qed.

  (** the array in place of a variable, alone in a dataset, is read in the same way *)
  Lemma raw_single_gen i v : nth_error vars i = Some v ->
    exists encs e views1, get_dataset_schema false vars coords = Some encs /\ encoded_var encs v = Some e /\
      ((forall local ti n, time_index dates_of cfg (map coord_of coords) = Some (local, ti) ->
          var_index ti n (unencoded v) = var_index ti n e) ->
       prepare dates_of cfg [e] (map coord_of coords) = Some views1 /\ List.length views1 = List.length views /\
       forall t s, reads views1 t 0 s -> reads views t i s).
  Proof using Hnd Hp.
    intros Hi. destruct raw_inv as (encs & local & ti & lts & Hs & _ & Et & Hl & Haxl & Hlen & Hall).
    destruct (Hall i v Hi) as (e & idxs & He & Hv & Hst).
    assert (HM : exists views1, mapM (view_at [e] [idxs]) (seq 0 (List.length lts)) = Some views1 /\ List.length views1 = List.length lts /\
       forall t s, reads views1 t 0 s -> reads views t i s).
    { assert (G : exists views1, mapM (view_at [e] [idxs]) (seq 0 (List.length lts)) = Some views1).
      { apply AccessorProofs7.mapM_total. intros t Ht. apply in_seq in Ht. destruct (Hst t) as (idx & s & H1 & H2 & _); [lia|].
        unfold view_at. cbn [combine mapM fst snd]. rewrite H1, H2. cbn. eauto. }
      destruct G as [views1 G]. exists views1. split; [exact G|].
      destruct (mapM_inv _ _ _ G) as [Hl1 Hn1]. rewrite seq_length in Hl1. split; [exact Hl1|]. intros t s (view & nm & Hview & Hs0).
      assert (Ht : t < List.length lts) by (rewrite <- Hl1; apply nth_error_Some; congruence).
      destruct (Hst t Ht) as (idx & s' & H1 & H2 & view' & H3 & H4).
      destruct (Hn1 t t) as (view1 & Hview1 & Hva).
      { rewrite (nth_error_nth' _ 0) by (rewrite seq_length; auto). rewrite seq_nth by auto. reflexivity. }
      assert (view1 = view) by congruence. subst view1. unfold view_at in Hva. cbn [combine mapM fst snd] in Hva.
      rewrite H1, H2 in Hva. cbn in Hva. assert (Ev : view = [(dv_name e, s')]) by congruence. rewrite Ev in Hs0. cbn in Hs0.
      assert (s' = s) by congruence. subst s'. exists view', (dv_name e). auto. }
    destruct HM as (views1 & HM & Hl1 & Hre).
    exists encs, e, views1. split; [auto|]. split; [auto|]. intros Hde. split; [|split; [congruence|exact Hre]].
    unfold prepare. rewrite Et, Hl. cbv zeta. rewrite map_length, positions_length. cbn [mapM].
    rewrite <- (Hde local ti (List.length lts) Et), Hv. exact HM.
  Qed.
  Lemma time_dims local ti : time_index dates_of cfg (map coord_of coords) = Some (local, ti) ->
    forall d, mem_str d (map fst ti) = true <-> exists ts, axis coords d ts.
  Proof using Hnd.
    intros Et d. destruct (time_index_inv _ _ _ _ _ nd_coords Et) as (_ & _ & _ & _ & Hdims & _).
    rewrite mem_str_iff, Hdims. split; intros [ts H]; exists ts; apply axis_time_axis; auto.
  Qed.
  Lemma raw_single i v d ts : nth_error vars i = Some v -> hd_error (np_dims v) = Some d -> axis coords d ts ->
    exists encs e views1, get_dataset_schema false vars coords = Some encs /\ encoded_var encs v = Some e /\
      (hd_error (dv_dims e) = Some d ->
       prepare dates_of cfg [e] (map coord_of coords) = Some views1 /\
       forall t s, reads views1 t 0 s -> reads views t i s).
  Proof using Hnd Hp.
    intros Hi Hd Hax. destruct (raw_single_gen i v Hi) as (encs & e & views1 & Hs & He & G).
    exists encs, e, views1. split; [auto|]. split; [auto|]. intros Hde.
    enough (H : forall local ti n, time_index dates_of cfg (map coord_of coords) = Some (local, ti) ->
          var_index ti n (unencoded v) = var_index ti n e) by (destruct (G H) as (H1 & _ & H2); auto).
    intros local ti n Et. unfold var_index, unencoded. cbn [dv_dims dv_size].
    destruct (np_dims v) as [|d1 r1]; [discriminate|]. destruct (dv_dims e) as [|d2 r2]; [discriminate|].
    cbn in Hd, Hde. assert (d1 = d) by congruence. assert (d2 = d) by congruence. subst d1 d2.
    cbn [existsb]. rewrite (proj2 (time_dims _ _ Et d)) by eauto. reflexivity.
  Qed.
  Lemma timeless_dims ds v local ti : timeless coords v -> (forall d, In d ds -> In d (np_dims v)) ->
    time_index dates_of cfg (map coord_of coords) = Some (local, ti) -> existsb (fun d => mem_str d (map fst ti)) ds = false.
  Proof using Hnd.
    intros Hfr Hds Et. destruct (existsb _ ds) eqn:E; [|reflexivity]. apply existsb_exists in E as (d & Hd & Hm).
    apply (time_dims _ _ Et d) in Hm as [ts Hm]. exfalso. eapply Hfr; eauto.
  Qed.
End Raw.

(** *** the rows *)
Lemma encoded_text vars coords encs v l e : NoDup (map np_name (vars ++ coords)) -> get_dataset_schema false vars coords = Some encs ->
  In v vars -> np_values v = Texts l -> encoded_var encs v = Some e ->
  dv_dims e = firstn 1 (np_dims v) /\ dv_rows e = map (fun s => [Int (text_code l s)]) l /\ dv_default e = Int (-99999) /\ np_shape v <> [].
Proof.
  intros Hnd Hs Hv Hl He.
  assert (Hin : In v (vars ++ coords)) by (apply in_app_iff; auto).
  assert (Hsh : np_shape v <> []).
  { intros E. assert (N : get_dataset_schema false vars coords = None); [|congruence].
    apply schema_none. exists v. split; [auto|]. split; [exists l|]; auto. }
  assert (Hm : make_encoder v = Some (Some (TextEncoder (string_encoder String.leb String.eqb (LArr string (np_shape v) l))))).
  { unfold make_encoder. rewrite Hl. destruct (np_shape v); [tauto|reflexivity]. }
  pose proof (schema_lookup false vars coords encs v _ Hnd Hs Hin Hm) as Hlk.
  destruct (text_codes (np_shape v) l Hsh) as (codes & Hc & Hz).
  unfold encoded_var in He. rewrite Hlk, Hl, Hc in He. cbn [lentries] in He.
  assert (Ee := f_equal (fun o => match o with Some x => x | None => e end) He). cbn beta iota in Ee. clear He. rewrite <- Ee.
  cbn [dv_dims dv_rows dv_default]. split; [reflexivity|]. split; [|split; [reflexivity|exact Hsh]].
  assert (G := f_equal (map (fun z => [Int z])) Hz). rewrite !map_map in G. exact G.
Qed.
Lemma encoded_date vars coords encs v l e : NoDup (map np_name (vars ++ coords)) -> get_dataset_schema false vars coords = Some encs ->
  In v vars -> np_values v = Dates l -> well_formed v -> encoded_var encs v = Some e ->
  dv_dims e = np_dims v ++ ["word"%string] /\ dv_rows e = map date_words l /\ dv_default e = Word 0 /\ dv_last e = 2 /\
  (exists n, np_shape v = [n]) /\ l <> [].
Proof.
  intros Hnd Hs Hv Hl Hwf He.
  assert (Hin : In v (vars ++ coords)) by (apply in_app_iff; auto).
  assert (Hm : make_encoder v = Some (Some DateEncoder)) by (unfold make_encoder; rewrite Hl; reflexivity).
  pose proof (schema_lookup false vars coords encs v _ Hnd Hs Hin Hm) as Hlk.
  unfold encoded_var in He. rewrite Hlk, Hl in He. unfold encode_dates in He.
  destruct (np_shape v) as [|n [|m s]] eqn:Es; try discriminate.
  assert (Hne : l <> []) by (intros ->; discriminate).
  destruct Hwf as [Hwf _]. rewrite Hl in Hwf. destruct Hwf as [_ Hr].
  destruct (date_codes l Hne Hr) as (ws & Hw & Hm2). rewrite Hw in He.
  assert (Ee := f_equal (fun o => match o with Some x => x | None => e end) He). cbn beta iota in Ee. clear He. rewrite <- Ee.
  cbn [dv_dims dv_rows dv_default dv_last]. split; [reflexivity|]. split; [exact Hm2|]. split; [reflexivity|]. split; [reflexivity|]. eauto.
Qed.
Lemma encoded_number vars coords encs v l e : NoDup (map np_name (vars ++ coords)) -> get_dataset_schema false vars coords = Some encs ->
  In v vars -> np_values v = Numbers l -> encoded_var encs v = Some e ->
  dv_dims e = np_dims v /\ dv_rows e = rows_of (np_shape v) (map Num l) /\ dv_default e = Num NaN.
Proof.
  intros Hnd Hs Hv Hl He.
  assert (Hin : In v (vars ++ coords)) by (apply in_app_iff; auto).
  assert (Hm : make_encoder v = Some None) by (unfold make_encoder; rewrite Hl; reflexivity).
  pose proof (schema_lookup false vars coords encs v _ Hnd Hs Hin Hm) as Hlk.
  unfold encoded_var in He. rewrite Hlk, Hl in He.
  assert (Ee := f_equal (fun o => match o with Some x => x | None => e end) He). cbn beta iota in Ee. clear He. rewrite <- Ee.
  cbn [dv_dims dv_rows dv_default]. auto.
Qed.
Lemma chunks_nth {A} n w (l : list A) t : t < n -> nth_error (chunks n w l) t = Some (firstn w (skipn (t * w) l)).
Proof.
  revert l t. induction n as [|n IH]; intros l [|t] Ht; cbn [chunks]; try lia; [reflexivity|].
  cbn [nth_error]. rewrite IH by lia. do 2 f_equal. rewrite skipn_skipn'. f_equal.
Qed.

(** the local time *)
Lemma is_local_time cfg coords local : is_local cfg coords local ->
  local_time cfg = local \/ (forall d ts, time_axis dates_of (map coord_of coords) d ts -> d = local).
Proof.
  intros [[H _]|[_ H]]; [left; auto|right]. intros d ts Hx. apply axis_time_axis in Hx. eauto.
Qed.

Section Reads.
  Variables (cfg : stream_cfg) (vars coords : list npvar) (views : list (list (string * seen elem))) (local : string) (lts : list Z).
  Hypothesis Hnd : NoDup (map np_name (vars ++ coords)).
  Hypothesis Hp : prepare_raw cfg vars coords = Some views.
  Hypothesis Hax : axis coords local lts.
  Hypothesis Hloc : is_local cfg coords local.
  Variables (i : nat) (v : npvar).
  Hypothesis Hi : nth_error vars i = Some v.

  Lemma raw_local row t : hd_error (np_dims v) = Some local -> t < List.length lts ->
    (forall encs e, get_dataset_schema false vars coords = Some encs -> encoded_var encs v = Some e ->
       hd_error (dv_dims e) = Some local /\ nth_error (dv_rows e) t = Some row) ->
    reads views t i (SOne row).
  Proof using Hnd Hp Hax Hloc Hi.
    intros Hd Ht He. destruct (raw_single cfg vars coords views Hnd Hp i v local lts Hi Hd Hax) as (encs & e & views1 & Hs & Hev & G).
    destruct (He encs e Hs Hev) as [Hde Hrow]. destruct (G Hde) as [Hp1 Hre]. apply Hre.
    eapply (reads_local dates_of cfg [e] (map coord_of coords) views1 (nd_coords vars coords Hnd) Hp1 local lts t 0 e row); auto.
    - apply axis_time_axis; auto.
    - apply is_local_time; auto.
  Qed.

  Lemma reads_text l t s : np_values v = Texts l -> hd_error (np_dims v) = Some local -> t < List.length lts ->
    nth_error l t = Some s -> reads views t i (SOne [Int (text_code l s)]).
  Proof using Hnd Hp Hax Hloc Hi.
    intros Hl Hd Ht Hn. apply raw_local; auto. intros encs e Hs He.
    destruct (encoded_text vars coords encs v l e Hnd Hs (nth_error_In _ _ Hi) Hl He) as (E1 & E2 & _). rewrite E1, E2.
    split; [destruct (np_dims v); [discriminate|exact Hd]|]. rewrite nth_error_map, Hn. reflexivity.
  Qed.
  Lemma reads_date l t ns : well_formed v -> np_values v = Dates l -> hd_error (np_dims v) = Some local -> t < List.length lts ->
    nth_error l t = Some ns -> reads views t i (SOne (date_words ns)).
  Proof using Hnd Hp Hax Hloc Hi.
    intros Hw Hl Hd Ht Hn. apply raw_local; auto. intros encs e Hs He.
    destruct (encoded_date vars coords encs v l e Hnd Hs (nth_error_In _ _ Hi) Hl Hw He) as (E1 & E2 & _). rewrite E1, E2.
    split; [destruct (np_dims v); [discriminate|exact Hd]|]. rewrite nth_error_map, Hn. reflexivity.
  Qed.
  Lemma reads_number l n rest t : np_values v = Numbers l -> np_shape v = n :: rest -> hd_error (np_dims v) = Some local -> t < List.length lts ->
    t < n -> reads views t i (SOne (map Num (firstn (lsize rest) (skipn (t * lsize rest) l)))).
  Proof using Hnd Hp Hax Hloc Hi.
    intros Hl Hsh Hd Ht Hn. apply raw_local; auto. intros encs e Hs He.
    destruct (encoded_number vars coords encs v l e Hnd Hs (nth_error_In _ _ Hi) Hl He) as (E1 & E2 & _). rewrite E1, E2.
    split; [exact Hd|]. rewrite Hsh. cbn [rows_of]. rewrite chunks_nth by auto. rewrite skipn_map, firstn_map. reflexivity.
  Qed.
End Reads.

(** variables without time *)
Lemma reads_text_constant cfg vars coords views i v l t :
  NoDup (map np_name (vars ++ coords)) -> prepare_raw cfg vars coords = Some views -> nth_error vars i = Some v ->
  well_formed v -> np_values v = Texts l -> timeless coords v -> t < List.length views ->
  exists ys, reads views t i (SMany (map (fun z => [Int z]) ys)) /\ List.length ys = List.length l /\
    forall j, j < List.length l -> nth_error ys j = nth_error (map (text_code l) l) (Nat.min (t * j) (List.length l - 1)).
Proof.
  intros Hnd Hp Hi Hwf Hl Hfr Ht. destruct (raw_single_gen cfg vars coords views Hnd Hp i v Hi) as (encs & e & views1 & Hs & He & G).
  destruct (encoded_text vars coords encs v l e Hnd Hs (nth_error_In _ _ Hi) Hl He) as (E1 & E2 & _ & Hsh).
  assert (Esz : dv_size e = List.length l).
  { assert (Hin : In v (vars ++ coords)) by (apply in_app_iff; left; eapply nth_error_In; eauto).
    assert (Hm : make_encoder v = Some (Some (TextEncoder (string_encoder String.leb String.eqb (LArr string (np_shape v) l))))).
    { unfold make_encoder. rewrite Hl. destruct (np_shape v); [tauto|reflexivity]. }
    pose proof (schema_lookup false vars coords encs v _ Hnd Hs Hin Hm) as Hlk.
    destruct (text_codes (np_shape v) l Hsh) as (codes & Hc & Hz).
    unfold encoded_var in He. rewrite Hlk, Hl, Hc in He. cbn [lentries] in He.
    assert (Ee := f_equal (fun o => match o with Some x => x | None => e end) He). cbn beta iota in Ee. rewrite <- Ee. cbn [dv_size].
    apply (f_equal (@List.length _)) in Hz. rewrite !map_length in Hz. exact Hz. }
  destruct Hwf as [Hwf Hdl]. rewrite Hl in Hwf.
  assert (Hd1 : exists d r, np_dims v = d :: r).
  { destruct (np_dims v); [|eauto]. destruct (np_shape v); [tauto|discriminate]. }
  destruct Hd1 as (d0 & r0 & Ed0).
  assert (Hsub : forall d, In d (firstn 1 (np_dims v)) -> In d (np_dims v)).
  { intros d Hd. rewrite <- (firstn_skipn 1 (np_dims v)). apply in_app_iff. auto. }
  destruct G as (Hp1 & Hl1 & Hre).
  { intros local ti n Et. unfold var_index, unencoded. cbn [dv_dims dv_size]. rewrite E1.
    rewrite (timeless_dims cfg vars coords Hnd (np_dims v) v local ti Hfr (fun _ H => H) Et).
    rewrite (timeless_dims cfg vars coords Hnd (firstn 1 (np_dims v)) v local ti Hfr Hsub Et).
    rewrite Esz, Hwf, Ed0. reflexivity. }
  destruct (reads_constant_vector dates_of cfg [e] (map coord_of coords) views1 (nd_coords vars coords Hnd) Hp1 t 0 e
    (map (fun s => Int (text_code l s)) l)) as (ys & H1 & H2 & H3).
  - reflexivity.
  - rewrite E1, Ed0. reflexivity.
  - intros d ts Hts Hd. rewrite E1 in Hd. apply axis_time_axis in Hts. eapply Hfr; eauto.
  - rewrite E2, map_map. reflexivity.
  - rewrite Esz, map_length. reflexivity.
  - congruence.
  - rewrite map_length in H2, H3.
    exists (map (fun el => match el with Int z => z | _ => 0%Z end) ys).
    assert (Hys : forall y, In y ys -> exists z, y = Int z).
    { intros y Hy. apply In_nth_error in Hy as [j Hj]. assert (Hjl : j < List.length l) by (rewrite <- H2; apply nth_error_Some; congruence).
      rewrite (H3 j Hjl), nth_error_map in Hj. destruct (nth_error l _); [|discriminate]. cbn in Hj. eexists. symmetry. apply (f_equal (fun o => match o with Some x => x | None => y end) Hj). }
    split; [|split; [rewrite map_length; exact H2|]].
    + rewrite map_map. apply Hre.
      rewrite (map_ext_in (fun x : elem => [Int match x with Int z => z | _ => 0%Z end]) (fun y => [y])); [exact H1|].
      intros y Hy. destruct (Hys y Hy) as [z ->]. reflexivity.
    + intros j Hj. rewrite nth_error_map, (H3 j Hj), !nth_error_map. destruct (nth_error l _); reflexivity.
Qed.
Lemma reads_number_constant cfg vars coords views i v x t :
  NoDup (map np_name (vars ++ coords)) -> prepare_raw cfg vars coords = Some views -> nth_error vars i = Some v ->
  np_values v = Numbers [x] -> np_dims v = [] -> np_shape v = [] -> t < List.length views -> reads views t i (SOne [Num x]).
Proof.
  intros Hnd Hp Hi Hl Hd Hsh Ht. destruct (raw_single_gen cfg vars coords views Hnd Hp i v Hi) as (encs & e & views1 & Hs & He & G).
  destruct (encoded_number vars coords encs v [x] e Hnd Hs (nth_error_In _ _ Hi) Hl He) as (E1 & E2 & _).
  destruct G as (Hp1 & Hl1 & Hre).
  { intros local ti n Et. unfold var_index, unencoded. cbn [dv_dims dv_size]. rewrite E1, Hd. reflexivity. }
  apply Hre. eapply (reads_constant dates_of cfg [e] (map coord_of coords) views1 (nd_coords vars coords Hnd) Hp1 t 0 e [Num x]); try reflexivity.
  - rewrite E1. exact Hd.
  - rewrite E2, Hsh. reflexivity.
  - congruence.
Qed.
