(** Texts and dates along another time axis; the datasets which raise and those which do not. *)
From Coq Require Import String ZArith List Bool Arith Lia.
From Verif Require Import Model.Float Model.Encode Model.Unroll Model.Stream Model.Format Model.Accessors Model.Schema
  Proofs.EncodeProofs Proofs.ListFacts Proofs.StreamProofs Proofs.AccessorProofs Proofs.AccessorProofs4 Proofs.AccessorProofs5 Proofs.AccessorProofs7
  Proofs.SchemaProofs Proofs.SchemaProofs2 Proofs.SchemaProofs3 Spec.StreamSpec Spec.AccessorSpec Spec.SchemaSpec.
Import ListNotations.
Local Open Scope list_scope.

Lemma combine_map_r {A B X} (f : A -> B) (xs : list X) (l : list A) :
  combine xs (map f l) = map (fun p => (fst p, f (snd p))) (combine xs l).
Proof. revert l. induction xs as [|x xs IH]; intros [|a l]; cbn; auto. rewrite IH. reflexivity. Qed.
Lemma strictly_before_rows {A B} (f : A -> B) T (xs : list Z) (l : list A) :
  map snd (strictly_before T (combine xs (map f l))) = map f (map snd (strictly_before T (combine xs l))).
Proof.
  rewrite combine_map_r. unfold strictly_before. induction (combine xs l) as [|p r IH]; cbn; [reflexivity|].
  destruct (Z.ltb (fst p) T); cbn; rewrite IH; reflexivity.
Qed.
Lemma between_rows {A B} (f : A -> B) T0 T (xs : list Z) (l : list A) :
  map snd (between T0 T (combine xs (map f l))) = map f (map snd (between T0 T (combine xs l))).
Proof.
  rewrite combine_map_r. unfold between. induction (combine xs l) as [|p r IH]; cbn; [reflexivity|].
  destruct (_ && _); cbn; rewrite IH; reflexivity.
Qed.

Section Ffill.
  Variables (cfg : stream_cfg) (vars coords : list npvar) (views : list (list (string * seen elem))) (local : string) (lts : list Z).
  Hypothesis Hnd : NoDup (map np_name (vars ++ coords)).
  Hypothesis Hp : prepare_raw cfg vars coords = Some views.
  Hypothesis Hax : axis coords local lts.
  Hypothesis Hloc : local_time cfg = local.
  Variables (i : nat) (v : npvar) (d : string) (ts : list Z).
  Hypothesis Hi : nth_error vars i = Some v.
  Hypothesis Hd : axis coords d ts.
  Hypothesis Hdl : d <> local.
  Hypothesis Hdim : np_dims v = [d].
  Hypothesis Hord : in_order lts.
  Hypothesis Hord2 : in_order ts.
  Hypothesis Hmono : monotone_on lts (embedding cfg d).
  Hypothesis Hk : (index_fill cfg < 0)%Z.
  Hypothesis Hml : buffer_maxlen cfg d = None.

  Section Rows.
    Context {B : Type} (row : B -> list elem) (l : list B) (w : nat) (def : elem).
    Hypothesis Hrow : forall b, List.length (row b) = w.
    Hypothesis Hlen : List.length ts = List.length l.
    Hypothesis He : forall encs e, get_dataset_schema false vars coords = Some encs -> encoded_var encs v = Some e ->
      (exists rest, dv_dims e = d :: rest) /\ dv_rows e = map row l /\ dv_default e = def.

    Lemma raw_ffill t T : ffills cfg d = true -> nth_error lts t = Some T ->
      reads views t i (SOne (last (map row (map snd (strictly_before (embedding cfg d T) (combine ts l)))) (repeat def w))).
    Proof using All.
      intros Hff HT.
      destruct (raw_single cfg vars coords views Hnd Hp i v d ts Hi) as (encs & e & views1 & Hs & Hev & G);
        [rewrite Hdim; reflexivity|exact Hd|].
      destruct (He encs e Hs Hev) as ((rest & Ed) & Er & Edef).
      destruct G as [Hp1 Hre]; [rewrite Ed; reflexivity|]. apply Hre.
      pose proof (reads_ffill dates_of cfg [e] (map coord_of coords) views1 (nd_coords vars coords Hnd) Hp1 local lts
        (proj1 (axis_time_axis _ _ _) Hax) Hloc 0 e d ts rest eq_refl (proj1 (axis_time_axis _ _ _) Hd) Hdl Ed Hord Hord2 Hmono) as Q.
      rewrite Er, Edef in Q. rewrite map_length in Q. specialize (Q Hlen w).
      rewrite <- strictly_before_rows. apply Q; auto. apply Forall_forall. intros r Hr. apply in_map_iff in Hr as (b & <- & _). apply Hrow.
    Qed.
    Lemma raw_no_ffill t T0 T : ffills cfg d = false -> nth_error lts t = Some T0 -> nth_error lts (Datatypes.S t) = Some T ->
      reads views (Datatypes.S t) i
        (SOne (last (map row (map snd (between (embedding cfg d T0) (embedding cfg d T) (combine ts l)))) (repeat def w))).
    Proof using All.
      intros Hff HT0 HT.
      destruct (raw_single cfg vars coords views Hnd Hp i v d ts Hi) as (encs & e & views1 & Hs & Hev & G);
        [rewrite Hdim; reflexivity|exact Hd|].
      destruct (He encs e Hs Hev) as ((rest & Ed) & Er & Edef).
      destruct G as [Hp1 Hre]; [rewrite Ed; reflexivity|]. apply Hre.
      pose proof (reads_no_ffill dates_of cfg [e] (map coord_of coords) views1 (nd_coords vars coords Hnd) Hp1 local lts
        (proj1 (axis_time_axis _ _ _) Hax) Hloc 0 e d ts rest eq_refl (proj1 (axis_time_axis _ _ _) Hd) Hdl Ed Hord Hord2 Hmono) as Q.
      rewrite Er, Edef in Q. rewrite map_length in Q. specialize (Q Hlen w).
      rewrite <- between_rows. apply (Q) with (T0 := T0); auto. apply Forall_forall. intros r Hr. apply in_map_iff in Hr as (b & <- & _). apply Hrow.
    Qed.
  End Rows.

  Lemma text_rows l : np_values v = Texts l ->
    forall encs e, get_dataset_schema false vars coords = Some encs -> encoded_var encs v = Some e ->
      (exists rest, dv_dims e = d :: rest) /\ dv_rows e = map (fun s => [Int (text_code l s)]) l /\ dv_default e = Int (-99999).
  Proof using Hnd Hi Hdim.
    intros Hl encs e Hs He.
    destruct (encoded_text vars coords encs v l e Hnd Hs (nth_error_In _ _ Hi) Hl He) as (E1 & E2 & E3 & _). rewrite E1, Hdim. cbn. eauto.
  Qed.
  Lemma date_rows l : well_formed v -> np_values v = Dates l ->
    forall encs e, get_dataset_schema false vars coords = Some encs -> encoded_var encs v = Some e ->
      (exists rest, dv_dims e = d :: rest) /\ dv_rows e = map date_words l /\ dv_default e = Word 0.
  Proof using Hnd Hi Hdim.
    intros Hw Hl encs e Hs He.
    destruct (encoded_date vars coords encs v l e Hnd Hs (nth_error_In _ _ Hi) Hl Hw He) as (E1 & E2 & E3 & _). rewrite E1, Hdim. cbn. eauto.
  Qed.

  Lemma last_singleton {B} (f : B -> elem) (l : list B) def : last (map (fun b => [f b]) l) [def] = [last (map f l) def].
  Proof. induction l as [|a l IH]; [reflexivity|]. destruct l; [reflexivity|]. exact IH. Qed.

  Lemma reads_text_ffill l t T : np_values v = Texts l -> List.length ts = List.length l ->
    ffills cfg d = true -> nth_error lts t = Some T ->
    reads views t i (SOne [last (map (fun s => Int (text_code l s)) (map snd (strictly_before (embedding cfg d T) (combine ts l)))) (Int (-99999))]).
  Proof using All.
    intros Hl Hlen Hff HT. rewrite <- last_singleton.
    apply (raw_ffill (fun s => [Int (text_code l s)]) l 1 (Int (-99999))); auto. apply text_rows; auto.
  Qed.
  Lemma reads_date_ffill l t T : well_formed v -> np_values v = Dates l -> List.length ts = List.length l ->
    ffills cfg d = true -> nth_error lts t = Some T ->
    reads views t i (SOne (last (map date_words (map snd (strictly_before (embedding cfg d T) (combine ts l)))) [Word 0; Word 0])).
  Proof using All.
    intros Hw Hl Hlen Hff HT. apply (raw_ffill date_words l 2 (Word 0)); auto. apply date_rows; auto.
  Qed.
  Lemma reads_text_no_ffill l t T0 T : np_values v = Texts l -> List.length ts = List.length l ->
    ffills cfg d = false -> nth_error lts t = Some T0 -> nth_error lts (Datatypes.S t) = Some T ->
    reads views (Datatypes.S t) i (SOne [last (map (fun s => Int (text_code l s))
      (map snd (between (embedding cfg d T0) (embedding cfg d T) (combine ts l)))) (Int (-99999))]).
  Proof using All.
    intros Hl Hlen Hff HT0 HT. rewrite <- last_singleton.
    apply (raw_no_ffill (fun s => [Int (text_code l s)]) l 1 (Int (-99999))); auto. apply text_rows; auto.
  Qed.
  Lemma reads_date_no_ffill l t T0 T : well_formed v -> np_values v = Dates l -> List.length ts = List.length l ->
    ffills cfg d = false -> nth_error lts t = Some T0 -> nth_error lts (Datatypes.S t) = Some T ->
    reads views (Datatypes.S t) i (SOne (last (map date_words
      (map snd (between (embedding cfg d T0) (embedding cfg d T) (combine ts l)))) [Word 0; Word 0])).
  Proof using All.
    intros Hw Hl Hlen Hff HT0 HT. apply (raw_no_ffill date_words l 2 (Word 0)); auto. apply date_rows; auto.
  Qed.
End Ffill.

(** *** datasets which raise *)
Lemma raw_none cfg vars coords : NoDup (map np_name (vars ++ coords)) ->
  (exists v, In v (vars ++ coords) /\ is_text v /\ np_shape v = []) \/
  (exists v, In v (vars ++ coords) /\ is_date v /\ List.length (np_shape v) <> 1) \/
  (exists v, In v vars /\ (np_values v = Objects \/ np_values v = Dates [])) ->
  prepare_raw cfg vars coords = None.
Proof.
  intros Hnd H. destruct (prepare_raw cfg vars coords) as [views|] eqn:Hp; [|reflexivity]. exfalso.
  destruct (raw_inv cfg vars coords views Hnd Hp) as (encs & local & ti & lts & Hs & Hok & _ & _ & _ & _ & Hall).
  assert (Henc : forall v o, In v vars -> make_encoder v = Some o -> exists e, encoded_var encs v = Some e /\ lookup (np_name v) encs = o).
  { intros v o Hv Hm. destruct (In_nth_error _ _ Hv) as [i Hi]. destruct (Hall i v Hi) as (e & _ & He & _). exists e. split; [auto|].
    apply (schema_lookup false vars coords encs v); auto. apply in_app_iff; auto. }
  destruct H as [H|[(v & Hv & (l & Hl) & Hsh)|(v & Hv & Hl)]].
  - apply schema_none in H. congruence.
  - apply in_app_iff in Hv as [Hv|Hv].
    + destruct (Henc v (Some DateEncoder) Hv) as (e & He & Hlk); [unfold make_encoder; rewrite Hl; reflexivity|].
      unfold encoded_var in He. rewrite Hlk, Hl in He. unfold encode_dates in He.
      destruct (np_shape v) as [|n [|m s]]; cbn in Hsh; try discriminate. lia.
    + unfold time_coords_ok in Hok. rewrite forallb_forall in Hok. specialize (Hok v Hv). rewrite Hl in Hok.
      apply Nat.eqb_eq in Hok. lia.
  - destruct Hl as [Hl|Hl].
    + destruct (Henc v None Hv) as (e & He & Hlk); [unfold make_encoder; rewrite Hl; reflexivity|].
      unfold encoded_var in He. rewrite Hlk, Hl in He. discriminate.
    + destruct (Henc v (Some DateEncoder) Hv) as (e & He & Hlk); [unfold make_encoder; rewrite Hl; reflexivity|].
      unfold encoded_var in He. rewrite Hlk, Hl in He. unfold encode_dates in He.
      destruct (np_shape v) as [|n [|m s]]; discriminate.
Qed.

Lemma buffered_dates_fail cfg vars coords local lts v d ts l k :
  NoDup (map np_name (vars ++ coords)) -> axis coords local lts -> lts <> [] -> local_time cfg = local ->
  In v vars -> np_values v = Dates l -> well_formed v -> hd_error (np_dims v) = Some d -> axis coords d ts -> d <> local ->
  buffer_maxlen cfg d = Some k -> k <> 1 -> k <> 2 -> prepare_raw cfg vars coords = None.
Proof.
  intros Hnd Hax Hne Hloc Hv Hl Hw Hd Hts Hdl Hml H1 H2.
  destruct (prepare_raw cfg vars coords) as [views|] eqn:Hp; [|reflexivity]. exfalso.
  destruct (In_nth_error _ _ Hv) as [i Hi].
  destruct (raw_single cfg vars coords views Hnd Hp i v d ts Hi Hd Hts) as (encs & e & views1 & Hs & Hev & G).
  destruct (encoded_date vars coords encs v l e Hnd Hs Hv Hl Hw Hev) as (E1 & _ & _ & E4 & (n & Hn) & _).
  destruct Hw as [_ Hw]. rewrite Hn in Hw. destruct (np_dims v) as [|d1 [|d2 r]]; cbn in Hw; try discriminate.
  assert (d1 = d) by (cbn in Hd; congruence). subst d1. cbn in E1.
  destruct G as [Hp1 _]; [rewrite E1; reflexivity|].
  rewrite (buffered_matrix_fails dates_of cfg [e] (map coord_of coords) local lts e d "word"%string [] ts k) in Hp1; try discriminate; auto.
  - apply (nd_coords vars coords Hnd).
  - apply axis_time_axis; auto.
  - left; reflexivity.
  - apply axis_time_axis; auto.
  - rewrite E4. auto.
  - rewrite E4. auto.
Qed.

(** *** datasets which do not *)
Lemma raw_prepare cfg vars coords encs data : get_dataset_schema false vars coords = Some encs -> time_coords_ok coords = true ->
  mapM (encoded_var encs) vars = Some data ->
  (forall local ti n, time_index dates_of cfg (map coord_of coords) = Some (local, ti) ->
     mapM (var_index ti n) (map unencoded vars) = mapM (var_index ti n) data) ->
  prepare_raw cfg vars coords = prepare dates_of cfg data (map coord_of coords).
Proof.
  intros Hs Hok Hd Hv. unfold prepare_raw, prepare. rewrite Hs, Hok.
  destruct (time_index dates_of cfg (map coord_of coords)) as [[local ti]|] eqn:Et; [|reflexivity].
  destruct (lookup local ti) as [steps|]; [|reflexivity]. cbv zeta. rewrite Hd, (Hv local ti _ eq_refl).
  destruct (mapM (var_index ti (List.length steps)) data); reflexivity.
Qed.

Lemma fmapM_eq {X X' Y} (f : X -> option Y) (g : X' -> option Y) l l' : Forall2 (fun a b => f a = g b) l l' -> mapM f l = mapM g l'.
Proof. induction 1 as [|a b l l' H _ IH]; cbn; [reflexivity|]. rewrite H, IH. reflexivity. Qed.

Lemma raw_total cfg vars coords local lts :
  NoDup (map np_name (vars ++ coords)) -> Forall well_formed vars -> axis coords local lts -> is_local cfg coords local ->
  (forall d ts, axis coords d ts -> ts <> [] /\ (d <> local -> buffer_maxlen cfg d <> Some 0)) ->
  (forall c, In c coords -> is_date c -> List.length (np_shape c) = 1) ->
  (forall c, In c coords -> is_text c -> np_shape c <> []) ->
  Forall (can_read cfg local coords) vars ->
  exists views, prepare_raw cfg vars coords = Some views.
Proof.
  intros Hnd Hwf Hax Hloc Hts Hdc Htc Hread. rewrite Forall_forall in Hread, Hwf.
  destruct (get_dataset_schema false vars coords) as [encs|] eqn:Hs.
  2:{ exfalso. apply schema_none in Hs as (v & Hv & Ht & Hsh). apply in_app_iff in Hv as [Hv|Hv]; [|eapply Htc; eauto].
      specialize (Hread v Hv). destruct Ht as [l Hl]. unfold can_read in Hread. rewrite Hl in Hread. tauto. }
  assert (Hok : time_coords_ok coords = true).
  { unfold time_coords_ok. apply forallb_forall. intros c Hc. destruct (np_values c) eqn:E; auto. apply Nat.eqb_eq. apply Hdc; auto.
    eexists; eauto. }
  assert (Henc : forall v, In v vars -> exists e, encoded_var encs v = Some e /\
    readable dates_of cfg local (map coord_of coords) e /\
    forall local' ti n, time_index dates_of cfg (map coord_of coords) = Some (local', ti) ->
      var_index ti n (unencoded v) = var_index ti n e).
  { intros v Hv. specialize (Hread v Hv). specialize (Hwf v Hv). unfold can_read in Hread.
    assert (Hin : In v (vars ++ coords)) by (apply in_app_iff; auto).
    assert (Hti : forall local' ti, time_index dates_of cfg (map coord_of coords) = Some (local', ti) ->
       forall d, mem_str d (map fst ti) = true <-> exists ts, axis coords d ts).
    { intros local' ti Et d. destruct (time_index_inv _ _ _ _ _ (nd_coords vars coords Hnd) Et) as (_ & _ & _ & _ & Hdims & _).
      rewrite mem_str_iff, Hdims. split; intros [ts H]; exists ts; apply axis_time_axis; auto. }
    assert (Hal : forall (e : dvar elem) d n, hd_error (np_dims v) = Some d -> (exists ts, axis coords d ts) -> hd_error (dv_dims e) = Some d ->
       forall local' ti, time_index dates_of cfg (map coord_of coords) = Some (local', ti) -> var_index ti n (unencoded v) = var_index ti n e).
    { intros e d n Hd Hts' Hde local' ti Et. unfold var_index, unencoded. cbn [dv_dims dv_size].
      destruct (np_dims v) as [|d1 r1]; [discriminate|]. destruct (dv_dims e) as [|d2 r2]; [discriminate|].
      cbn in Hd, Hde. assert (d1 = d) by congruence. assert (d2 = d) by congruence. subst d1 d2.
      cbn [existsb]. rewrite (proj2 (Hti _ _ Et d) Hts'). reflexivity. }
    assert (Hfree : forall local' ti ds, time_index dates_of cfg (map coord_of coords) = Some (local', ti) ->
       (forall d, In d ds -> In d (np_dims v)) -> timeless coords v -> existsb (fun d => mem_str d (map fst ti)) ds = false).
    { intros local' ti ds Et Hds Hfr. destruct (existsb _ ds) eqn:E; [|reflexivity]. apply existsb_exists in E as (d & Hd & Hm).
      apply (Hti _ _ Et d) in Hm as [ts Hm]. exfalso. eapply Hfr; eauto. }
    destruct (np_values v) as [l|l|l|] eqn:Ev.
    - assert (Hm : make_encoder v = Some None) by (unfold make_encoder; rewrite Ev; reflexivity).
      pose proof (schema_lookup false vars coords encs v _ Hnd Hs Hin Hm) as Hlk.
      unfold encoded_var. rewrite Hlk, Ev. eexists. split; [reflexivity|]. unfold readable. cbn [dv_dims].
      destruct Hwf as [Hlen _]. rewrite Ev in Hlen.
      destruct Hread as [(d & (Hd & ts & Hat) & Hc)|[Hfr Hl1]].
      + split.
        * left. destruct (np_dims v) as [|d1 r1] eqn:Ed; [discriminate|]. cbn in Hd. assert (d1 = d) by congruence. subst d1.
          exists d, r1, ts. split; [auto|]. split; [apply axis_time_axis; auto|].
          destruct Hc as [Hc|[Hc|Hc]]; auto. right; right. cbn in Hc. destruct r1; [auto|discriminate].
        * intros local' ti n Et. eapply Hal; eauto.
      + split.
        * right. split; [|exact Hl1]. intros d ts Hd Hat. apply axis_time_axis in Hat. eapply Hfr; eauto.
        * intros local' ti n Et. unfold var_index, unencoded. cbn [dv_dims dv_size].
          rewrite (Hfree _ _ (np_dims v) Et) by auto. rewrite Hlen. reflexivity.
    - destruct Hread as [Hsh Hread].
      assert (Hm : make_encoder v = Some (Some (TextEncoder (string_encoder String.leb String.eqb (LArr string (np_shape v) l))))).
      { unfold make_encoder. rewrite Ev. destruct (np_shape v); [tauto|reflexivity]. }
      pose proof (schema_lookup false vars coords encs v _ Hnd Hs Hin Hm) as Hlk.
      destruct (text_codes (np_shape v) l Hsh) as (codes & Hc & Hz).
      unfold encoded_var. rewrite Hlk, Ev, Hc. cbn [lentries]. eexists. split; [reflexivity|]. unfold readable. cbn [dv_dims].
      assert (Hcl : List.length codes = List.length l) by (apply (f_equal (@List.length _)) in Hz; rewrite !map_length in Hz; exact Hz).
      destruct Hwf as [Hlen _]. rewrite Ev in Hlen.
      destruct Hread as [(d & Hd & ts & Hat)|Hfr].
      + split.
        * left. destruct (np_dims v) as [|d1 r1] eqn:Ed; [discriminate|]. cbn in Hd. assert (d1 = d) by congruence. subst d1.
          exists d, [], ts. split; [reflexivity|]. split; [apply axis_time_axis; auto|]. auto.
        * intros local' ti n Et. apply Hal with (d := d) (local' := local'); eauto. destruct (np_dims v); [discriminate|exact Hd].
      + split.
        * right. split; [|rewrite firstn_length; lia]. intros d ts Hd Hat. apply axis_time_axis in Hat. apply (Hfr d ts); auto.
          rewrite <- (firstn_skipn 1 (np_dims v)). apply in_app_iff. auto.
        * intros local' ti n Et. unfold var_index, unencoded. cbn [dv_dims dv_size].
          rewrite (Hfree _ _ (np_dims v) Et), (Hfree _ _ (firstn 1 (np_dims v)) Et); auto.
          -- rewrite Hcl, Hlen. destruct (np_dims v); reflexivity.
          -- intros d Hd. rewrite <- (firstn_skipn 1 (np_dims v)). apply in_app_iff. auto.
    - destruct Hread as (Hne & Hl1 & d & (Hd & ts & Hat) & Hc).
      assert (Hm : make_encoder v = Some (Some DateEncoder)) by (unfold make_encoder; rewrite Ev; reflexivity).
      pose proof (schema_lookup false vars coords encs v _ Hnd Hs Hin Hm) as Hlk.
      destruct Hwf as [Hr Hdl]. rewrite Ev in Hr. destruct Hr as [_ Hr]. rewrite Hl1 in Hdl.
      destruct (date_codes l Hne Hr) as (ws & Hw & _).
      unfold encoded_var. rewrite Hlk, Ev. unfold encode_dates. destruct (np_shape v) as [|n0 [|m s]]; cbn in Hdl; try discriminate.
      rewrite Hw. eexists. split; [reflexivity|]. unfold readable. cbn [dv_dims].
      destruct (np_dims v) as [|d1 r1] eqn:Ed; [discriminate|]. cbn in Hd. assert (d1 = d) by congruence. subst d1.
      split.
      + left. exists d, (r1 ++ ["word"%string]), ts. split; [reflexivity|]. split; [apply axis_time_axis; auto|]. tauto.
      + intros local' ti n Et. apply Hal with (d := d) (local' := local'); eauto.
    - destruct Hread. }
  destruct (AccessorProofs7.mapM_total (encoded_var encs) vars) as (data & Hdata).
  { intros v Hv. destruct (Henc v Hv) as (e & He & _). eauto. }
  assert (HF2 : Forall2 (fun v e => In v vars /\ encoded_var encs v = Some e) vars data).
  { clear -Hdata. assert (G : forall l data, incl l vars -> mapM (encoded_var encs) l = Some data ->
      Forall2 (fun v e => In v vars /\ encoded_var encs v = Some e) l data).
    { induction l as [|v l IH]; intros r Hi H; cbn in H; [assert (r = []) by congruence; subst; constructor|].
      destruct (encoded_var encs v) as [e|] eqn:E; [|discriminate]. destruct (mapM (encoded_var encs) l) as [r'|] eqn:Er; [|discriminate].
      assert (r = e :: r') by congruence. subst. constructor; [split; [apply Hi; left; auto|auto]|]. apply IH; auto.
      intros a Ha. apply Hi. right. auto. }
    apply G; auto. apply incl_refl. }
  rewrite (raw_prepare cfg vars coords encs data Hs Hok Hdata).
  - apply (prepare_defined dates_of cfg data (map coord_of coords) local lts).
    + apply (nd_coords vars coords Hnd).
    + apply axis_time_axis; auto.
    + destruct Hloc as [H|[H1 H2]]; [left; auto|right]. split; [auto|]. intros d ts H. apply axis_time_axis in H. eauto.
    + intros d ts H. apply axis_time_axis in H. auto.
    + clear -HF2 Henc. induction HF2 as [|v e l l' [Hv He] _ IH]; constructor; auto.
      destruct (Henc v Hv) as (e' & He' & H & _). congruence.
  - intros local' ti n Et. apply fmapM_eq. rewrite <- (map_id data). 
    clear -HF2 Henc Et. induction HF2 as [|v e l l' [Hv He] _ IH]; constructor; auto.
    destruct (Henc v Hv) as (e' & He' & _ & H). assert (e' = e) by congruence. subst. cbn. eauto.
Qed.
