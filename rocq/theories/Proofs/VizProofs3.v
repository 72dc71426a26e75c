(** Proofs for C102 (streams, controls, animated flow). *)
From Coq Require Import String Ascii List Bool Arith ZArith Lia Reals Lra.
From Verif Require Import Model.FlaxOptim Model.Viz Spec.StreamSpec Spec.VizSpec Proofs.FlaxOptimProofs Proofs.StreamProofs Proofs.VizProofs Proofs.VizProofs2.
From Verif Require Proofs.DebugProofs Proofs.GraphProofs2.
From Verif Require Model.Debug.
Import ListNotations.
Local Open Scope list_scope.

(** ** Bokeh *)
Definition keep {A} (max : nat) (l : list A) : list A := if Nat.eqb max 0 then l else lastn max l.
Lemma keep_snoc {A} max (l : list A) x :
  (if Nat.ltb max (length (keep max l ++ [x])) then from_end (Z.of_nat max) (keep max l ++ [x]) else keep max l ++ [x]) = keep max (l ++ [x]).
Proof.
  unfold keep. destruct (Nat.eqb_spec max 0) as [->|N].
  - cbn. destruct (length (l ++ [x])); reflexivity.
  - destruct (Nat.ltb_spec max (length (lastn max l ++ [x]))) as [L|L].
    + rewrite from_end_pos by lia. rewrite Nat2Z.id. exact (DebugProofs.dq_append_lastn max l x).
    + rewrite <- DebugProofs.dq_append_lastn. unfold Debug.dq_append. replace (_ - max) with 0 by lia. reflexivity.
Qed.
Lemma keep_length {A B} max (l : list A) (m : list B) : length l = length m -> length (keep max l) = length (keep max m).
Proof. intros E. unfold keep. destruct (Nat.eqb max 0); [exact E|]. rewrite !DebugProofs.lastn_length, E. reflexivity. Qed.
Lemma bokeh_after max name after : ~ In (BAdd name) after -> forall d ups,
  sget name d = Some (keep max (map fst ups), keep max (map snd ups)) ->
  sget name (fold_left (bokeh_do max) after d) = Some (keep max (map fst (ups ++ updates_of name after)), keep max (map snd (ups ++ updates_of name after))).
Proof.
  induction after as [|o r IH]; intros N d ups H; [rewrite app_nil_r; exact H|]. cbn [fold_left].
  assert (N' : ~ In (BAdd name) r) by (intros I; apply N; right; exact I).
  unfold updates_of. cbn [flat_map]. fold (updates_of name r). rewrite app_assoc. apply IH; [exact N'|].
  destruct o as [n|n x y]; cbn [bokeh_do].
  - unfold add_line_stream. rewrite sget_sset, app_nil_r. destruct (String.eqb_spec name n) as [->|_]; [exfalso; apply N; left; reflexivity|exact H].
  - unfold bokeh_update. destruct (String.eqb_spec n name) as [->|Ne].
    + rewrite H. rewrite sget_sset, String.eqb_refl. rewrite !map_app. cbn [map fst snd].
      rewrite <- (keep_snoc max (map fst ups)), <- (keep_snoc max (map snd ups)).
      assert (E : length (keep max (map snd ups) ++ [y]) = length (keep max (map fst ups) ++ [x])).
      { rewrite !app_length. f_equal. apply keep_length. rewrite !map_length. reflexivity. }
      rewrite E. destruct (Nat.ltb max _); reflexivity.
    + rewrite app_nil_r. destruct (sget n d) as [[xs ys]|]; [|exact H]. rewrite sget_sset.
      apply not_eq_sym, String.eqb_neq in Ne. rewrite Ne. exact H.
Qed.
Lemma bokeh_spec max name before after : 0 < max -> ~ In (BAdd name) after ->
  sget name (bokeh_run max (before ++ BAdd name :: after)) =
  Some (lastn max (map fst (updates_of name after)), lastn max (map snd (updates_of name after))).
Proof.
  intros M N. unfold bokeh_run. rewrite fold_left_app. cbn [fold_left bokeh_do]. unfold add_line_stream.
  rewrite (bokeh_after max name after N _ []); [|rewrite sget_sset, String.eqb_refl; unfold keep; destruct (Nat.eqb max 0); reflexivity].
  cbn [app]. unfold keep. destruct (Nat.eqb_spec max 0); [lia|reflexivity].
Qed.
Lemma bokeh_zero name before after : ~ In (BAdd name) after ->
  sget name (bokeh_run 0 (before ++ BAdd name :: after)) = Some (map fst (updates_of name after), map snd (updates_of name after)).
Proof.
  intros N. unfold bokeh_run. rewrite fold_left_app. cbn [fold_left bokeh_do]. unfold add_line_stream.
  rewrite (bokeh_after 0 name after N _ []); [reflexivity|rewrite sget_sset, String.eqb_refl; reflexivity].
Qed.
Lemma bokeh_unknown max name ops : ~ In (BAdd name) ops -> sget name (bokeh_run max ops) = None.
Proof.
  unfold bokeh_run. assert (G : forall d, sget name d = None -> ~ In (BAdd name) ops -> sget name (fold_left (bokeh_do max) ops d) = None); [|intros N; apply G; [reflexivity|exact N]].
  induction ops as [|o r IH]; intros d H N; [exact H|]. cbn [fold_left]. apply IH; [|intros I; apply N; right; exact I].
  destruct o as [n|n x y]; cbn [bokeh_do].
  - unfold add_line_stream. rewrite sget_sset. destruct (String.eqb_spec name n) as [->|_]; [exfalso; apply N; left; reflexivity|exact H].
  - unfold bokeh_update. destruct (sget n d) as [[xs ys]|] eqn:E; [|exact H]. rewrite sget_sset. destruct (String.eqb_spec name n) as [->|_]; [congruence|exact H].
Qed.

(** ** Jupyter *)
Lemma set_nth_length {A} i (x : A) l : i < length l -> length (set_nth i x l) = length l.
Proof. intros H. unfold set_nth. rewrite app_length, firstn_length. cbn [length]. rewrite skipn_length. lia. Qed.
Lemma nth_error_set_nth {A} i (x : A) l j : i < length l -> nth_error (set_nth i x l) j = if Nat.eqb j i then Some x else nth_error l j.
Proof.
  intros H. unfold set_nth. assert (L : length (firstn i l) = i) by (rewrite firstn_length; lia).
  destruct (Nat.eqb_spec j i) as [->|N].
  - rewrite nth_error_app2 by lia. rewrite L, Nat.sub_diag. reflexivity.
  - destruct (Nat.lt_ge_cases j i) as [J|J].
    + rewrite nth_error_app1 by lia. rewrite <- (firstn_skipn i l) at 2. rewrite nth_error_app1 by lia. reflexivity.
    + rewrite nth_error_app2 by lia. rewrite L. destruct (j - i) as [|m] eqn:E; [lia|]. cbn [nth_error].
      rewrite <- (firstn_skipn (S i) l) at 2. rewrite nth_error_app2; rewrite firstn_length; [|lia]. f_equal. lia.
Qed.
Lemma nth_set_nth {A} i (x : A) l j d : i < length l -> nth j (set_nth i x l) d = if Nat.eqb j i then x else nth j l d.
Proof.
  intros H. pose proof (nth_error_set_nth i x l j H) as E.
  destruct (Nat.eqb_spec j i) as [->|N]; [apply nth_error_nth; exact E|].
  destruct (nth_error l j) as [y|] eqn:F.
  - rewrite (nth_error_nth _ _ _ E), (nth_error_nth _ _ _ F). reflexivity.
  - apply nth_error_None in E, F. rewrite !nth_overflow by assumption. reflexivity.
Qed.
Lemma map_set_nth {A B} (g : A -> B) i x l : i < length l -> nth_error (map g l) i = Some (g x) -> map g (set_nth i x l) = map g l.
Proof.
  intros H E. unfold set_nth. rewrite map_app. cbn [map]. rewrite <- (firstn_skipn i l) at 3. rewrite map_app. f_equal.
  rewrite nth_error_map in E. destruct (nth_error l i) as [y|] eqn:F; [|discriminate]. injection E as E.
  assert (S : skipn i l = y :: skipn (S i) l). { clear -F. revert l F. induction i as [|i IH]; intros [|a l] F; try discriminate; cbn in F |- *; [congruence|apply IH; exact F]. }
  rewrite S. cbn [map]. rewrite E. reflexivity.
Qed.
Lemma trace_index_some n l i : trace_index n l = Some i -> i < length l /\ nth_error (map tr_name l) i = Some n /\ forall j, j < i -> nth_error (map tr_name l) j <> Some n.
Proof.
  revert i. induction l as [|t r IH]; intros i H; [discriminate|]. cbn [trace_index] in H. destruct (String.eqb_spec (tr_name t) n) as [E|N].
  - injection H as <-. split; [cbn; lia|]. split; [cbn; congruence|lia].
  - destruct (trace_index n r) as [k|] eqn:T; [|discriminate]. injection H as <-. destruct (IH k eq_refl) as (A & B & C).
    split; [cbn; lia|split; [exact B|]]. intros [|j] J; cbn [map nth_error]; [congruence|apply C; lia].
Qed.
Lemma trace_index_none n l : trace_index n l = None <-> ~ In n (map tr_name l).
Proof.
  induction l as [|t r IH]; [cbn; tauto|]. cbn [trace_index map In]. destruct (String.eqb_spec (tr_name t) n) as [E|N]; [split; [discriminate|tauto]|].
  destruct (trace_index n r) as [k|]; cbn [option_map].
  - split; [discriminate|]. intros H. exfalso. assert (K : Some k = None) by (apply IH; intros I; apply H; right; exact I). discriminate.
  - split; [|reflexivity]. intros _ [K|K]; [exact (N K)|]. apply (proj1 IH); [reflexivity|exact K].
Qed.

Lemma buf_get_set f n v b g m : buf_get g m (buf_set f n v b) = if Nat.eqb g f && String.eqb m n then v else buf_get g m b.
Proof.
  unfold buf_get, buf_set. cbn [find fst snd]. destruct (Nat.eqb g f && String.eqb m n) eqn:E; [reflexivity|].
  assert (F : find (fun e => Nat.eqb g (fst (fst e)) && String.eqb m (snd (fst e))) (filter (fun e => negb (Nat.eqb f (fst (fst e)) && String.eqb n (snd (fst e)))) b) = find (fun e => Nat.eqb g (fst (fst e)) && String.eqb m (snd (fst e))) b); [|rewrite F; reflexivity].
  induction b as [|[[h k] w] r IH]; [reflexivity|]. cbn [filter find fst snd].
  destruct (Nat.eqb_spec f h) as [<-|N1]; cbn [andb negb].
  - destruct (String.eqb_spec n k) as [<-|N2]; cbn [negb]; [rewrite E; exact IH|]. cbn [find fst snd]. rewrite IH. reflexivity.
  - cbn [find fst snd]. rewrite IH. reflexivity.
Qed.

Lemma stream_updates_snoc f n ops : forall there o, stream_updates f n there (ops ++ [o]) = stream_updates f n there ops ++
  match o with JUpdate g m y x => if (there || existsb (String.eqb n) (added f ops)) && (Nat.eqb g f && String.eqb m n) then [(x, y)] else [] | _ => [] end.
Proof.
  induction ops as [|a r IH]; intros there o.
  - cbn. destruct o; try reflexivity. rewrite app_nil_r, orb_false_r. reflexivity.
  - destruct a as [|g m|g m y x]; cbn [app stream_updates]; rewrite IH; rewrite <- ?app_assoc; try reflexivity.
    destruct o as [| |g' m' y x]; try reflexivity. unfold added. cbn [flat_map]. fold (added f r). rewrite existsb_app.
    assert (E : existsb (String.eqb n) (if Nat.eqb g f then [m] else []) = (Nat.eqb g f && String.eqb m n)%bool).
    { destruct (Nat.eqb g f); cbn; [rewrite orb_false_r; apply String.eqb_sym|reflexivity]. }
    rewrite E, <- orb_assoc. reflexivity.
Qed.

Section Fig.
  Variables (max f : nat).
  Definition jinv (j : jviz) (b : list jviz_op) : Prop :=
    f < length (jv_figs j) /\
    map tr_name (nth f (jv_figs j) []) = added f b /\
    (forall i t, nth_error (nth f (jv_figs j) []) i = Some t ->
       let u := stream_updates f (tr_name t) false b in
       ((forall k, k < i -> nth_error (added f b) k <> Some (tr_name t)) -> tr_x t = lastn max (map fst u) /\ tr_y t = lastn max (map snd u)) /\
       ((exists k, k < i /\ nth_error (added f b) k = Some (tr_name t)) -> tr_x t = [] /\ tr_y t = [])) /\
    (forall n, buf_get f n (jv_bufs j) = (lastn max (map snd (stream_updates f n false b)), lastn max (map fst (stream_updates f n false b)))).
  Lemma added_snoc b o : added f (b ++ [o]) = added f b ++ match o with JAdd g n => if Nat.eqb g f then [n] else [] | _ => [] end.
  Proof. unfold added. rewrite flat_map_app. cbn. rewrite app_nil_r. reflexivity. Qed.
  Lemma nth_error_app_in {A} (l l' : list A) k x : nth_error l k = Some x -> nth_error (l ++ l') k = Some x.
  Proof. intros H. rewrite nth_error_app1; [exact H|]. apply nth_error_Some. congruence. Qed.
  Lemma stream_updates_none n b there : there = false -> ~ In n (added f b) -> stream_updates f n there b = [].
  Proof.
    revert there. induction b as [|o r IH]; intros there -> H; [reflexivity|]. unfold added in H. cbn [flat_map] in H. fold (added f r) in H.
    destruct o as [|g m|g m y x]; cbn [stream_updates app andb orb].
    - apply IH; auto.
    - apply IH; [|intros I; apply H, in_or_app; auto]. destruct (Nat.eqb g f); [|reflexivity]. cbn. apply String.eqb_neq. intros ->. apply H. left. reflexivity.
    - apply IH; auto.
  Qed.
  Lemma jinv_same j j' b o : jinv j b -> f < length (jv_figs j') -> nth f (jv_figs j') [] = nth f (jv_figs j) [] ->
    (forall n, buf_get f n (jv_bufs j') = buf_get f n (jv_bufs j)) ->
    added f (b ++ [o]) = added f b -> (forall n, stream_updates f n false (b ++ [o]) = stream_updates f n false b) -> jinv j' (b ++ [o]).
  Proof.
    intros (A & B & C & D) H1 H2 H3 H4 H5. unfold jinv. rewrite H2, H4. split; [exact H1|split; [exact B|split]].
    - intros i t E. cbv zeta. rewrite H5. exact (C i t E).
    - intros n. rewrite H3, H5. apply D.
  Qed.
  Lemma jinv_step j b o : jinv j b -> jinv (jviz_do max j o) (b ++ [o]).
  Proof.
    intros I. pose proof I as (A & B & C & D). destruct o as [|g n|g n y x]; cbn [jviz_do].
    - apply (jinv_same j); auto.
      + cbn [create_plot jv_figs]. rewrite app_length. lia.
      + cbn [create_plot jv_figs]. apply app_nth1. exact A.
      + rewrite added_snoc, app_nil_r. reflexivity.
      + intros n. rewrite stream_updates_snoc, app_nil_r. reflexivity.
    - assert (U : forall m, stream_updates f m false (b ++ [JAdd g n]) = stream_updates f m false b) by (intros m; rewrite stream_updates_snoc, app_nil_r; reflexivity).
      destruct (Nat.ltb_spec g (length (jv_figs j))) as [L|L].
      2:{ apply (jinv_same j); auto. rewrite added_snoc. destruct (Nat.eqb_spec g f); [lia|]. apply app_nil_r. }
      unfold add_stream. destruct (Nat.eq_dec g f) as [->|N].
      + unfold jinv. cbn [jv_figs jv_bufs]. rewrite set_nth_length by exact L. rewrite nth_set_nth by exact L. rewrite Nat.eqb_refl.
        assert (Ad : added f (b ++ [JAdd f n]) = added f b ++ [n]) by (rewrite added_snoc, Nat.eqb_refl; reflexivity).
        rewrite Ad. set (fig := nth f (jv_figs j) []) in *. split; [exact A|split; [|split]].
        * rewrite map_app, B. reflexivity.
        * intros i t E. cbv zeta. rewrite U. assert (Len : length fig = length (added f b)) by (rewrite <- B, map_length; reflexivity).
          destruct (Nat.lt_ge_cases i (length fig)) as [Li|Li].
          -- rewrite nth_error_app1 in E by exact Li. destruct (C i t E) as [C1 C2]. cbv zeta in *. split.
             ++ intros H. apply C1. intros k K X. apply (H k K). apply nth_error_app_in. exact X.
             ++ intros (k & K & X). apply C2. exists k. split; [exact K|]. rewrite nth_error_app1 in X by lia. exact X.
          -- assert (i = length fig) by (assert (H : i < length (fig ++ [Trace n [] []])) by (apply nth_error_Some; congruence); rewrite app_length in H; cbn in H; lia). subst i.
             rewrite nth_error_app2, Nat.sub_diag in E by lia. injection E as <-. cbn [tr_name tr_x tr_y]. split; [|auto].
             intros H. rewrite stream_updates_none; [split; reflexivity|reflexivity|].
             intros X. apply In_nth_error in X. destruct X as (k & X). apply (H k).
             ++ rewrite Len. apply nth_error_Some. congruence.
             ++ apply nth_error_app_in. exact X.
        * intros m. rewrite U. apply D.
      + apply (jinv_same j); auto.
        * cbn [jv_figs]. rewrite set_nth_length by exact L. exact A.
        * cbn [jv_figs]. rewrite nth_set_nth by exact L. destruct (Nat.eqb_spec f g); [lia|reflexivity].
        * rewrite added_snoc. destruct (Nat.eqb_spec g f); [lia|]. apply app_nil_r.
    - assert (Ad : added f (b ++ [JUpdate g n y x]) = added f b) by (rewrite added_snoc, app_nil_r; reflexivity).
      assert (Other : g <> f -> forall m, stream_updates f m false (b ++ [JUpdate g n y x]) = stream_updates f m false b).
      { intros N m. rewrite stream_updates_snoc. apply Nat.eqb_neq in N. rewrite N, andb_false_r. apply app_nil_r. }
      destruct (Nat.ltb_spec g (length (jv_figs j))) as [L|L].
      2:{ apply (jinv_same j); auto. apply Other. lia. }
      unfold update_stream. destruct (trace_index n (nth g (jv_figs j) [])) as [i0|] eqn:T.
      2:{ apply (jinv_same j); auto. destruct (Nat.eq_dec g f) as [->|N]; [|exact (Other N)].
          intros m. rewrite stream_updates_snoc. apply trace_index_none in T. rewrite B in T. cbn [orb].
          destruct (Nat.eqb f f && String.eqb n m) eqn:E; [|rewrite andb_false_r; apply app_nil_r].
          apply andb_true_iff in E. destruct E as [_ E]. apply String.eqb_eq in E. subst m.
          destruct (existsb (String.eqb n) (added f b)) eqn:X; [|apply app_nil_r]. exfalso. apply T. apply existsb_exists in X. destruct X as (z & Z & W). apply String.eqb_eq in W. subst z. exact Z. }
      destruct (buf_get g n (jv_bufs j)) as [ys xs] eqn:BG. destruct (Nat.eq_dec g f) as [->|N].
      + apply trace_index_some in T. destruct T as (T1 & T2 & T3). rewrite B in T2, T3.
        assert (In_n : existsb (String.eqb n) (added f b) = true).
        { apply existsb_exists. exists n. split; [apply nth_error_In in T2; exact T2|apply String.eqb_refl]. }
        assert (Un : stream_updates f n false (b ++ [JUpdate f n y x]) = stream_updates f n false b ++ [(x, y)]).
        { rewrite stream_updates_snoc, In_n, Nat.eqb_refl, String.eqb_refl. reflexivity. }
        assert (Um : forall m, m <> n -> stream_updates f m false (b ++ [JUpdate f n y x]) = stream_updates f m false b).
        { intros m M. rewrite stream_updates_snoc. apply not_eq_sym, String.eqb_neq in M. rewrite M, !andb_false_r. apply app_nil_r. }
        rewrite D in BG. injection BG as By Bx.
        unfold jinv. cbn [jv_figs jv_bufs]. rewrite set_nth_length by exact L. rewrite nth_set_nth by exact L. rewrite Nat.eqb_refl, Ad.
        set (fig := nth f (jv_figs j) []) in *. split; [exact A|split; [|split]].
        * rewrite map_set_nth; [exact B|exact T1|]. rewrite B. exact T2.
        * intros i t E. rewrite nth_error_set_nth in E by exact T1. cbv zeta. destruct (Nat.eqb_spec i i0) as [->|Ni].
          -- injection E as <-. cbn [tr_name tr_x tr_y]. rewrite Un, !map_app. cbn [map fst snd]. split.
             ++ intros _. rewrite <- Bx, <- By, !DebugProofs.dq_append_lastn. split; reflexivity.
             ++ intros (k & K & X). exfalso. exact (T3 k K X).
          -- destruct (C i t E) as [C1 C2]. cbv zeta in *. destruct (string_dec (tr_name t) n) as [En|En]; [|rewrite (Um _ En); split; assumption].
             split; [|exact C2]. intros H. exfalso.
             assert (Ei : nth_error (added f b) i = Some n) by (rewrite <- B, nth_error_map, E; cbn; congruence).
             destruct (Nat.lt_ge_cases i i0) as [Q|Q]; [exact (T3 i Q Ei)|]. apply (H i0); [lia|]. congruence.
        * intros m. rewrite buf_get_set, Nat.eqb_refl. cbn [andb]. destruct (String.eqb_spec m n) as [->|M].
          -- rewrite Un, !map_app. cbn [map fst snd]. rewrite <- Bx, <- By, !DebugProofs.dq_append_lastn. reflexivity.
          -- rewrite (Um m M). apply D.
      + apply (jinv_same j); auto.
        * cbn [jv_figs]. rewrite set_nth_length by exact L. exact A.
        * cbn [jv_figs]. rewrite nth_set_nth by exact L. destruct (Nat.eqb_spec f g); [lia|reflexivity].
        * intros m. cbn [jv_bufs]. rewrite buf_get_set. destruct (Nat.eqb_spec f g); [lia|reflexivity].
  Qed.
End Fig.
Lemma jviz_before max ops : let j := fold_left (jviz_do max) ops (Jviz [] []) in
  length (jv_figs j) = length (filter is_create ops) /\ forall f n, length (jv_figs j) <= f -> buf_get f n (jv_bufs j) = ([], []).
Proof.
  cbv zeta. induction ops as [|o ops IH] using rev_ind; [split; reflexivity|].
  rewrite fold_left_app, filter_app, app_length. cbn [fold_left]. set (j := fold_left _ ops _) in *. destruct IH as [I1 I2].
  destruct o as [|g n|g n y x]; cbn [jviz_do filter is_create length].
  - cbn [create_plot jv_figs jv_bufs]. rewrite app_length. cbn [length]. split; [lia|]. intros f n H. apply I2. lia.
  - rewrite Nat.add_0_r. destruct (Nat.ltb_spec g (length (jv_figs j))) as [L|L]; [|split; assumption].
    cbn [add_stream jv_figs jv_bufs]. rewrite set_nth_length by exact L. split; assumption.
  - rewrite Nat.add_0_r. destruct (Nat.ltb_spec g (length (jv_figs j))) as [L|L]; [|split; assumption].
    unfold update_stream. destruct (trace_index n _); [|split; assumption]. destruct (buf_get g n (jv_bufs j)) as [ys xs].
    cbn [jv_figs jv_bufs]. rewrite set_nth_length by exact L. split; [exact I1|]. intros f m H. rewrite buf_get_set.
    destruct (Nat.eqb_spec f g); [lia|]. apply I2. exact H.
Qed.
Lemma jviz_spec max before after f : f = length (filter is_create before) ->
  let fig := nth f (jv_figs (jviz_run max (before ++ JCreate :: after))) [] in
  map tr_name fig = added f after /\
  forall i t, nth_error fig i = Some t ->
    let u := stream_updates f (tr_name t) false after in
    ((forall k, k < i -> nth_error (added f after) k <> Some (tr_name t)) -> tr_x t = lastn max (map fst u) /\ tr_y t = lastn max (map snd u)) /\
    ((exists k, k < i /\ nth_error (added f after) k = Some (tr_name t)) -> tr_x t = [] /\ tr_y t = []).
Proof.
  intros F. cbv zeta. unfold jviz_run. rewrite fold_left_app. cbn [fold_left jviz_do].
  destruct (jviz_before max before) as [L Z]. cbv zeta in *. set (j := fold_left _ before _) in *.
  assert (I : jinv max f (create_plot j) []).
  { unfold jinv. cbn [create_plot jv_figs jv_bufs]. rewrite app_length. cbn [length]. rewrite app_nth2 by lia. rewrite F, <- L, Nat.sub_diag. cbn [nth].
    split; [lia|split; [reflexivity|split]].
    - intros [|i] t H; discriminate.
    - intros n. apply Z. lia. }
  assert (G : forall after j b, jinv max f j b -> jinv max f (fold_left (jviz_do max) after j) (b ++ after)).
  { clear. induction after as [|o r IH]; intros j b H; [rewrite app_nil_r; exact H|]. cbn [fold_left].
    replace (b ++ o :: r) with ((b ++ [o]) ++ r) by (rewrite <- app_assoc; reflexivity). apply IH, jinv_step. exact H. }
  destruct (G after _ _ I) as (_ & B & C & _). cbn [app] in *. split; [exact B|exact C].
Qed.

(** ** controls *)
Section Controls.
  Context {A : Type}.
  Lemma initial_spec name (params : list (string * (string * A))) : NoDup (map fst params) ->
    sget name (map (fun p => (fst p, snd (snd p))) (filter (fun p => known_type (fst (snd p))) params)) = initial name params.
  Proof.
    intros ND. unfold initial. induction params as [|[k [ty v]] r IH]; [reflexivity|]. cbn [map fst] in ND. inversion ND as [|? ? NI ND']; subst.
    specialize (IH ND'). cbn [filter find fst snd]. rewrite (String.eqb_sym k name).
    destruct (String.eqb_spec name k) as [->|N].
    - change (existsb (String.eqb ty) ["float"; "int"; "bool"; "dropdown"]%string) with (known_type ty). destruct (known_type ty); cbn [map sget fst snd].
      + rewrite String.eqb_refl. reflexivity.
      + apply sget_none. intros I. apply NI. rewrite map_map in I. cbn [fst] in I. apply in_map_iff in I. destruct I as (p & <- & I). apply filter_In in I. apply in_map. tauto.
    - destruct (known_type ty); cbn [map sget fst snd]; [|exact IH]. apply String.eqb_neq in N. rewrite N. exact IH.
  Qed.
  Lemma nodup_filter_map (params : list (string * (string * A))) g : NoDup (map fst params) -> NoDup (map fst (filter g params)).
  Proof.
    induction params as [|p r IH]; intros H; [exact H|]. cbn [map] in H. inversion H as [|? ? NI ND]; subst. cbn [filter].
    destruct (g p); [|apply IH; exact ND]. cbn [map]. constructor; [|apply IH; exact ND]. intros I. apply NI. apply in_map_iff in I. destruct I as (q & <- & I). apply filter_In in I. apply in_map. tauto.
  Qed.
  Lemma controls_spec (ops : list (control_op A)) : panels_ok ops ->
    (forall name, sget name (ct_values (control_run ops)) = current_value name ops) /\ ct_callbacks (control_run ops) = callbacks_in ops.
  Proof.
    unfold control_run, current_value. induction ops as [|o ops IH] using rev_ind; intros OK; [split; reflexivity|].
    destruct IH as [I1 I2]; [intros ps I; apply OK, in_or_app; auto|].
    unfold callbacks_in. rewrite fold_left_app, flat_map_app. cbn [fold_left flat_map]. fold (callbacks_in ops). rewrite app_nil_r. set (c := fold_left control_do ops _) in *. split.
    - intros name. rewrite fold_left_app. cbn [fold_left]. rewrite <- I1. destruct o as [ps|cb|n v]; cbn [control_do next_value].
      + assert (ND : NoDup (map fst ps)) by (apply OK, in_or_app; right; left; reflexivity).
        cbn [create_panel snd ct_values]. rewrite sget_dict_update.
        * rewrite initial_spec by exact ND. destruct (initial name ps); reflexivity.
        * rewrite map_map. cbn [fst]. apply nodup_filter_map. exact ND.
      + reflexivity.
      + unfold change. destruct (String.eqb_spec n name) as [->|N].
        * destruct (sget name (ct_values c)) as [w|] eqn:E; [|exact E]. cbn [ct_values]. rewrite sget_sset, String.eqb_refl. reflexivity.
        * destruct (sget n (ct_values c)) as [w|]; [|reflexivity]. cbn [ct_values]. rewrite sget_sset. apply not_eq_sym, String.eqb_neq in N. rewrite N. reflexivity.
    - destruct o as [ps|cb|n v]; cbn [control_do]; rewrite ?app_nil_r.
      + exact I2.
      + cbn [add_callback ct_callbacks]. rewrite I2. reflexivity.
      + unfold change. destruct (sget n (ct_values c)); exact I2.
  Qed.
  Lemma change_calls (ops : list (control_op A)) name v : panels_ok ops ->
    let before := control_run ops in let after := control_run (ops ++ [CChange name v]) in
    ct_calls after = ct_calls before ++ (match current_value name ops with Some _ => map (fun cb => (cb, ct_values after)) (callbacks_in ops) | None => [] end).
  Proof.
    intros OK. cbv zeta. destruct (controls_spec ops OK) as [V C]. rewrite <- (V name). unfold control_run in *. rewrite fold_left_app. cbn [fold_left control_do].
    unfold change. destruct (sget name (ct_values _)); [|rewrite app_nil_r; reflexivity]. cbn [ct_calls ct_values]. rewrite C. reflexivity.
  Qed.
  Lemma quiet_calls (ops : list (control_op A)) o : (forall name v, o <> CChange name v) -> ct_calls (control_run (ops ++ [o])) = ct_calls (control_run ops).
  Proof. intros N. unfold control_run. rewrite fold_left_app. cbn [fold_left]. destruct o; try reflexivity. destruct (N name v eq_refl). Qed.
End Controls.

(** ** animated flow *)
Lemma prefix_data c r : String.prefix " Data" (String c (String.append r " Data")) = String.prefix " Data" (String c r).
Proof.
  cbn [String.prefix]. destruct (ascii_dec " " c); [|reflexivity].
  do 4 (destruct r as [|? r]; [reflexivity|]; cbn [String.append String.prefix];
        match goal with |- (if ?b then _ else _) = _ => destruct b; [|reflexivity] end).
  destruct r; reflexivity.
Qed.
Lemma prefix_len p s : String.prefix p s = true -> String.length p <= String.length s.
Proof.
  revert s. induction p as [|c p IH]; intros [|d s] H; cbn in *; try lia; try discriminate. destruct (ascii_dec c d); [|discriminate]. apply IH in H. lia.
Qed.
Lemma remove_trailing s : forall k, k <= String.length s -> remove_all " Data" k (String.append s " Data") = remove_all " Data" k s.
Proof.
  induction s as [|c r IH]; intros k K; [replace k with 0 by (cbn in K; lia); reflexivity|].
  change (String.append (String c r) " Data") with (String c (String.append r " Data")). cbn [String.length] in K.
  destruct k as [|k]; [|cbn [remove_all]; apply IH; lia].
  cbn [remove_all]. rewrite prefix_data. destruct (String.prefix " Data" (String c r)) eqn:P.
  - apply IH. apply prefix_len in P. cbn in P |- *. lia.
  - rewrite IH by lia. reflexivity.
Qed.
Lemma remove_length pat s : forall k, String.length (remove_all pat k s) <= String.length s.
Proof.
  induction s as [|c r IH]; intros k; [auto|]. cbn [remove_all]. destruct k as [|k]; [|cbn [String.length]; specialize (IH k); lia].
  destruct (String.prefix pat (String c r)); cbn [String.length]; [specialize (IH (String.length pat - 1))|specialize (IH 0)]; lia.
Qed.
Lemma remove_none pat s : Debug.contains pat s = false -> remove_all pat 0 s = s.
Proof.
  intros H. assert (N : ~ exists a b, s = String.append a (String.append pat b)) by (rewrite <- GraphProofs2.contains_iff; congruence). clear H.
  induction s as [|c r IH]; [reflexivity|]. cbn [remove_all]. destruct (String.prefix pat (String c r)) eqn:P.
  - exfalso. apply N. apply GraphProofs2.prefix_iff in P. destruct P as (b & ->). exists EmptyString, b. reflexivity.
  - f_equal. apply IH. intros (a & b & ->). apply N. exists (String c a), b. reflexivity.
Qed.
Lemma remove_some pat s : pat <> EmptyString -> Debug.contains pat s = true -> String.length (remove_all pat 0 s) < String.length s.
Proof.
  intros NE H. apply GraphProofs2.contains_iff in H. destruct H as (a & b & ->). induction a as [|c a IH].
  - cbn [String.append]. destruct pat as [|p pat]; [congruence|]. cbn [String.append remove_all].
    assert (P : String.prefix (String p pat) (String p (String.append pat b)) = true) by (apply GraphProofs2.prefix_iff; exists b; reflexivity).
    rewrite P. cbn [String.length]. apply Nat.lt_succ_r, remove_length.
  - cbn [String.append remove_all]. destruct (String.prefix pat _); cbn [String.length]; [apply Nat.lt_succ_r, remove_length|lia].
Qed.
Lemma group_all m l : sget m (group_points (fun p => Some (pt_step p, pt_value p)) l) = match module_points m l with [] => None | x => Some x end.
Proof.
  rewrite group_spec. unfold module_points.
  assert (E : flat_map (fun p => if of_module m p then [(pt_step p, pt_value p)] else []) l = map (fun p => (pt_step p, pt_value p)) (filter (of_module m) l)).
  { induction l as [|p l IH]; [reflexivity|]. cbn [flat_map filter]. rewrite IH. destruct (of_module m p); reflexivity. }
  rewrite E. reflexivity.
Qed.
Lemma flow_round_map k ts : flow_round k ts = map (fun t => FlowTrace (ft_name t)
   (match module_points (remove_all " Data" 0 (ft_name t)) (get_recent 50 k) with [] => ft_points t | x => x end)) ts.
Proof.
  unfold flow_round. apply map_ext. intros [n l]. cbn [ft_name ft_points]. rewrite group_all. destruct (module_points _ _); reflexivity.
Qed.
Lemma flow_round_names k ts : map ft_name (flow_round k ts) = map ft_name ts.
Proof. rewrite flow_round_map, map_map. reflexivity. Qed.
Lemma flow_spec k stage l : Debug.contains " Data" stage = false ->
  flow_round k [FlowTrace (String.append stage " Data") l] =
  [FlowTrace (String.append stage " Data") (match module_points stage (get_recent 50 k) with [] => l | x => x end)].
Proof. intros H. rewrite flow_round_map. cbn [map ft_name ft_points]. rewrite remove_trailing by lia. rewrite remove_none by exact H. reflexivity. Qed.
Lemma flow_refuted stage : Debug.contains " Data" stage = true -> exists other, other <> stage /\ forall k l,
  flow_round k [FlowTrace (String.append stage " Data") l] =
  [FlowTrace (String.append stage " Data") (match module_points other (get_recent 50 k) with [] => l | x => x end)].
Proof.
  intros H. exists (remove_all " Data" 0 stage). split.
  - intros E. apply remove_some in H; [|discriminate]. rewrite E in H. lia.
  - intros k l. rewrite flow_round_map. cbn [map ft_name ft_points]. rewrite remove_trailing by lia. reflexivity.
Qed.

Lemma flow_app k a b : flow_round k (a ++ b) = flow_round k a ++ flow_round k b.
Proof. unfold flow_round. apply map_app. Qed.
Lemma flow_animation ks stages : Forall (fun s => Debug.contains " Data" s = false) stages ->
  fold_left (fun ts k => flow_round k ts) ks (flow_traces stages) =
  map (fun s => FlowTrace (String.append s " Data")
         (fold_left (fun l k => match module_points s (get_recent 50 k) with [] => l | x => x end) ks [])) stages.
Proof.
  intros HS. induction ks as [|k ks IH] using rev_ind; [reflexivity|].
  rewrite fold_left_app, IH. cbn [fold_left]. clear IH.
  induction HS as [|s r H HS IH]; [reflexivity|]. cbn [map].
  match goal with |- flow_round k (?a :: ?b) = _ => change (a :: b) with ([a] ++ b) end.
  rewrite flow_app, IH, flow_spec by exact H. rewrite fold_left_app. reflexivity.
Qed.
Lemma panel_names {A : Type} (ps : list (string * (string * A))) c :
  fst (create_panel ps c) =
  flat_map (fun p => if in_dec string_dec (fst (snd p)) ["float"; "int"; "bool"; "dropdown"]%string then [fst p] else []) ps.
Proof.
  unfold create_panel. cbn [fst]. induction ps as [|[k [ty v]] ps IH]; [reflexivity|].
  cbn [filter flat_map fst snd]. unfold known_type at 1.
  destruct (in_dec string_dec ty _) as [H|H]; destruct (existsb (String.eqb ty) _) eqn:E.
  - cbn [map app fst]. rewrite IH. reflexivity.
  - exfalso. assert (T : existsb (String.eqb ty) ["float"; "int"; "bool"; "dropdown"]%string = true)
      by (apply existsb_exists; exists ty; split; [exact H|apply String.eqb_refl]). congruence.
  - exfalso. apply existsb_exists in E as [x [Hx Ex]]. apply String.eqb_eq in Ex. subst x. exact (H Hx).
  - exact IH.
Qed.
