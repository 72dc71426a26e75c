(** The labels of the DOT document, and shapes as texts. *)
From Coq Require Import String Ascii List Bool Arith Lia Decimal DecimalString.
From Verif Require Import Model.FlaxOptim Model.Graph Model.Dot Spec.GraphSpec Spec.DotSpec Proofs.GraphProofs Proofs.DotProofs.
Import ListNotations.
Local Open Scope string_scope.
Local Open Scope list_scope.

Lemma label_expected o n : create_label o n = expected_label o n.
Proof.
  unfold create_label, expected_label.
  assert (L : cat [backslash; "n"] = break) by reflexivity. rewrite L. cbv zeta. apply f_equal.
  match goal with |- [?a] ++ ?l = ?b :: ?m => change (a :: l = b :: m); apply (f_equal2 cons) end.
  - unfold shown_name. destruct (le_lt_dec _ _) as [H|H];
      [apply Nat.ltb_ge in H|apply Nat.ltb_lt in H]; rewrite H; [reflexivity|]. rewrite cat_cons. reflexivity.
  - f_equal.
    { destruct (string_dec _ _) as [E|E]; [apply String.eqb_eq in E|apply String.eqb_neq in E]; rewrite E; reflexivity. }
    assert (B : forall l l', l = l' -> match l with [] => [] | _ => [cat [break; String.concat break l]] end = block l').
    { intros [|s r] l' <-; [reflexivity|]. unfold block. rewrite cat_cons. reflexivity. }
    f_equal.
    + destruct (include_shapes o); [|reflexivity]. apply B.
      assert (F : filter (fun kv : string * list elem => match snd kv with [] => false | _ => true end) (p_inputs n) =
                  filter (fun kv => negb (length (snd kv) =? 0)%nat) (p_inputs n)).
      { apply filter_ext. intros [? []]; reflexivity. }
      rewrite F. reflexivity.
    + destruct (include_parameters o); [|reflexivity]. apply B. reflexivity.
Qed.
Lemma node_def_statement o kv : node_def o kv = node_statement o kv.
Proof. unfold node_def, node_statement. rewrite label_expected. reflexivity. Qed.
Lemma edge_def_statement e : edge_def e = edge_statement e.
Proof.
  unfold edge_def, edge_statement, edge_attrs. f_equal. cbn [filter fst snd].
  destruct (string_dec "label" "label") as [_|N]; [|congruence]. destruct (string_dec "color" "label") as [N|_]; [discriminate N|].
  destruct (string_dec "color" "color") as [_|N]; [|congruence]. destruct (string_dec "style" "label") as [N|_]; [discriminate N|].
  destruct (string_dec "style" "color") as [N|_]; [discriminate N|].
  repeat match goal with |- context [string_dec ?a ?b] => destruct (string_dec a b); try discriminate end;
  repeat match goal with
  | H : ?a = ?b |- context [String.eqb ?a ?b] => rewrite (proj2 (String.eqb_eq a b) H)
  | H : ?a <> ?b |- context [String.eqb ?a ?b] => rewrite (proj2 (String.eqb_neq a b) H)
  end; try reflexivity; congruence.
Qed.
Lemma verbatim_node_safe o kv : verbatim_node o kv -> node_safe o kv.
Proof.
  intros H. unfold verbatim_node in H. rewrite Forall_forall in H. unfold node_safe. rewrite label_expected.
  repeat split; apply H; cbn; auto 10.
Qed.
Lemma verbatim_edge_safe e : verbatim_edge e -> edge_safe e.
Proof. intros H. unfold verbatim_edge in H. rewrite Forall_forall in H. repeat split; apply H; cbn; auto 10. Qed.

Lemma read_back o nodes edges :
  Forall (verbatim_node o) nodes -> Forall verbatim_edge edges ->
  read_dot (dot_content o nodes edges) =
  Some (Digraph "WAX_ML_Pipeline" (settings ++ map (node_statement o) nodes ++ map edge_statement edges)).
Proof.
  intros Hn He. rewrite read_content.
  - change head_statements with settings. rewrite (map_ext _ _ (node_def_statement o)), (map_ext _ _ edge_def_statement). reflexivity.
  - eapply Forall_impl; [|exact Hn]. apply verbatim_node_safe.
  - eapply Forall_impl; [|exact He]. apply verbatim_edge_safe.
Qed.

(** ** Simple texts *)
Lemma has_no_app c a b : has_no c (a ++ b)%string <-> has_no c a /\ has_no c b.
Proof. unfold has_no. rewrite los_append, in_app_iff. tauto. Qed.
Lemma simple_app a b : simple (a ++ b)%string <-> simple a /\ simple b.
Proof. unfold simple. rewrite !has_no_app. tauto. Qed.
Lemma has_no_cons c d s : has_no c (String d s) <-> d <> c /\ has_no c s.
Proof. unfold has_no. cbn. tauto. Qed.
Lemma simple_cons d s : simple (String d s) <-> d <> DQ /\ d <> BS /\ d <> NL /\ simple s.
Proof. unfold simple. rewrite !has_no_cons. tauto. Qed.
Lemma simple_nil : simple "".
Proof. repeat split; intros []. Qed.
Ltac simple_const := match goal with |- simple ?s => let s' := eval vm_compute in s in change (simple s') end; repeat (apply simple_cons; split; [discriminate|split; [discriminate|split; [discriminate|]]]); apply simple_nil.
Ltac hn_const := match goal with |- has_no ?c ?s => let s' := eval vm_compute in s in change (has_no c s') end; repeat (apply has_no_cons; split; [discriminate|]); intros [].
Lemma simple_cons' d s : d <> DQ -> d <> BS -> d <> NL -> simple s -> simple (String d s).
Proof. intros. apply simple_cons. auto. Qed.
Lemma eqb_ne a b : a <> b -> Ascii.eqb a b = false.
Proof. apply Ascii.eqb_neq. Qed.
Lemma simple_verbatim s : simple s -> verbatim s = true.
Proof.
  induction s as [|c s IH]; intros H; [reflexivity|]. apply simple_cons in H. destruct H as (H1 & H2 & H3 & H4).
  cbn [verbatim]. rewrite (eqb_ne _ _ H1), (eqb_ne _ _ H2). auto.
Qed.
Lemma verbatim_app : forall n a b, String.length a < n -> verbatim a = true -> verbatim b = true -> verbatim (a ++ b)%string = true.
Proof.
  induction n as [|n IH]; intros a b L Ha Hb; [lia|]. destruct a as [|c a]; [exact Hb|]. cbn in L.
  cbn [append verbatim] in *. destruct (Ascii.eqb c DQ); [discriminate|]. destruct (Ascii.eqb c BS).
  - destruct a as [|d a]; [discriminate|]. cbn [append]. cbn in L.
    apply andb_true_iff in Ha. destruct Ha as [Ha Hv]. rewrite Ha. cbn [andb]. apply IH; auto. lia.
  - apply IH; auto. lia.
Qed.
Lemma vapp a b : verbatim a = true -> verbatim b = true -> verbatim (a ++ b)%string = true.
Proof. apply (verbatim_app (Datatypes.S (String.length a))). lia. Qed.
Lemma verbatim_concat sep l : verbatim sep = true -> Forall (fun s => verbatim s = true) l -> verbatim (String.concat sep l) = true.
Proof.
  intros Hs. induction 1 as [|s l H1 H2 IH]; [reflexivity|]. destruct l as [|s' l]; [exact H1|].
  change (String.concat sep (s :: s' :: l)) with (s ++ sep ++ String.concat sep (s' :: l))%string.
  apply vapp; auto. apply vapp; auto.
Qed.
Lemma simple_concat sep l : simple sep -> Forall simple l -> simple (String.concat sep l).
Proof.
  intros Hs. induction 1 as [|s l H1 H2 IH]; [apply simple_nil|]. destruct l as [|s' l]; [exact H1|].
  change (String.concat sep (s :: s' :: l)) with (s ++ sep ++ String.concat sep (s' :: l))%string.
  rewrite !simple_app. auto.
Qed.
Lemma substring_simple s : simple s -> forall n, simple (substring 0 n s).
Proof.
  induction s as [|c s IH]; intros H [|n]; cbn [substring]; auto using simple_nil.
  apply simple_cons in H. apply simple_cons'; try tauto. apply IH; tauto.
Qed.
Lemma digits_simple d : simple (NilZero.string_of_uint d) /\ has_no "'" (NilZero.string_of_uint d).
Proof.
  assert (G : forall d, simple (NilEmpty.string_of_uint d) /\ has_no "'" (NilEmpty.string_of_uint d)).
  { clear d. induction d; cbn [NilEmpty.string_of_uint];
      [split; [apply simple_nil|intros []]|
       split; [apply simple_cons'; try discriminate; apply IHd|apply has_no_cons; split; [discriminate|apply IHd]] ..]. }
  destruct d; try apply G. split; [simple_const|hn_const].
Qed.

(** ** Shapes as texts *)
Definition breaks (s : string) : Prop :=
  exists u k w, s = (u ++ String DQ (k ++ String ":" w))%string /\ verbatim u = true /\ simple k /\ has_no "'" k.
Lemma has_char_in c s : has_char c s = true <-> In c (list_ascii_of_string s).
Proof.
  induction s as [|d s IH]; cbn; [split; [discriminate|tauto]|]. rewrite orb_true_iff, IH, Ascii.eqb_eq. intuition.
Qed.
Lemma escaped_app q a b : escaped q (a ++ b)%string = (escaped q a ++ escaped q b)%string.
Proof. induction a as [|c a IH]; cbn; [reflexivity|]. destruct (_ || _); cbn; rewrite IH; reflexivity. Qed.
Lemma escaped_same q s : has_no BS s -> has_no q s -> escaped q s = s.
Proof.
  induction s as [|c s IH]; intros H1 H2; [reflexivity|]. apply has_no_cons in H1, H2. cbn [escaped].
  change (ascii_of_nat 92) with BS.
  rewrite (eqb_ne c BS), (eqb_ne c q); try tauto. cbn. rewrite IH; tauto.
Qed.
Lemma escaped_verbatim : forall n s, String.length s < n -> verbatim s = true -> verbatim (escaped "'" s) = true.
Proof.
  induction n as [|n IH]; intros s L V; [lia|]. destruct s as [|c s]; [reflexivity|].
  cbn [escaped]. change (ascii_of_nat 92) with BS. cbn [verbatim] in V. cbn in L. destruct (Ascii.eqb c DQ) eqn:E1; [discriminate|].
  destruct (Ascii.eqb c BS) eqn:E2.
  - apply Ascii.eqb_eq in E2. subst c. cbn [orb]. destruct s as [|d s]; [discriminate|].
    apply andb_true_iff in V. destruct V as [V V3]. apply andb_true_iff in V. destruct V as [V1 V2].
    cbn [escaped]. change (ascii_of_nat 92) with BS. cbn in L.
    destruct (Ascii.eqb d BS) eqn:E3; [|destruct (Ascii.eqb d "'") eqn:E4]; cbn [orb].
    + apply Ascii.eqb_eq in E3. subst d. change (verbatim (escaped "'" s) = true). apply IH; [lia|exact V3].
    + apply Ascii.eqb_eq in E4. subst d. change (verbatim (escaped "'" s) = true). apply IH; [lia|exact V3].
    + change (verbatim (String d (escaped "'" s)) = true). cbn [verbatim]. rewrite E3.
      apply negb_true_iff in V1. rewrite V1. apply IH; [lia|exact V3].
  - destruct (Ascii.eqb c "'") eqn:E3; cbn [orb].
    + apply Ascii.eqb_eq in E3. subst c. change (verbatim (escaped "'" s) = true). apply IH; [lia|exact V].
    + cbn [verbatim]. rewrite E1, E2. apply IH; [lia|exact V].
Qed.

Lemma repr_simple s : simple s -> has_no "'" s -> simple (repr_str s).
Proof.
  intros H1 H2. unfold repr_str. destruct (has_char "'" s) eqn:E; [apply has_char_in in E; contradiction|]. cbn [andb].
  rewrite escaped_same by (auto; apply H1). rewrite !cat_cons. cbn [append].
  apply simple_cons'; try discriminate. apply simple_app. split; [exact H1|simple_const].
Qed.
Lemma repr_breaks_plain k t : simple k -> has_no "'" k ->
  simple (k ++ String ":" t)%string -> ~ has_no "'" (k ++ String ":" t)%string -> breaks (repr_str (k ++ String ":" t)%string).
Proof.
  intros Hk Hq Hs Ha. unfold repr_str. change (ascii_of_nat 34) with DQ.
  destruct (has_char "'" _) eqn:E; [|exfalso; apply Ha; unfold has_no; intros I; apply has_char_in in I; congruence].
  destruct (has_char DQ _) eqn:E2; [apply has_char_in in E2; exfalso; apply (proj1 Hs); exact E2|]. cbn [andb negb].
  rewrite escaped_app, (escaped_same DQ k) by apply Hk. rewrite !cat_cons.
  exists "", k. eexists. split; [|auto]. cbn [append]. f_equal. rewrite append_assoc. f_equal.
  cbn [escaped]. change (Ascii.eqb ":" (ascii_of_nat 92) || Ascii.eqb ":" DQ) with false. cbn iota. cbn [append]. reflexivity.
Qed.
Lemma repr_breaks_deep k t : simple k -> has_no "'" k -> breaks t -> breaks (repr_str (k ++ String ":" (String " " t))%string).
Proof.
  intros Hk Hq (u & k' & w & -> & V & Hk' & Hq'). unfold repr_str. change (ascii_of_nat 34) with DQ.
  set (s := (k ++ _)%string).
  assert (D : has_char DQ s = true).
  { apply has_char_in. unfold s. rewrite los_append. apply in_app_iff. right. cbn [list_ascii_of_string]. right. right. rewrite los_append. apply in_app_iff. right. left. reflexivity. }
  rewrite D. rewrite andb_false_r. unfold s. clear s D.
  replace (k ++ String ":" (String " " (u ++ String DQ (k' ++ String ":" w))))%string
    with ((k ++ ": " ++ u) ++ String DQ (k' ++ String ":" w))%string by (rewrite !append_assoc; reflexivity).
  rewrite escaped_app. exists (String "'" (escaped "'" (k ++ ": " ++ u)%string)), k'. eexists. split; [|split; [|split; auto]].
  - rewrite !cat_cons. cbn [append]. f_equal. rewrite append_assoc. f_equal.
    cbn [escaped]. change (Ascii.eqb DQ (ascii_of_nat 92) || Ascii.eqb DQ "'") with false. cbn iota.
    rewrite escaped_app, (escaped_same _ k') by (auto; apply Hk'). cbn [append]. f_equal. rewrite append_assoc. f_equal.
    cbn [escaped]. change (Ascii.eqb ":" (ascii_of_nat 92) || Ascii.eqb ":" "'") with false. cbn iota. cbn [append]. reflexivity.
  - change (verbatim (escaped "'" (k ++ ": " ++ u)%string) = true). eapply escaped_verbatim; [apply Nat.lt_succ_diag_r|].
    apply vapp; [apply simple_verbatim; auto|]. exact V.
Qed.
Lemma breaks_before a s : verbatim a = true -> breaks s -> breaks (a ++ s)%string.
Proof.
  intros V (u & k & w & -> & V' & H). exists (a ++ u)%string, k, w. split; [now rewrite append_assoc|]. split; [apply vapp; auto|auto].
Qed.
Lemma breaks_after a s : breaks s -> breaks (s ++ a)%string.
Proof.
  intros (u & k & w & -> & V' & H). exists u, k, (w ++ a)%string. split; [|auto].
  rewrite append_assoc. cbn [append]. rewrite append_assoc. reflexivity.
Qed.
Lemma breaks_concat l : Forall (fun s => simple s \/ breaks s) l -> Exists breaks l -> breaks (String.concat ", " l).
Proof.
  induction 1 as [|s l H1 H2 IH]; intros E; [inversion E|].
  destruct l as [|s' l].
  - inversion E as [? ? B|? ? B]; subst; [exact B|inversion B].
  - change (String.concat ", " (s :: s' :: l)) with (s ++ ", " ++ String.concat ", " (s' :: l))%string.
    destruct H1 as [H1|H1]; [|apply breaks_after; exact H1].
    inversion E as [? ? B|? ? B]; subst; [apply breaks_after; exact B|].
    apply breaks_before; [apply simple_verbatim; exact H1|]. apply breaks_before; [reflexivity|]. auto.
Qed.
Lemma str_tuple_simple l : Forall (fun e => simple (repr_elem e)) l -> simple (str_tuple l).
Proof.
  intros H. destruct l as [|e [|e' l]]; [simple_const| |].
  - unfold str_tuple. rewrite !cat_cons. cbn [append]. apply simple_cons'; try discriminate. apply simple_app.
    split; [exact (Forall_inv H)|simple_const].
  - unfold str_tuple. rewrite !cat_cons. apply simple_app. split; [simple_const|]. apply simple_app.
    split; [apply simple_concat; [simple_const|apply Forall_map; exact H]|simple_const].
Qed.
Lemma str_tuple_breaks l : Forall (fun e => simple (repr_elem e) \/ breaks (repr_elem e)) l ->
  Exists (fun e => breaks (repr_elem e)) l -> breaks (str_tuple l).
Proof.
  intros H E. destruct l as [|e [|e' l]]; [inversion E| |].
  - unfold str_tuple. rewrite !cat_cons. apply breaks_before; [reflexivity|]. apply breaks_after.
    inversion E as [? ? B|? ? B]; subst; [exact B|inversion B].
  - unfold str_tuple. rewrite !cat_cons. apply breaks_before; [reflexivity|]. apply breaks_after.
    apply breaks_concat; [apply Forall_map; exact H|apply Exists_map; exact E].
Qed.

Fixpoint example_ind' (P : example -> Prop) (ha : forall d, P (XArray d)) (hs : forall n, P (XSeq n)) (ho : P XOther)
  (hd : forall d, Forall (fun kv => P (snd kv)) d -> P (XDict d)) (x : example) : P x :=
  match x with
  | XArray d => ha d
  | XSeq n => hs n
  | XOther => ho
  | XDict d => hd d ((fix go (l : list (string * example)) : Forall (fun kv => P (snd kv)) l :=
                        match l with
                        | [] => Forall_nil _
                        | kv :: r => Forall_cons kv (example_ind' P ha hs ho hd (snd kv)) (go r)
                        end) d)
  end.
Definition dict_elem (kv : string * example) : elem := EStr (cat [fst kv; ": "; str_tuple (get_shape (snd kv))]).
Lemma dict_text kv : cat [fst kv; ": "; str_tuple (get_shape (snd kv))] = (fst kv ++ String ":" (String " " (str_tuple (get_shape (snd kv)))))%string.
Proof. rewrite !cat_cons. cbn [append]. rewrite append_nil_r. reflexivity. Qed.
Lemma keyed_simple k t : simple k -> simple t -> simple (k ++ String ":" (String " " t))%string.
Proof. intros Hk H. apply simple_app. split; auto. apply simple_cons'; try discriminate. apply simple_cons'; try discriminate. exact H. Qed.
Lemma elem_cases kv : simple (fst kv) -> has_no "'" (fst kv) ->
  (simple (str_tuple (get_shape (snd kv))) \/ breaks (str_tuple (get_shape (snd kv)))) ->
  (simple (str_tuple (get_shape (snd kv))) /\ has_no "'" (str_tuple (get_shape (snd kv))) /\ simple (repr_elem (dict_elem kv))) \/
  breaks (repr_elem (dict_elem kv)).
Proof.
  intros Hk Hq [H|H]; cbn [repr_elem dict_elem]; rewrite dict_text.
  - set (t := str_tuple _) in *. destruct (has_char "'" t) eqn:E.
    + right. apply repr_breaks_plain; auto.
      * apply keyed_simple; auto.
      * rewrite has_no_app, !has_no_cons. apply has_char_in in E. unfold has_no. tauto.
    + left. assert (N : has_no "'" t) by (intros I; apply has_char_in in I; congruence). split; [exact H|split; [exact N|]].
      apply repr_simple.
      * apply keyed_simple; auto.
      * rewrite has_no_app, !has_no_cons. repeat split; auto; discriminate.
  - right. apply repr_breaks_deep; auto.
Qed.
Lemma simple_dec s : {simple s} + {~ simple s}.
Proof.
  destruct (has_char DQ s) eqn:E1; [right; intros [H _]; apply H, has_char_in; auto|].
  destruct (has_char BS s) eqn:E2; [right; intros (_ & H & _); apply H, has_char_in; auto|].
  destruct (has_char NL s) eqn:E3; [right; intros (_ & _ & H); apply H, has_char_in; auto|].
  left. repeat split; intros I; apply has_char_in in I; congruence.
Qed.
Lemma breaks_not_simple s : breaks s -> ~ simple s.
Proof. intros (u & k & w & -> & _) S. apply simple_app in S. destruct S as [_ S]. apply simple_cons in S. tauto. Qed.
Lemma shape_cases x : clean x -> simple (str_tuple (get_shape x)) \/ breaks (str_tuple (get_shape x)).
Proof.
  induction x as [d|n| |d IH] using example_ind'; intros C.
  - left. apply str_tuple_simple. cbn [get_shape]. apply Forall_map, Forall_forall. intros m _. apply digits_simple.
  - left. apply str_tuple_simple. cbn [get_shape]. apply Forall_cons; [apply digits_simple|apply Forall_nil].
  - left. simple_const.
  - inversion C as [| | |? HC]; subst.
    assert (G : Forall (fun e => simple (repr_elem e) \/ breaks (repr_elem e)) (get_shape (XDict d))).
    { cbn [get_shape]. apply Forall_map. rewrite Forall_forall in IH |- *. intros [k v] I.
      destruct (HC _ _ I) as (H1 & H2 & H3). destruct (elem_cases (k, v) H1 H2 (IH _ I H3)) as [H|H]; [left; apply H|right; exact H]. }
    destruct (Exists_dec (fun e => ~ simple (repr_elem e)) (get_shape (XDict d))) as [E|E].
    { intros e. destruct (simple_dec (repr_elem e)); tauto. }
    + right. apply str_tuple_breaks; auto. rewrite Exists_exists in E |- *. destruct E as (e & I & N).
      exists e. split; auto. rewrite Forall_forall in G. destruct (G _ I); tauto.
    + left. apply str_tuple_simple. rewrite Forall_forall in G |- *. intros e I. destruct (G _ I) as [S|B]; auto.
      exfalso. apply E. apply Exists_exists. exists e. split; auto. apply breaks_not_simple; auto.
Qed.
Lemma cat_in c s l : In s l -> In c (list_ascii_of_string s) -> In c (list_ascii_of_string (cat l)).
Proof.
  induction l as [|t l IH]; [tauto|]. rewrite cat_cons, los_append, in_app_iff. intros [->|I] H; auto.
Qed.
Lemma concat_in c sep s l : In s l -> In c (list_ascii_of_string s) -> In c (list_ascii_of_string (String.concat sep l)).
Proof.
  induction l as [|t l IH]; [tauto|]. intros I H. destruct l as [|t' l].
  - destruct I as [->|[]]. exact H.
  - change (String.concat sep (t :: t' :: l)) with (t ++ sep ++ String.concat sep (t' :: l))%string.
    rewrite !los_append, !in_app_iff. destruct I as [->|I]; auto.
Qed.
Lemma str_tuple_in c e l : In e l -> In c (list_ascii_of_string (repr_elem e)) -> In c (list_ascii_of_string (str_tuple l)).
Proof.
  intros I H. destruct l as [|e1 [|e2 l]]; [destruct I| |]; unfold str_tuple.
  - destruct I as [->|[]]. eapply cat_in; [right; left; reflexivity|exact H].
  - eapply cat_in; [right; left; reflexivity|]. eapply concat_in; [|exact H]. apply in_map; auto.
Qed.
Lemma repr_quote s : In "'"%char (list_ascii_of_string (repr_str s)) \/ In DQ (list_ascii_of_string (repr_str s)).
Proof.
  unfold repr_str. destruct (_ && _); rewrite cat_cons; [right|left]; left; reflexivity.
Qed.
Lemma nonempty_dict_quote e : e <> [] -> ~ simple (str_tuple (get_shape (XDict e))) \/ ~ has_no "'" (str_tuple (get_shape (XDict e))).
Proof.
  destruct e as [|kv e]; [congruence|]. intros _.
  destruct (repr_quote (cat [fst kv; ": "; str_tuple (get_shape (snd kv))])) as [H|H]; [right|left].
  - intros N. apply N. eapply str_tuple_in; [left; reflexivity|]. exact H.
  - intros [N _]. apply N. eapply str_tuple_in; [left; reflexivity|]. exact H.
Qed.
Lemma nested_breaks x : clean x -> nested x -> breaks (str_tuple (get_shape x)).
Proof.
  intros C (d & k & e & -> & I & N). inversion C as [| | |? HC]; subst.
  assert (G : Forall (fun e => simple (repr_elem e) \/ breaks (repr_elem e)) (get_shape (XDict d))).
  { cbn [get_shape]. apply Forall_map, Forall_forall. intros [k' v] I'. destruct (HC _ _ I') as (H1 & H2 & H3).
    destruct (elem_cases (k', v) H1 H2 (shape_cases _ H3)) as [H|H]; [left; apply H|right; exact H]. }
  apply str_tuple_breaks; auto. apply Exists_exists. exists (dict_elem (k, XDict e)). split.
  - cbn [get_shape]. apply (in_map dict_elem) in I. exact I.
  - destruct (HC _ _ I) as (H1 & H2 & H3).
    destruct (elem_cases (k, XDict e) H1 H2 (shape_cases _ H3)) as [(S & Q & _)|B]; [|exact B].
    destruct (nonempty_dict_quote e N); contradiction.
Qed.
