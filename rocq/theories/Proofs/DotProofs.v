(** The DOT document, read back. *)
From Coq Require Import String Ascii List Bool Arith Lia.
From Verif Require Import Model.Graph Model.Dot Spec.DotSpec Proofs.GraphProofs.
Import ListNotations.
Local Open Scope string_scope.
Local Open Scope list_scope.

Lemma sapp_assoc a b c : ((a ++ b) ++ c = a ++ (b ++ c))%string.
Proof. apply append_assoc. Qed.
Lemma sapp_nil a : (a ++ "" = a)%string.
Proof. apply append_nil_r. Qed.
Lemma snoc_app a c s : (snoc a c ++ s = a ++ String c s)%string.
Proof. unfold snoc. rewrite sapp_assoc. reflexivity. Qed.

(** ** Tokens *)
Lemma tok_text : forall n t, String.length t < n -> verbatim t = true -> forall a r,
  tokens (InText a) (t ++ String DQ r)%string = cons_token (TText (a ++ t)%string) (tokens Between r).
Proof.
  induction n as [|n IH]; intros t L V a r; [lia|].
  destruct t as [|c t]; cbn [append tokens]; [cbn; now rewrite sapp_nil|].
  cbn [verbatim] in V. destruct (Ascii.eqb c DQ) eqn:E1; [discriminate|].
  destruct (Ascii.eqb c BS) eqn:E2.
  - destruct t as [|d t]; [discriminate|]. apply andb_true_iff in V. destruct V as [V V3]. apply andb_true_iff in V. destruct V as [V1 V2].
    apply negb_true_iff in V1, V2. cbn [append tokens]. rewrite V1, V2.
    cbn in L. rewrite IH; [|lia|exact V3]. apply Ascii.eqb_eq in E2. subst c.
    rewrite !snoc_app. reflexivity.
  - cbn in L. rewrite IH; [|lia|exact V]. rewrite snoc_app. reflexivity.
Qed.

Lemma tok_text_none : forall n t, String.length t < n -> verbatim t = false -> forall a,
  (forall x, tokens (InText a) (t ++ String DQ "")%string = Some [TText x] -> x <> (a ++ t)%string).
Proof.
  induction n as [|n IH]; intros t L V a x H; [lia|].
  destruct t as [|c t]; cbn [append tokens] in H; [discriminate V|].
  cbn [verbatim] in V. cbn in L. destruct (Ascii.eqb c DQ) eqn:E1.
  - clear V. destruct (tokens Between _) as [[|]|] eqn:E; try discriminate. exfalso.
    revert E. clear. intros E.
    assert (G : forall s p, tokens p (s ++ String DQ "")%string = Some [] -> False).
    { clear. induction s as [|c s IH]; intros p H.
      - destruct p; discriminate.
      - cbn [append tokens] in H.
        destruct p; repeat match goal with H : context [if ?b then _ else _] |- _ => destruct b end; try discriminate;
          try (eapply IH; exact H);
          unfold cons_token in H; destruct (tokens _ _) in H; discriminate. }
    eauto.
  - destruct (Ascii.eqb c BS) eqn:E2.
    + destruct t as [|d t]; [discriminate H|]. cbn [append tokens] in H. cbn in L.
      apply Ascii.eqb_eq in E2. subst c.
      destruct (Ascii.eqb d DQ) eqn:E3.
      * apply Ascii.eqb_eq in E3. subst d.
        (* what is read starts with a double quote *)
        assert (G : forall s p q, tokens (InText p) s = Some [TText q] -> exists r, q = (p ++ r)%string).
        { clear. assert (G2 : forall s, (forall p q, tokens (InText p) s = Some [TText q] -> exists r, q = (p ++ r)%string) /\
             (forall p q, tokens (AfterBackslash p) s = Some [TText q] -> exists r, q = (p ++ r)%string)).
          { induction s as [|c s [I1 I2]]; split; intros p q H; cbn [tokens] in H; try discriminate.
            - destruct (Ascii.eqb c DQ). { destruct (tokens Between s) as [[|]|]; try discriminate. injection H as <-. exists "". now rewrite sapp_nil. }
              destruct (Ascii.eqb c BS); [apply I2 in H; exact H|]. apply I1 in H. destruct H as [r ->]. rewrite snoc_app. eauto.
            - destruct (Ascii.eqb c DQ); [apply I1 in H; destruct H as [r ->]; rewrite snoc_app; eauto|].
              destruct (Ascii.eqb c NL); [apply I1 in H; exact H|]. apply I1 in H. destruct H as [r ->]. rewrite !snoc_app. eauto. }
          intros s. apply G2. }
        apply G in H. destruct H as [r ->]. rewrite snoc_app. intros E. apply append_inj_l in E. discriminate.
      * destruct (Ascii.eqb d NL) eqn:E4.
        -- (* shorter than the text *)
           assert (G : forall s, (forall p q, tokens (InText p) (s ++ String DQ "")%string = Some [TText q] -> String.length q <= String.length p + String.length s) /\
             (forall p q, tokens (AfterBackslash p) (s ++ String DQ "")%string = Some [TText q] -> String.length q <= String.length p + 1 + String.length s)).
           { clear. assert (SN : forall p c, String.length (snoc p c) = Datatypes.S (String.length p)).
             { intros p c. unfold snoc. induction p; cbn; auto. }
             induction s as [|c s [I1 I2]]; split; intros p q H; cbn [append tokens] in H.
             - cbn in H. injection H as <-. lia.
             - cbn in H. discriminate.
             - cbn [String.length]. destruct (Ascii.eqb c DQ). { destruct (tokens Between _) as [[|]|]; try discriminate. injection H as <-. lia. }
               destruct (Ascii.eqb c BS); [apply I2 in H; lia|]. apply I1 in H. rewrite SN in H. lia.
             - cbn [String.length]. destruct (Ascii.eqb c DQ); [apply I1 in H; rewrite SN in H; lia|].
               destruct (Ascii.eqb c NL); [apply I1 in H; lia|]. apply I1 in H. rewrite !SN in H. lia. }
           destruct (G t) as [G1 _]. apply G1 in H. intros ->. 
           assert (SA : forall u v, String.length (u ++ v)%string = String.length u + String.length v) by (induction u; cbn; auto).
           rewrite SA in H. cbn in H. lia.
        -- cbn in V. assert (V' : verbatim t = false) by (destruct d as [[] [] [] [] [] [] [] []]; exact V || (rewrite E3 in V; cbn in V; exact V) ).
           apply IH in H; [|lia|exact V']. rewrite !snoc_app in H. exact H.
    + apply IH in H; [|lia|exact V]. rewrite snoc_app in H. exact H.
Qed.

Lemma quoted_exact t : tokens Between (quoted t) = Some [TText t] <-> verbatim t = true.
Proof.
  assert (E : quoted t = String DQ (t ++ String DQ "")%string) by reflexivity. rewrite E.
  change (tokens Between (String DQ (t ++ String DQ "")%string)) with (tokens (InText "") (t ++ String DQ "")%string).
  destruct (verbatim t) eqn:V.
  - rewrite (tok_text (Datatypes.S (String.length t))) by (auto; lia). split; auto.
  - split; [|discriminate]. intros H. exfalso.
    eapply (tok_text_none (Datatypes.S (String.length t))); [|exact V|exact H|reflexivity]. lia.
Qed.

(** A text read as a sequence of tokens, whatever follows. *)
Definition lexes (s : string) (ts : list token) : Prop :=
  forall r, tokens Between (s ++ r)%string = option_map (app ts) (tokens Between r).
Lemma lexes_app s t a b : lexes s a -> lexes t b -> lexes (s ++ t)%string (a ++ b).
Proof.
  intros H1 H2 r. rewrite sapp_assoc, H1, H2. destruct (tokens Between r); cbn; [now rewrite app_assoc|reflexivity].
Qed.
Lemma lexes_nil : lexes "" [].
Proof. intros r. cbn [append]. destruct (tokens Between r); reflexivity. Qed.
Lemma lexes_quoted t : verbatim t = true -> lexes (quoted t) [TText t].
Proof.
  intros V r. assert (E : (quoted t ++ r = String DQ (t ++ String DQ r))%string).
  { unfold quoted, cat. cbn [String.concat]. cbn. rewrite sapp_assoc. reflexivity. }
  rewrite E. change (tokens Between (String DQ (t ++ String DQ r)%string)) with (tokens (InText "") (t ++ String DQ r)%string).
  rewrite (tok_text (Datatypes.S (String.length t))) by (auto; lia). destruct (tokens Between r); reflexivity.
Qed.
Lemma cat_cons s l : cat (s :: l) = (s ++ cat l)%string.
Proof. unfold cat. destruct l; cbn; [now rewrite sapp_nil|reflexivity]. Qed.
Inductive all_lex : list string -> list token -> Prop :=
| al_nil : all_lex [] []
| al_cons s l a b : lexes s a -> all_lex l b -> all_lex (s :: l) (a ++ b).
Lemma lexes_cat l ts : all_lex l ts -> lexes (cat l) ts.
Proof. induction 1; [apply lexes_nil|]. rewrite cat_cons. apply lexes_app; auto. Qed.
Lemma lexes_concat sep l tss : lexes sep [] -> Forall2 lexes l tss -> lexes (String.concat sep l) (List.concat tss).
Proof.
  intros Hs. induction 1 as [|s ts l tss H1 H2 IH]; cbn [List.concat]; [apply lexes_nil|].
  destruct l as [|s' l].
  - inversion H2; subst. cbn [List.concat]. rewrite app_nil_r. exact H1.
  - change (String.concat sep (s :: s' :: l)) with (s ++ sep ++ String.concat sep (s' :: l))%string.
    apply lexes_app; auto. apply (lexes_app sep _ []); auto.
Qed.
Fixpoint run (p : place) (s : string) : option (list token * place) :=
  match s with
  | EmptyString => Some ([], p)
  | String c r =>
      let also t x := match x with Some (l, q) => Some (t :: l, q) | None => None end in
      let start := if blank c then run Between r
                   else if word_char c then run (InWord (String c "")) r
                   else if Ascii.eqb c DQ then run (InText "") r
                   else if Ascii.eqb c "-" then run AfterDash r
                   else if symbol c then also (TSym c) (run Between r)
                   else None in
      match p with
      | Between => start
      | InWord w => if word_char c then run (InWord (snoc w c)) r else also (TWord w) start
      | InText t => if Ascii.eqb c DQ then also (TText t) (run Between r)
                    else if Ascii.eqb c BS then run (AfterBackslash t) r
                    else run (InText (snoc t c)) r
      | AfterBackslash t => if Ascii.eqb c DQ then run (InText (snoc t c)) r
                            else if Ascii.eqb c NL then run (InText t) r
                            else run (InText (snoc (snoc t BS) c)) r
      | AfterDash => if Ascii.eqb c ">" then also TArrow (run Between r) else None
      end
  end.
Lemma run_tokens r : forall s p ts q, run p s = Some (ts, q) -> tokens p (s ++ r)%string = option_map (app ts) (tokens q r).
Proof.
  induction s as [|c s IH]; intros p ts q H.
  - cbn in H. injection H as <- <-. cbn [append]. destruct (tokens p r); reflexivity.
  - assert (A : forall t x y, match run x s with Some (l, q0) => Some (t :: l, q0) | None => None end = Some (ts, y) ->
       cons_token t (tokens x (s ++ r)%string) = option_map (app ts) (tokens y r)).
    { intros t x y E. destruct (run x s) as [[l q0]|] eqn:E2; [|discriminate]. injection E as <- <-.
      rewrite (IH _ _ _ E2). destruct (tokens q0 r); reflexivity. }
    assert (ST : forall ts, (if blank c then run Between s
                   else if word_char c then run (InWord (String c "")) s
                   else if Ascii.eqb c DQ then run (InText "") s
                   else if Ascii.eqb c "-" then run AfterDash s
                   else if symbol c then match run Between s with Some (l, q) => Some (TSym c :: l, q) | None => None end
                   else None) = Some (ts, q) ->
       (if blank c then tokens Between (s ++ r)%string
                   else if word_char c then tokens (InWord (String c "")) (s ++ r)%string
                   else if Ascii.eqb c DQ then tokens (InText "") (s ++ r)%string
                   else if Ascii.eqb c "-" then tokens AfterDash (s ++ r)%string
                   else if symbol c then cons_token (TSym c) (tokens Between (s ++ r)%string)
                   else None) = option_map (app ts) (tokens q r)).
    { intros ts' E. destruct (blank c); [auto|]. destruct (word_char c); [auto|]. destruct (Ascii.eqb c DQ); [auto|].
      destruct (Ascii.eqb c "-"); [auto|]. destruct (symbol c); [|discriminate].
      destruct (run Between s) as [[l q0]|] eqn:E2; [|discriminate]. injection E as <- <-.
      rewrite (IH _ _ _ E2). destruct (tokens q0 r); reflexivity. }
    cbn [append run tokens] in *. destruct p.
    + apply ST. exact H.
    + destruct (word_char c) eqn:W; [auto|].
      match type of H with match ?x with _ => _ end = _ => destruct x as [[l q0]|] eqn:E2; [|discriminate] end.
      injection H as <- ->. try rewrite W in ST. cbn iota in ST. rewrite (ST l eq_refl). destruct (tokens q r); reflexivity.
    + destruct (Ascii.eqb c DQ); [auto|]. destruct (Ascii.eqb c BS); auto.
    + destruct (Ascii.eqb c DQ); [auto|]. destruct (Ascii.eqb c NL); auto.
    + destruct (Ascii.eqb c ">"); [auto|discriminate].
Qed.
Ltac lex_const :=
  match goal with |- lexes ?s ?ts => intros r; apply (run_tokens r s Between ts Between); vm_compute; reflexivity end.

Definition node_tokens (o : options) (kv : string * pnode) : list token :=
  [TText (fst kv); TSym "["; TWord "label"; TSym "="; TText (create_label o (snd kv)); TSym ",";
   TWord "color"; TSym "="; TText (p_color (snd kv)); TSym ",";
   TWord "style"; TSym "="; TText (p_style (snd kv)); TSym ",";
   TWord "shape"; TSym "="; TText (p_shape (snd kv)); TSym "]"].
Definition sc : token := TSym ";".
Definition node_safe (o : options) (kv : string * pnode) : Prop :=
  verbatim (fst kv) = true /\ verbatim (create_label o (snd kv)) = true /\ verbatim (p_color (snd kv)) = true /\
  verbatim (p_style (snd kv)) = true /\ verbatim (p_shape (snd kv)) = true.
Lemma node_line_lexes o kv : node_safe o kv -> lexes (node_line o kv) (node_tokens o kv ++ [sc]).
Proof.
  intros (V1 & V2 & V3 & V4 & V5). destruct kv as [id n]. cbn [fst snd] in *.
  unfold node_line, node_tokens. cbn [fst snd].
  match goal with |- lexes (cat ?l) ?ts => assert (H : all_lex l ts); [|apply lexes_cat; exact H] end.
  refine (al_cons _ _ [] _ _ _); [lex_const|].
  refine (al_cons _ _ [TText id] _ (lexes_quoted _ V1) _).
  refine (al_cons _ _ [TSym "["; TWord "label"; TSym "="] _ _ _); [lex_const|].
  refine (al_cons _ _ [TText _] _ (lexes_quoted _ V2) _).
  refine (al_cons _ _ [TSym ","; TWord "color"; TSym "="] _ _ _); [lex_const|].
  refine (al_cons _ _ [TText _] _ (lexes_quoted _ V3) _).
  refine (al_cons _ _ [TSym ","; TWord "style"; TSym "="] _ _ _); [lex_const|].
  refine (al_cons _ _ [TText _] _ (lexes_quoted _ V4) _).
  refine (al_cons _ _ [TSym ","; TWord "shape"; TSym "="] _ _ _); [lex_const|].
  refine (al_cons _ _ [TText _] _ (lexes_quoted _ V5) _).
  refine (al_cons _ _ [TSym "]"; sc] [] _ al_nil). lex_const.
Qed.

Definition edge_attrs (e : pedge) : list (string * string) :=
  (if String.eqb (q_label e) "" then [] else [("label", q_label e)])
  ++ (if String.eqb (q_color e) "#424242" then [] else [("color", q_color e)])
  ++ (if String.eqb (q_style e) "solid" then [] else [("style", q_style e)]).
Definition attr_tokens (kv : string * string) : list token := [TWord (fst kv); TSym "="; TText (snd kv)].
Fixpoint attrs_tokens (l : list (string * string)) : list token :=
  match l with [] => [] | [kv] => attr_tokens kv | kv :: r => attr_tokens kv ++ TSym "," :: attrs_tokens r end.
Definition edge_tokens (e : pedge) : list token :=
  [TText (q_source e); TArrow; TText (q_target e)] ++
  match edge_attrs e with [] => [] | _ => TSym "[" :: attrs_tokens (edge_attrs e) ++ [TSym "]"] end.
Definition edge_safe (e : pedge) : Prop :=
  verbatim (q_source e) = true /\ verbatim (q_target e) = true /\ verbatim (q_label e) = true /\
  verbatim (q_color e) = true /\ verbatim (q_style e) = true.

Lemma edge_line_lexes e : edge_safe e -> lexes (edge_line e) (edge_tokens e ++ [sc]).
Proof.
  intros (V1 & V2 & V3 & V4 & V5). unfold edge_line, edge_tokens.
  assert (LL : lexes (cat ["label="; quoted (q_label e)]) [TWord "label"; TSym "="; TText (q_label e)]).
  { apply lexes_cat. refine (al_cons _ _ [TWord "label"; TSym "="] _ _ _); [lex_const|].
    refine (al_cons _ _ [TText _] [] (lexes_quoted _ V3) al_nil). }
  assert (LC : lexes (cat ["color="; quoted (q_color e)]) [TWord "color"; TSym "="; TText (q_color e)]).
  { apply lexes_cat. refine (al_cons _ _ [TWord "color"; TSym "="] _ _ _); [lex_const|].
    refine (al_cons _ _ [TText _] [] (lexes_quoted _ V4) al_nil). }
  assert (LS : lexes (cat ["style="; quoted (q_style e)]) [TWord "style"; TSym "="; TText (q_style e)]).
  { apply lexes_cat. refine (al_cons _ _ [TWord "style"; TSym "="] _ _ _); [lex_const|].
    refine (al_cons _ _ [TText _] [] (lexes_quoted _ V5) al_nil). }
  assert (COMMA : lexes ", " [TSym ","]) by lex_const.
  assert (C2 : forall s t a b, lexes s a -> lexes t b -> lexes (String.concat ", " [s; t]) (a ++ TSym "," :: b)).
  { intros s t a b Hs Ht. change (String.concat ", " [s; t]) with (s ++ (", " ++ t))%string.
    apply lexes_app; auto. apply (lexes_app ", " t [TSym ","] b); auto. }
  assert (C3 : forall s t u a b c, lexes s a -> lexes t b -> lexes u c -> lexes (String.concat ", " [s; t; u]) (a ++ TSym "," :: b ++ TSym "," :: c)).
  { intros s t u a b c Hs Ht Hu. change (String.concat ", " [s; t; u]) with (s ++ (", " ++ String.concat ", " [t; u]))%string.
    apply lexes_app; auto. apply (lexes_app ", " _ [TSym ","] (b ++ TSym "," :: c)); auto. }
  assert (CORE : forall (attrs : list string) (l : list (string * string)),
    (attrs = [] /\ l = [] \/ attrs <> [] /\ l <> [] /\ lexes (String.concat ", " attrs) (attrs_tokens l)) ->
    lexes (cat ["  "; quoted (q_source e); " -> "; quoted (q_target e);
       match attrs with [] => "" | _ => cat [" ["; String.concat ", " attrs; "]"] end; ";"])
      (([TText (q_source e); TArrow; TText (q_target e)] ++ match l with [] => [] | _ => TSym "[" :: attrs_tokens l ++ [TSym "]"] end) ++ [sc])).
  { intros attrs l H. rewrite <- app_assoc. apply lexes_cat.
    refine (al_cons _ _ [] _ _ _); [lex_const|].
    refine (al_cons _ _ [TText _] _ (lexes_quoted _ V1) _).
    refine (al_cons _ _ [TArrow] _ _ _); [lex_const|].
    refine (al_cons _ _ [TText _] _ (lexes_quoted _ V2) _).
    apply al_cons; [|refine (al_cons _ _ [sc] [] _ al_nil); lex_const].
    destruct H as [[-> ->]|(H1 & H2 & H3)]; [apply lexes_nil|].
    destruct attrs as [|s attrs]; [congruence|]. destruct l as [|kv l]; [congruence|].
    apply lexes_cat. refine (al_cons _ _ [TSym "["] _ _ _); [lex_const|].
    apply al_cons; [exact H3|]. refine (al_cons _ _ [TSym "]"] [] _ al_nil). lex_const. }
  cbv zeta. refine (CORE _ (edge_attrs e) _). unfold edge_attrs.
  destruct (String.eqb (q_label e) ""), (String.eqb (q_color e) "#424242"), (String.eqb (q_style e) "solid");
    [left; split; reflexivity|right; split; [discriminate|]; split; [discriminate|]; cbn [app attrs_tokens attr_tokens fst snd] ..].
  - exact LS.
  - exact LC.
  - exact (C2 _ _ _ _ LC LS).
  - exact LL.
  - exact (C2 _ _ _ _ LL LS).
  - exact (C2 _ _ _ _ LL LC).
  - exact (C3 _ _ _ _ _ _ LL LC LS).
Qed.

(** ** Statements *)
Lemma split_pieces {A} (sep : A -> bool) (c : A) (sts : list (list A)) (tail : list A) :
  sep c = true -> Forall (fun st => forallb (fun x => negb (sep x)) st = true) sts ->
  forallb (fun x => negb (sep x)) tail = true ->
  split_at sep (List.concat (map (fun st => st ++ [c]) sts) ++ tail) = sts ++ [tail].
Proof.
  intros Hc Hs Ht.
  assert (T : split_at sep tail = [tail]).
  { clear Hs. induction tail as [|x t IH]; cbn in *; auto. apply andb_true_iff in Ht. destruct Ht as [Hx Ht].
    apply negb_true_iff in Hx. rewrite Hx, IH; auto. }
  induction Hs as [|st sts H1 H2 IH]; cbn [map List.concat app]; auto.
  rewrite <- !app_assoc. cbn [app]. revert IH. generalize (List.concat (map (fun st => st ++ [c]) sts) ++ tail).
  intros rest IH. induction st as [|x st IHs]; cbn [app split_at].
  - rewrite Hc, IH. reflexivity.
  - cbn in H1. apply andb_true_iff in H1. destruct H1 as [Hx H1]. apply negb_true_iff in Hx. rewrite Hx.
    rewrite (IHs H1). reflexivity.
Qed.

Definition node_def (o : options) (kv : string * pnode) : statement :=
  NodeDef (fst kv) [("label", create_label o (snd kv)); ("color", p_color (snd kv)); ("style", p_style (snd kv));
                    ("shape", p_shape (snd kv))].
Definition edge_def (e : pedge) : statement := EdgeDef (q_source e) (q_target e) (edge_attrs e).
Lemma node_parses o kv : statement_of (node_tokens o kv) = Some (node_def o kv).
Proof. destruct kv. reflexivity. Qed.
Lemma edge_parses e : statement_of (edge_tokens e) = Some (edge_def e).
Proof.
  unfold edge_tokens, edge_def, edge_attrs.
  destruct (String.eqb (q_label e) ""), (String.eqb (q_color e) "#424242"), (String.eqb (q_style e) "solid"); reflexivity.
Qed.
Definition head_statements : list statement :=
  [Setting "rankdir" "LR"; Defaults "node" [("fontname", "Arial"); ("fontsize", "10")];
   Defaults "edge" [("fontname", "Arial"); ("fontsize", "8")]].
Definition head_tokens : list (list token) :=
  [[TWord "rankdir"; TSym "="; TWord "LR"];
   [TWord "node"; TSym "["; TWord "fontname"; TSym "="; TText "Arial"; TSym ","; TWord "fontsize"; TSym "="; TWord "10"; TSym "]"];
   [TWord "edge"; TSym "["; TWord "fontname"; TSym "="; TText "Arial"; TSym ","; TWord "fontsize"; TSym "="; TWord "8"; TSym "]"]].

Lemma all_some_map {A B} (f : A -> option B) (l : list A) (g : A -> B) :
  (forall a, In a l -> f a = Some (g a)) -> all_some (map f l) = Some (map g l).
Proof.
  induction l as [|a l IH]; intros H; [reflexivity|]. cbn. rewrite (H a) by (left; auto).
  rewrite IH; auto. intros b Hb. apply H. right; auto.
Qed.
Lemma all_some_app {A} (l m : list (option A)) a b : all_some l = Some a -> all_some m = Some b -> all_some (l ++ m) = Some (a ++ b).
Proof.
  revert a. induction l as [|[x|] l IH]; intros a H1 H2; cbn in *; try discriminate.
  - injection H1 as <-. exact H2.
  - destruct (all_some l) as [l'|]; [|discriminate]. injection H1 as <-. rewrite (IH _ eq_refl H2). reflexivity.
Qed.
Lemma forallb_node o kv : forallb (fun x => negb (is_sym ";" x)) (node_tokens o kv) = true.
Proof. reflexivity. Qed.
Lemma forallb_edge e : forallb (fun x => negb (is_sym ";" x)) (edge_tokens e) = true.
Proof.
  unfold edge_tokens, edge_attrs.
  destruct (String.eqb (q_label e) ""), (String.eqb (q_color e) "#424242"), (String.eqb (q_style e) "solid"); reflexivity.
Qed.

Lemma content_tokens o nodes edges : Forall (node_safe o) nodes -> Forall edge_safe edges ->
  tokens Between (dot_content o nodes edges) =
  Some (TWord "digraph" :: TWord "WAX_ML_Pipeline" :: TSym "{" ::
        List.concat (map (fun st => st ++ [sc]) (head_tokens ++ map (node_tokens o) nodes ++ map edge_tokens edges)) ++ [TSym "}"]).
Proof.
  intros Hn He.
  assert (L : lexes (dot_content o nodes edges)
     (List.concat ([[TWord "digraph"; TWord "WAX_ML_Pipeline"; TSym "{"]] ++ map (fun st => st ++ [sc]) head_tokens ++ [[]] ++
        map (fun kv => node_tokens o kv ++ [sc]) nodes ++ [[]] ++ map (fun e => edge_tokens e ++ [sc]) edges ++ [[TSym "}"]]))).
  { apply lexes_concat; [lex_const|]. unfold dot_lines.
    change (map (fun st => st ++ [sc]) head_tokens) with
      [nth 0 head_tokens [] ++ [sc]; nth 1 head_tokens [] ++ [sc]; nth 2 head_tokens [] ++ [sc]]. cbn [app].
    constructor; [lex_const|]. constructor; [lex_const|]. constructor; [lex_const|]. constructor; [lex_const|].
    constructor; [apply lexes_nil|].
    apply Forall2_app.
    { clear He. induction Hn; cbn; constructor; auto. apply node_line_lexes; auto. }
    constructor; [apply lexes_nil|]. apply Forall2_app.
    { clear Hn. induction He; cbn; constructor; auto. apply edge_line_lexes; auto. }
    constructor; [lex_const|constructor]. }
  specialize (L ""). rewrite sapp_nil in L. rewrite L. cbn [tokens option_map]. rewrite app_nil_r.
  rewrite !concat_app, !map_app, !concat_app, !map_map. cbn. rewrite ?app_nil_r, <- ?app_assoc. cbn [app]. reflexivity.
Qed.

Lemma read_content o nodes edges : Forall (node_safe o) nodes -> Forall edge_safe edges ->
  read_dot (dot_content o nodes edges) =
  Some (Digraph "WAX_ML_Pipeline" (head_statements ++ map (node_def o) nodes ++ map edge_def edges)).
Proof.
  intros Hn He. unfold read_dot. rewrite content_tokens by auto. cbv iota beta.
  set (sts := head_tokens ++ map (node_tokens o) nodes ++ map edge_tokens edges).
  change (TSym ";") with sc.
  rewrite (split_pieces (is_sym ";") sc sts [TSym "}"]); [|reflexivity| |reflexivity].
  2:{ unfold sts. apply Forall_app. split; [repeat constructor|]. apply Forall_app. split; apply Forall_map, Forall_forall; intros;
      [apply forallb_node|apply forallb_edge]. }
  cbv zeta. rewrite last_last, removelast_last.
  assert (E : all_some (map statement_of sts) = Some (head_statements ++ map (node_def o) nodes ++ map edge_def edges)).
  { unfold sts. rewrite !map_app, !map_map. apply all_some_app; [reflexivity|]. apply all_some_app; apply all_some_map; intros;
      [apply node_parses|apply edge_parses]. }
  rewrite E. reflexivity.
Qed.
