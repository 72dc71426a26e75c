(** The export of an analyzed function. *)
From Coq Require Import String Ascii List Bool Arith Lia.
From Verif Require Import Model.FlaxOptim Model.Graph Model.Dot Spec.GraphSpec Spec.DotSpec Proofs.GraphProofs Proofs.GraphProofs2 Proofs.DotProofs Proofs.DotProofs2.
From Verif Require Model.Debug.
Import ListNotations.
Local Open Scope string_scope.
Local Open Scope list_scope.

Definition nsimple (kv : string * node) : Prop := simple (fst kv) /\ simple (n_name (snd kv)) /\ simple (n_type (snd kv)).
Definition esimple (e : edge) : Prop := simple (e_source e) /\ simple (e_target e) /\ simple (e_label e).
Definition gsimple (g : graph) : Prop := Forall nsimple (g_nodes g) /\ Forall esimple (g_edges g).
Lemma sset_Forall {A} (P : string * A -> Prop) k v l : P (k, v) -> Forall P l -> Forall P (sset k v l).
Proof.
  intros Hv H. induction H as [|[k' v'] l H1 H2 IH]; cbn; [constructor; auto|].
  destruct (String.eqb k k') eqn:E; [apply String.eqb_eq in E; subst k'|]; constructor; auto.
Qed.
Lemma type_simple k d : simple (infer_module_type k d).
Proof.
  unfold infer_module_type.
  repeat match goal with |- context [if ?b then _ else _] => destruct b end; simple_const.
Qed.
Lemma path_simple p k : simple p -> simple k -> simple (node_path p k).
Proof.
  intros Hp Hk. unfold node_path. destruct (String.eqb p ""); auto. apply simple_app. split; auto.
  apply simple_cons'; try discriminate. exact Hk.
Qed.
Lemma extract_simple v : simple_keys v -> forall p k g, simple p -> simple k -> gsimple g -> gsimple (extract_item p k v g).
Proof.
  induction v as [|d IH] using param_ind'; intros W p k g Hp Hk Hg; cbn [extract_item]; [exact Hg|].
  inversion W as [|? HW]; subst. cbv zeta. pose proof (path_simple _ _ Hp Hk) as Hpath.
  destruct (looks_like_module d).
  - destruct Hg as [Hn He]. split; cbn [g_nodes g_edges].
    + apply sset_Forall; auto. repeat split; cbn [fst snd n_name n_type]; auto; try apply Hpath; try apply Hk; apply type_simple.
    + destruct (_ && _); auto. apply Forall_app. split; auto. constructor; auto. split; [exact Hp|split; [exact Hpath|simple_const]].
  - assert (G : forall l, incl l d -> forall g, gsimple g -> gsimple (fold_left (fun g kv => extract_item (node_path p k) (fst kv) (snd kv) g) l g)).
    { induction l as [|[k' v'] l IHl]; intros Hl g' Hg'; cbn [fold_left fst snd]; auto.
      assert (I : In (k', v') d) by (apply Hl; left; auto). destruct (HW _ _ I) as [W1 W2].
      apply IHl; [intros x Hx; apply Hl; right; auto|]. eapply IH; eauto. }
    apply G; auto. apply incl_refl.
Qed.
Lemma analyze_simple t : simple_target t -> gsimple (analyze t empty_graph).
Proof.
  assert (E : gsimple empty_graph) by (split; constructor).
  destruct t as [name ps|name]; cbn [simple_target analyze].
  - intros [Hn Hk]. inversion Hk as [|? HW]; subst. unfold extract_modules.
    assert (G : forall l, incl l ps -> forall g, gsimple g -> gsimple (fold_left (fun g kv => extract_item "" (fst kv) (snd kv) g) l g)).
    { induction l as [|[k v] l IHl]; intros Hl g' Hg'; cbn [fold_left fst snd]; auto.
      assert (I : In (k, v) ps) by (apply Hl; left; auto). destruct (HW _ _ I) as [W1 W2].
      apply IHl; [intros x Hx; apply Hl; right; auto|]. apply extract_simple; auto. apply simple_nil. }
    destruct (G ps (incl_refl _) _ E) as [G1 G2]. split; cbn [g_nodes g_edges]; auto.
    apply sset_Forall; auto. split; [simple_const|]. split; [exact Hn|simple_const].
  - intros Hn. split; cbn [g_nodes g_edges empty_graph]; [|constructor]. apply sset_Forall; [|constructor].
    split; [simple_const|]. split; [exact Hn|simple_const].
Qed.
Lemma analyze_main t : exists ty name, In ("main", Node name ty) (g_nodes (analyze t empty_graph)).
Proof.
  assert (G : forall (v : node) l, In ("main", v) (sset "main" v l)).
  { intros v l. induction l as [|[k' v'] l IH]; cbn [sset]; [left; reflexivity|]. destruct (String.eqb "main" k') eqn:E.
    - left. apply String.eqb_eq in E. subst k'. reflexivity.
    - right. exact IH. }
  destruct t as [name ps|name]; cbn [analyze g_nodes]; eauto.
Qed.

Lemma color_simple ty : simple (node_color "#4CAF50" ty).
Proof.
  unfold node_color. destruct (find _ color_map) as [kv|] eqn:E; [|simple_const].
  apply find_some in E. destruct E as [I _]. cbn in I.
  repeat (destruct I as [<-|I]; [simple_const|]). destruct I.
Qed.

(** ** Labels *)
Lemma flat_shape x : clean x -> ~ nested x -> simple (str_tuple (get_shape x)).
Proof.
  intros C N. destruct x as [d|n|d|].
  - apply str_tuple_simple. cbn [get_shape]. apply Forall_map, Forall_forall. intros m _. apply digits_simple.
  - apply str_tuple_simple. cbn [get_shape]. apply Forall_cons; [apply digits_simple|apply Forall_nil].
  - inversion C as [| | |? HC]; subst. apply str_tuple_simple. cbn [get_shape]. apply Forall_map, Forall_forall. intros [k v] I.
    destruct (HC _ _ I) as (H1 & H2 & H3).
    assert (S : simple (str_tuple (get_shape v)) /\ has_no "'" (str_tuple (get_shape v))).
    { assert (T : forall l, (forall e, In e l -> exists n, e = EInt n) -> simple (str_tuple l) /\ has_no "'" (str_tuple l)).
      { intros l Hl. split.
        - apply str_tuple_simple, Forall_forall. intros e Ie. destruct (Hl _ Ie) as [n ->]. apply digits_simple.
        - assert (HN : forall e, In e l -> has_no "'" (repr_elem e)) by (intros e Ie; destruct (Hl _ Ie) as [n ->]; apply digits_simple).
          destruct l as [|e [|e' l]]; [hn_const| |]; unfold str_tuple; rewrite !cat_cons, !has_no_app.
          + split; [hn_const|]. split; [apply HN; left; auto|split; hn_const].
          + split; [hn_const|]. split; [|split; hn_const].
            assert (CC : forall m, Forall (has_no "'") m -> has_no "'" (String.concat ", " m)).
            { induction 1 as [|s m Hs Hm IHm]; [intros []|]. destruct m as [|s' m]; [exact Hs|].
              change (String.concat ", " (s :: s' :: m)) with (s ++ ", " ++ String.concat ", " (s' :: m))%string.
              rewrite !has_no_app. split; auto. split; [hn_const|exact IHm]. }
            apply CC, Forall_map, Forall_forall. exact HN. }
      destruct v as [d'|n|d'|].
      - apply T. cbn. intros e Ie. apply in_map_iff in Ie. destruct Ie as (m & <- & _). eauto.
      - apply T. cbn. intros e [<-|[]]. eauto.
      - destruct d' as [|kv d']; [apply T; intros e []|]. exfalso. apply N. exists d, k, (kv :: d'). repeat split; auto. discriminate.
      - apply T. intros e []. }
    destruct S as [S1 S2]. change (simple (repr_elem (dict_elem (k, v)))). cbn [dict_elem repr_elem]. rewrite dict_text. cbn [fst snd].
    apply repr_simple; [apply keyed_simple; auto|]. rewrite has_no_app, !has_no_cons. repeat split; auto; discriminate.
  - simple_const.
Qed.
Lemma shown_simple o name : simple name -> simple (shown_name (max_label_length o) name).
Proof.
  intros H. unfold shown_name. destruct (le_lt_dec _ _); auto. apply simple_app. split; [apply substring_simple; auto|simple_const].
Qed.
Lemma type_line (ty name : string) : simple ty ->
  Forall (fun s => verbatim s = true) (if string_dec ty name then [] else [("(" ++ ty ++ ")")%string]).
Proof.
  intros H. destruct (string_dec _ _); constructor; auto. apply simple_verbatim. apply simple_app. split; [simple_const|].
  apply simple_app. split; [exact H|simple_const].
Qed.
Lemma dressed_verbatim x kv : nsimple kv -> simple (str_tuple (get_shape x)) -> verbatim_node default_options (dressed x kv).
Proof.
  destruct kv as [id [name ty]]. intros (H1 & H2 & H3) Hx. cbn [fst snd n_name n_type] in *.
  unfold verbatim_node, dressed, pipeline_node. cbn [fst snd p_color p_style p_shape n_name n_type].
  apply Forall_cons; [apply simple_verbatim; exact H1|].
  apply Forall_cons.
  { unfold expected_label. cbn [p_name p_type p_inputs p_params default_options include_shapes include_parameters max_label_length].
    apply verbatim_concat; [reflexivity|]. apply Forall_cons; [apply simple_verbatim, (shown_simple default_options); exact H2|].
    apply Forall_app. split; [apply type_line; exact H3|]. rewrite app_nil_r.
    destruct (String.eqb id "main"); cbn [filter]; [|constructor].
    destruct (get_shape x) as [|e l] eqn:E; cbn [snd length Nat.eqb negb map block]; [constructor|].
    constructor; [|constructor]. apply vapp; [reflexivity|]. cbn [String.concat fst snd].
    apply vapp; [reflexivity|]. apply vapp; [reflexivity|]. apply simple_verbatim. exact Hx. }
  apply Forall_cons; [apply simple_verbatim, color_simple|].
  apply Forall_cons; [reflexivity|]. apply Forall_cons; [reflexivity|]. apply Forall_nil.
Qed.
Lemma dressed_edge e : esimple e -> verbatim_edge (pipeline_edge (e_source e) (e_target e) (e_label e)).
Proof.
  intros (H1 & H2 & H3). unfold verbatim_edge, pipeline_edge. cbn [q_source q_target q_label q_color q_style].
  repeat (apply Forall_cons; [first [reflexivity|apply simple_verbatim; assumption]|]). apply Forall_nil.
Qed.

Lemma export_read t x : simple_target t -> clean x -> ~ nested x ->
  let g := analyze t empty_graph in
  read_dot (export_graph t x) =
  Some (Digraph "WAX_ML_Pipeline"
    (settings ++ map (node_statement default_options) (map (dressed x) (g_nodes g))
     ++ map (fun e => edge_statement (pipeline_edge (e_source e) (e_target e) (e_label e))) (g_edges g))).
Proof.
  intros Ht Hc Hn g. destruct (analyze_simple t Ht) as [G1 G2]. fold g in G1, G2. pose proof (flat_shape x Hc Hn) as Hx.
  unfold export_graph. fold g. rewrite read_back.
  - rewrite (map_map _ edge_statement). reflexivity.
  - apply Forall_map. eapply Forall_impl; [|exact G1]. intros kv H. apply dressed_verbatim; auto.
  - apply Forall_map. eapply Forall_impl; [|exact G2]. apply dressed_edge.
Qed.
Lemma export_ids t x dg : simple_target t -> clean x -> ~ nested x -> read_dot (export_graph t x) = Some dg ->
  node_ids dg = map fst (g_nodes (analyze t empty_graph)) /\
  edge_ends dg = map (fun e => (e_source e, e_target e)) (g_edges (analyze t empty_graph)).
Proof.
  intros Ht Hc Hn H. rewrite (export_read t x Ht Hc Hn) in H. injection H as <-.
  unfold node_ids, edge_ends. cbn [dg_statements flat_map app]. rewrite !flat_map_app. cbn [app].
  set (ns := g_nodes _). set (es := g_edges _). split.
  - assert (E0 : forall l, flat_map (fun st => match st with NodeDef id _ => [id] | _ => [] end)
       (map (fun e => edge_statement (pipeline_edge (e_source e) (e_target e) (e_label e))) l) = []) by (induction l; auto).
    rewrite E0, app_nil_r.
    induction ns as [|kv ns IH]; cbn; [reflexivity|]. rewrite IH. reflexivity.
  - assert (E0 : forall l, flat_map (fun st => match st with EdgeDef a b _ => [(a, b)] | _ => [] end)
       (map (node_statement default_options) l) = []) by (induction l; auto). rewrite E0. cbn [app].
    induction es as [|e es IH]; cbn; [reflexivity|]. rewrite IH. reflexivity.
Qed.

(** ** Unreadable documents *)
Definition dies (s : string) : Prop := forall r, tokens Between (s ++ r)%string = None.
Lemma lexes_dies a ts b : lexes a ts -> dies b -> dies (a ++ b)%string.
Proof. intros H1 H2 r. rewrite append_assoc, H1, H2. reflexivity. Qed.
Lemma dies_app a b : dies a -> dies (a ++ b)%string.
Proof. intros H r. rewrite append_assoc. apply H. Qed.
Lemma colon_dies z : forall k, simple k ->
  tokens Between (k ++ String ":" z)%string = None /\ (forall w, tokens (InWord w) (k ++ String ":" z)%string = None) /\
  tokens AfterDash (k ++ String ":" z)%string = None.
Proof.
  induction k as [|c k IH]; intros H; [repeat split|].
  apply simple_cons in H. destruct H as (H1 & H2 & H3 & H4). destruct (IH H4) as (I1 & I2 & I3).
  apply eqb_ne in H1. cbn [append tokens]. rewrite H1, !I1, !I2, !I3. cbn [cons_token option_map].
  repeat split; [|intros w; rewrite ?I2|]; repeat match goal with |- context [if ?b then _ else _] => destruct b end; reflexivity.
Qed.
Lemma breaks_dies s : breaks s -> dies (dquote ++ s)%string.
Proof.
  intros (u & k & w & -> & V & Hk & _) r.
  replace ((dquote ++ u ++ String DQ (k ++ String ":" w)) ++ r)%string
    with (String DQ (u ++ String DQ (k ++ String ":" (w ++ r))))%string.
  2:{ cbn [dquote append]. rewrite append_assoc. cbn [append]. rewrite append_assoc. reflexivity. }
  change (tokens (InText "") (u ++ String DQ (k ++ String ":" (w ++ r)))%string = None).
  rewrite (tok_text (Datatypes.S (String.length u))) by (auto; lia). destruct (colon_dies (w ++ r) k Hk) as [E _]. rewrite E. reflexivity.
Qed.
Lemma line_dies o id n : verbatim id = true -> breaks (create_label o n) -> dies (node_line o (id, n)).
Proof.
  intros V B. unfold node_line. rewrite !(cat_cons "  "), (cat_cons (quoted id)), (cat_cons " [label="), (cat_cons (quoted (create_label o n))).
  apply (lexes_dies "  " []); [lex_const|]. apply (lexes_dies (quoted id) [TText id]); [apply lexes_quoted; auto|].
  apply (lexes_dies " [label=" [TSym "["; TWord "label"; TSym "="]); [lex_const|]. apply dies_app.
  unfold quoted. rewrite cat_cons, cat_cons, <- append_assoc. apply dies_app. apply breaks_dies; auto.
Qed.
Lemma dies_concat l1 bad l2 : Forall (fun s => exists ts, lexes s ts) l1 -> dies bad ->
  tokens Between (String.concat newline (l1 ++ bad :: l2)) = None.
Proof.
  intros H D. assert (G : dies (String.concat newline (l1 ++ bad :: l2))).
  { induction H as [|s l1 [ts Hs] Hl IH]; cbn [app].
    - destruct l2 as [|s l2]; [exact D|].
      change (String.concat newline (bad :: s :: l2)) with (bad ++ newline ++ String.concat newline (s :: l2))%string.
      apply dies_app; auto.
    - assert (E : String.concat newline (s :: l1 ++ bad :: l2) = (s ++ newline ++ String.concat newline (l1 ++ bad :: l2))%string)
        by (destruct l1; reflexivity).
      rewrite E. eapply lexes_dies; [exact Hs|]. apply (lexes_dies newline []); [lex_const|exact IH]. }
  rewrite <- (append_nil_r (String.concat newline _)). apply G.
Qed.
Lemma breaks_label x name ty : simple name -> simple ty -> breaks (str_tuple (get_shape x)) ->
  breaks (create_label default_options (pipeline_node name ty [("input", get_shape x)] [])).
Proof.
  intros Hn Ht B. rewrite label_expected. unfold expected_label.
  cbn [pipeline_node p_name p_type p_inputs p_params default_options include_shapes include_parameters max_label_length].
  assert (E : get_shape x <> []).
  { intros E. rewrite E in B. apply breaks_not_simple in B. apply B. simple_const. }
  cbn [filter]. destruct (get_shape x) as [|e l] eqn:Es; [congruence|]. cbn [snd length Nat.eqb negb map block].
  rewrite app_nil_r. rewrite <- Es in *. cbn [fst snd String.concat].
  assert (BB : breaks (break ++ "input" ++ ": " ++ str_tuple (get_shape x))%string).
  { apply breaks_before; [reflexivity|]. apply breaks_before; [reflexivity|]. apply breaks_before; [reflexivity|exact B]. }
  set (last_ := (break ++ "input" ++ ": " ++ str_tuple (get_shape x))%string) in *.
  pose proof (shown_simple default_options name Hn) as Hs. cbn [default_options max_label_length] in Hs.
  destruct (string_dec ty name); cbn [app String.concat].
  - apply breaks_before; [apply simple_verbatim, Hs|]. apply breaks_before; [reflexivity|exact BB].
  - apply breaks_before; [apply simple_verbatim, Hs|]. apply breaks_before; [reflexivity|].
    apply breaks_before; [apply simple_verbatim; apply simple_app; split; [simple_const|apply simple_app; split; [exact Ht|simple_const]]|].
    apply breaks_before; [reflexivity|exact BB].
Qed.
Lemma export_unreadable t x : simple_target t -> clean x -> nested x -> read_dot (export_graph t x) = None.
Proof.
  intros Ht Hc Hn. destruct (analyze_simple t Ht) as [G1 G2]. pose proof (nested_breaks x Hc Hn) as B.
  destruct (analyze_main t) as (ty & name & I). unfold read_dot, export_graph, dot_content, dot_lines.
  set (ns := g_nodes _) in *. set (es := map _ (g_edges _)).
  (* the first node "main" of the list *)
  assert (SPL : exists l1 kv l2, ns = l1 ++ kv :: l2 /\ fst kv = "main" /\ Forall (fun kv => fst kv <> "main") l1).
  { clear -I. induction ns as [|kv ns IH]; [destruct I|]. destruct (string_dec (fst kv) "main") as [E|E].
    - exists [], kv, ns. auto.
    - destruct I as [->|I]; [cbn in E; congruence|]. destruct (IH I) as (l1 & kv' & l2 & -> & E1 & E2).
      exists (kv :: l1), kv', l2. auto. }
  destruct SPL as (l1 & [id [nm tt]] & l2 & E & E1 & E2). cbn in E1. subst id. rewrite E in *.
  apply Forall_app in G1. destruct G1 as [G1 G3]. apply Forall_inv in G3. destruct G3 as (_ & G3 & G4). cbn in G3, G4.
  rewrite !map_app. cbn [map]. rewrite <- (app_assoc (map (node_line default_options) _)), app_assoc. cbn [app].
  match goal with |- context [String.concat newline ?l] =>
    match l with ?a :: ?b :: ?c :: ?d :: ?e :: ?m ++ ?bad :: ?rest =>
      change l with ((a :: b :: c :: d :: e :: m) ++ bad :: rest)
    end end.
  rewrite dies_concat; [reflexivity| |].
  - repeat (apply Forall_cons; [eexists; first [apply lexes_nil|intros r; eapply run_tokens; vm_compute; reflexivity]|]).
    apply Forall_map, Forall_map, Forall_forall. intros kv Ik. rewrite Forall_forall in G1, E2.
    eexists. apply node_line_lexes. destruct (G1 _ Ik) as (K1 & K2 & K3).
    apply verbatim_node_safe. assert (P : dressed x kv = dressed XOther kv).
    { unfold dressed. destruct (String.eqb (fst kv) "main") eqn:EE; [apply String.eqb_eq in EE; destruct (E2 _ Ik EE)|reflexivity]. }
    rewrite P. apply dressed_verbatim; [split; [exact K1|split; [exact K2|exact K3]]|simple_const].
  - apply line_dies; [reflexivity|]. cbn [snd n_name n_type]. apply breaks_label; auto.
Qed.

(** ** Colors *)
Lemma index0_occurs w s : Debug.contains w s = true <-> occurs w s.
Proof. exact (contains_iff w s). Qed.
Lemma find_first {A} (f : A -> bool) l a : find f l = Some a <->
  exists before after, l = before ++ a :: after /\ f a = true /\ forall b, In b before -> f b = false.
Proof.
  induction l as [|x l IH]; cbn [find].
  - split; [discriminate|]. intros ([|] & ? & E & _); discriminate.
  - destruct (f x) eqn:E.
    + split.
      * intros [= ->]. exists [], l. repeat split; auto. intros b [].
      * intros ([|y before] & after & E1 & E2 & E3); [cbn [app] in E1; injection E1 as -> ->; congruence|]. injection E1 as -> ->. rewrite (E3 y (or_introl eq_refl)) in E. discriminate.
    + rewrite IH. split.
      * intros (before & after & -> & E2 & E3). exists (x :: before), after. repeat split; auto. intros b [<-|I]; auto.
      * intros ([|y before] & after & E1 & E2 & E3); [cbn [app] in E1; injection E1 as -> ->; congruence|]. injection E1 as -> ->. exists before, after. repeat split; auto.
        intros b I. apply E3. right; auto.
Qed.
Lemma color_spec given ty :
  (exists before r after, colors = before ++ r :: after /\ occurs (fst r) (Debug.lower ty) /\
     (forall r', In r' before -> ~ occurs (fst r') (Debug.lower ty)) /\ node_color given ty = snd r) \/
  ((forall r, In r colors -> ~ occurs (fst r) (Debug.lower ty)) /\ node_color given ty = given).
Proof.
  unfold node_color.
  assert (E : find (fun kv => Debug.contains (Debug.lower (fst kv)) (Debug.lower ty)) color_map =
              match find (fun kv => Debug.contains (fst kv) (Debug.lower ty)) colors with
              | Some kv => find (fun kv' => String.eqb (snd kv') (snd kv)) color_map | None => None end).
  { unfold color_map, colors. cbn [find fst snd].
    set (l := Debug.lower ty).
    repeat match goal with |- context [Debug.lower ?s] => let s' := eval vm_compute in (Debug.lower s) in change (Debug.lower s) with s' end.
    repeat (match goal with |- context [if Debug.contains ?w l then _ else _] => destruct (Debug.contains w l); [reflexivity|] end).
    reflexivity. }
  rewrite E. destruct (find (fun kv => Debug.contains (fst kv) (Debug.lower ty)) colors) as [r|] eqn:F.
  - left. pose proof F as F2. apply find_first in F2. destruct F2 as (before & after & E1 & E2 & E3).
    exists before, r, after. split; auto. split; [apply index0_occurs; exact E2|].
    split; [intros r' I O; apply index0_occurs in O; rewrite (E3 _ I) in O; discriminate|].
    assert (I : In r colors) by (rewrite E1; apply in_app_iff; right; left; auto). clear -I. cbn in I.
    repeat (destruct I as [<-|I]; [reflexivity|]). destruct I.
  - right. split; auto. intros r I O. apply index0_occurs in O. apply (find_none _ _ F) in I. congruence.
Qed.
