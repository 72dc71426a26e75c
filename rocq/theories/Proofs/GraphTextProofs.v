(** Proofs about the text rendering of a graph. *)
From Coq Require Import String Ascii List Bool Arith Lia.
From Verif Require Import Model.FlaxOptim Model.Graph Model.Dot Spec.DotSpec.
From Verif Require Import Model.GraphText Spec.GraphTextSpec.
From Verif Require Import Proofs.DotProofs Proofs.DotProofs2 Proofs.FlaxOptimProofs Proofs.GraphProofs.
Import ListNotations.
Local Open Scope string_scope.
Local Open Scope list_scope.

Lemma lines_one s : has_no NL s -> lines_of s = [s].
Proof.
  induction s as [|d s IH]; intros H; [reflexivity|]. apply has_no_cons in H. destruct H as [D H]. cbn [lines_of].
  rewrite (eqb_ne _ _ D), IH by exact H. reflexivity.
Qed.
Lemma lines_app a r : has_no NL a -> lines_of (a ++ String NL r)%string = a :: lines_of r.
Proof.
  induction a as [|d a IH]; intros H; cbn [String.append lines_of]; [rewrite Ascii.eqb_refl; reflexivity|].
  apply has_no_cons in H. destruct H as [D H]. rewrite (eqb_ne _ _ D), IH by exact H. reflexivity.
Qed.
Lemma concat_cons sep a b l : String.concat sep (a :: b :: l) = (a ++ sep ++ String.concat sep (b :: l))%string.
Proof. reflexivity. Qed.
Lemma lines_concat l : l <> [] -> Forall one_line l -> lines_of (String.concat newline l) = l.
Proof.
  induction l as [|a l IH]; intros N F; [contradiction|]. inversion F; subst. destruct l as [|b l].
  - cbn [String.concat]. apply lines_one. assumption.
  - rewrite concat_cons. unfold newline at 1. change (a ++ String (ascii_of_nat 10) "" ++ String.concat newline (b :: l))%string with (a ++ String NL (String.concat newline (b :: l)))%string.
    rewrite lines_app by assumption. rewrite IH by (assumption || discriminate). reflexivity.
Qed.
Lemma until_app c a r : has_no c a -> until c (a ++ String c r)%string = Some (a, r).
Proof.
  induction a as [|d a IH]; intros H; cbn [String.append until]; [rewrite Ascii.eqb_refl; reflexivity|].
  apply has_no_cons in H. destruct H as [D H]. rewrite (eqb_ne _ _ D), IH by exact H. reflexivity.
Qed.
Lemma until_none c a : has_no c a -> until c a = None.
Proof. induction a as [|d a IH]; intros H; cbn [until]; [reflexivity|]. apply has_no_cons in H. destruct H as [D H]. rewrite (eqb_ne _ _ D), IH by exact H. reflexivity. Qed.
Lemma after_app p s : after p (p ++ s)%string = Some s.
Proof. induction p as [|a p IH]; cbn [String.append after]; [reflexivity|]. rewrite Ascii.eqb_refl. exact IH. Qed.
Lemma cat_cons' a l : cat (a :: l) = (a ++ cat l)%string. Proof. apply cat_cons. Qed.
Lemma word_no c s : word s -> In c [" "; NL; ":"; "("; ")"; "["; "]"]%char -> has_no c s.
Proof. intros [_ H] I. apply H. exact I. Qed.
Ltac wd := first [assumption | apply word_no; [assumption|cbn; tauto]].

Lemma node_head id n : cat ["  "; id; ": "; x_name n; " ("; x_type n; ")"] =
  ("  " ++ (id ++ String ":" (" " ++ (x_name n ++ String " " (String "(" (x_type n ++ String ")" ""))))))%string.
Proof. rewrite !cat_cons'. cbn [cat String.concat]. cbn [String.append]. reflexivity. Qed.
Lemma read_node_head kv : plain_node kv ->
  read_node (cat ["  "; fst kv; ": "; x_name (snd kv); " ("; x_type (snd kv); ")"]) = Some (fst kv, TNode (x_name (snd kv)) (x_type (snd kv)) "" "").
Proof.
  intros (Wi & Wn & Wt & _). rewrite node_head. unfold read_node. rewrite after_app. cbn [bind]. rewrite until_app by wd. cbn [bind snd fst].
  rewrite after_app. cbn [bind].
  assert (E : (x_name (snd kv) ++ String " " (String "(" (x_type (snd kv) ++ String ")" "")))%string = ((x_name (snd kv) ++ " ") ++ String "(" (x_type (snd kv) ++ String ")" ""))%string) by (rewrite sapp_assoc; reflexivity).
  rewrite E. rewrite until_app.
  2:{ apply has_no_app. split; [wd|]. apply has_no_cons. split; [discriminate|]. intros []. }
  cbn [bind snd fst]. rewrite until_app by wd. cbn [bind]. rewrite until_app by wd. cbn [bind fst snd]. reflexivity.
Qed.
Lemma word_app_head s r : word s -> exists c t, (s ++ r)%string = String c t /\ c <> " "%char.
Proof.
  intros [N H]. destruct s as [|c s]; [contradiction|]. specialize (H " "%char ltac:(cbn; tauto)). apply has_no_cons in H. destruct H as [D _].
  exists c, (s ++ r)%string. split; [reflexivity|exact D].
Qed.
Lemma head_no_detail kv : word (fst kv) -> after "    " (cat ["  "; fst kv; ": "; x_name (snd kv); " ("; x_type (snd kv); ")"]) = None.
Proof.
  intros W. rewrite node_head. destruct (word_app_head (fst kv) (String ":" (" " ++ (x_name (snd kv) ++ String " " (String "(" (x_type (snd kv) ++ String ")" ""))))) W) as (c & t & -> & D).
  change (after "    " ("  " ++ String c t)) with (if Ascii.eqb " " c then after " " t else None). rewrite (eqb_ne _ _ (not_eq_sym D)). reflexivity.
Qed.
Lemma read_nodes_cons x r seen : x <> "" -> read_nodes (x :: r) seen =
  match after "    " x with
  | Some d => match seen with (id, n) :: q => bind (with_detail d n) (fun n' => read_nodes r ((id, n') :: q)) | [] => None end
  | None => bind (read_node x) (fun kv => read_nodes r (kv :: seen))
  end.
Proof. destruct x; [contradiction|reflexivity]. Qed.
Lemma details shapes params id n r seen : one_line (x_shapes n) -> one_line (x_params n) ->
  read_nodes ((if shapes && negb (String.eqb (x_shapes n) "") then [cat ["    Input shapes: "; x_shapes n]] else [])
      ++ (if params && negb (String.eqb (x_params n) "") then [cat ["    Parameters: "; x_params n]] else []) ++ r)
    ((id, TNode (x_name n) (x_type n) "" "") :: seen) =
  read_nodes r (shown shapes params (id, n) :: seen).
Proof.
  intros _ _. unfold shown. cbn [fst snd].
  assert (P : forall sh, read_nodes ((if params && negb (String.eqb (x_params n) "") then [cat ["    Parameters: "; x_params n]] else []) ++ r) ((id, TNode (x_name n) (x_type n) sh "") :: seen)
    = read_nodes r ((id, TNode (x_name n) (x_type n) sh (if params then x_params n else "")) :: seen)).
  { intros sh. destruct params; cbn [andb]; [|reflexivity]. destruct (String.eqb_spec (x_params n) "") as [->|N]; cbn [negb app]; [reflexivity|].
    rewrite read_nodes_cons by discriminate. change (cat ["    Parameters: "; x_params n]) with ("    " ++ ("Parameters: " ++ x_params n))%string. rewrite after_app. reflexivity. }
  destruct shapes; cbn [andb]; [|apply P]. destruct (String.eqb_spec (x_shapes n) "") as [E|N]; cbn [negb app]; [rewrite P, E; reflexivity|].
  rewrite read_nodes_cons by discriminate. change (cat ["    Input shapes: "; x_shapes n]) with ("    " ++ ("Input shapes: " ++ x_shapes n))%string. rewrite after_app.
  unfold with_detail. rewrite after_app. cbn [bind x_name x_type x_params]. apply P.
Qed.
Lemma read_all_nodes shapes params l : Forall plain_node l -> forall r seen,
  read_nodes (flat_map (text_node shapes params) l ++ "" :: r) seen = Some (rev seen ++ map (shown shapes params) l, r).
Proof.
  induction 1 as [|[id n] l P F IH]; intros r seen; cbn [flat_map map]; [cbn [app read_nodes]; rewrite app_nil_r; reflexivity|].
  rewrite <- app_assoc. unfold text_node at 1. rewrite <- !app_assoc. cbn [app].
  rewrite read_nodes_cons by (rewrite node_head; discriminate). pose proof (head_no_detail (id, n) (proj1 P)) as HD. cbn [fst snd] in HD. rewrite HD.
  pose proof (read_node_head (id, n) P) as HR. cbn [fst snd] in HR. rewrite HR. cbn [bind].
  destruct P as (_ & _ & _ & Ps & Pp). cbn [snd] in Ps, Pp. rewrite details by assumption. rewrite IH. cbn [rev]. rewrite <- app_assoc. reflexivity.
Qed.
Lemma read_edge_text e : plain_edge e -> read_edge (text_edge e) = Some e.
Proof.
  destruct e as [s t l]. intros (Ws & Wt & Hl & Hb). cbn [y_source y_target y_label] in *. unfold text_edge. cbn [y_source y_target y_label].
  destruct (String.eqb_spec l "") as [->|N].
  - assert (E : cat ["  "; s; " -> "; t; ""] = ("  " ++ (s ++ String " " ("-> " ++ t)))%string) by (rewrite !cat_cons'; cbn [cat String.concat]; rewrite sapp_nil; reflexivity).
    rewrite E. unfold read_edge. rewrite after_app. cbn [bind]. rewrite until_app by wd. cbn [bind snd fst]. rewrite after_app. cbn [bind]. rewrite until_none by wd. reflexivity.
  - assert (E : cat ["  "; s; " -> "; t; cat [" ["; l; "]"]] = ("  " ++ (s ++ String " " ("-> " ++ (t ++ String " " ("[" ++ (l ++ String "]" ""))))))%string) by (rewrite !cat_cons'; cbn [cat String.concat]; rewrite sapp_nil; reflexivity).
    rewrite E. unfold read_edge. rewrite after_app. cbn [bind]. rewrite until_app by wd. cbn [bind snd fst]. rewrite after_app. cbn [bind]. rewrite until_app by wd.
    rewrite after_app. cbn [bind]. rewrite until_app by exact Hb. cbn [bind snd fst]. reflexivity.
Qed.
Lemma one_cat l : Forall one_line l -> one_line (cat l).
Proof.
  induction 1 as [|a l H F IH]; [intros []|]. rewrite cat_cons. apply has_no_app. split; assumption.
Qed.
Lemma one_lit s : forallb (fun c => negb (Ascii.eqb c NL)) (list_ascii_of_string s) = true -> one_line s.
Proof. intros H I. rewrite forallb_forall in H. specialize (H _ I). rewrite Ascii.eqb_refl in H. discriminate. Qed.
Lemma word_one s : word s -> one_line s. Proof. intros W. unfold one_line. wd. Qed.
Lemma node_lines shapes params kv : plain_node kv -> Forall one_line (text_node shapes params kv).
Proof.
  destruct kv as [id n]. intros (Wi & Wn & Wt & Ps & Pp). cbn [fst snd] in *. unfold text_node. apply Forall_app. split; [|apply Forall_app; split].
  - constructor; [|constructor]. apply one_cat. repeat (constructor; [first [apply word_one; assumption|apply one_lit; reflexivity]|]). constructor.
  - destruct (_ && _); constructor; [|constructor]. apply one_cat. repeat (constructor; [first [assumption|apply one_lit; reflexivity]|]). constructor.
  - destruct (_ && _); constructor; [|constructor]. apply one_cat. repeat (constructor; [first [assumption|apply one_lit; reflexivity]|]). constructor.
Qed.
Lemma edge_one e : plain_edge e -> one_line (text_edge e).
Proof.
  intros (Ws & Wt & Hl & _). unfold text_edge. apply one_cat. repeat (constructor; [first [apply word_one; assumption|apply one_lit; reflexivity|idtac]|]); [|constructor].
  destruct (String.eqb (y_label e) ""); [apply one_lit; reflexivity|]. apply one_cat. repeat (constructor; [first [assumption|apply one_lit; reflexivity]|]). constructor.
Qed.
Lemma text_read shapes params r : Forall plain_node (rd_nodes r) -> Forall plain_edge (rd_edges r) ->
  read_text (text_content shapes params r) = Some (Renderer (map (shown shapes params) (rd_nodes r)) (rd_edges r)).
Proof.
  intros Fn Fe. unfold read_text, text_content. rewrite lines_concat.
  - unfold text_lines. cbn [app]. rewrite read_all_nodes by exact Fn. cbn [bind snd fst rev app]. rewrite map_map.
    rewrite (all_some_map (fun e => read_edge (text_edge e)) (rd_edges r) (fun e => e)).
    + cbn [bind]. rewrite map_id. reflexivity.
    + first [intros e I; rewrite Forall_forall in Fe; apply read_edge_text; apply Fe; exact I | apply Forall_forall; intros e I; rewrite Forall_forall in Fe; apply read_edge_text; apply Fe; exact I].
  - discriminate.
  - unfold text_lines. apply Forall_app. split; [repeat (constructor; [apply one_lit; reflexivity|]); constructor|]. apply Forall_app. split.
    + apply Forall_flat_map. apply Forall_forall. intros kv I. apply node_lines. rewrite Forall_forall in Fn. apply Fn. exact I.
    + cbn [app]. constructor; [apply one_lit; reflexivity|]. constructor; [apply one_lit; reflexivity|]. apply Forall_map. eapply Forall_impl; [|exact Fe]. intros e. apply edge_one.
Qed.
Lemma text_injective shapes params r r' : Forall plain_node (rd_nodes r) -> Forall plain_edge (rd_edges r) ->
  Forall plain_node (rd_nodes r') -> Forall plain_edge (rd_edges r') -> text_content shapes params r = text_content shapes params r' ->
  map (shown shapes params) (rd_nodes r) = map (shown shapes params) (rd_nodes r') /\ rd_edges r = rd_edges r'.
Proof. intros A B C D E. pose proof (text_read shapes params r A B) as H1. pose proof (text_read shapes params r' C D) as H2. rewrite E, H2 in H1. injection H1 as -> ->. auto. Qed.
(** what is in a renderer after additions *)
Lemma added l : forall r, fold_left add_one l r =
  Renderer (fold_left (fun d a => match a with AddNode id n => sset id n d | AddEdge _ => d end) l (rd_nodes r))
           (rd_edges r ++ flat_map (fun a => match a with AddEdge e => [e] | _ => [] end) l).
Proof.
  induction l as [|a l IH]; intros [ns es]; cbn [fold_left flat_map rd_nodes rd_edges]; [rewrite app_nil_r; reflexivity|].
  rewrite IH. destruct a; cbn [add_one rd_nodes rd_edges app]; [reflexivity|rewrite <- app_assoc; reflexivity].
Qed.
Lemma added_edges l : rd_edges (additions l) = flat_map (fun a => match a with AddEdge e => [e] | _ => [] end) l.
Proof. unfold additions. rewrite added. reflexivity. Qed.
Lemma additions_snoc l a : additions (l ++ [a]) = add_one (additions l) a.
Proof. unfold additions. rewrite fold_left_app. reflexivity. Qed.
Definition names (id : string) (a : addition) : Prop := exists n, a = AddNode id n.
Lemma added_nodes l : NoDup (map fst (rd_nodes (additions l))) /\
  forall id n, In (id, n) (rd_nodes (additions l)) <-> exists l1 l2, l = l1 ++ AddNode id n :: l2 /\ forall a, In a l2 -> ~ names id a.
Proof.
  induction l as [|a l [ND IH]] using rev_ind.
  - split; [constructor|]. intros id n. split; [intros []|]. intros (l1 & l2 & E & _). destruct l1; discriminate.
  - rewrite additions_snoc. destruct a as [k m|e]; cbn [add_one rd_nodes].
    + split; [apply sset_nodup; exact ND|]. intros id n. rewrite in_sset_exact by exact ND. split.
      * intros [[-> ->]|[N I]]; [exists l, []; split; [reflexivity|intros a []]|]. apply IH in I. destruct I as (l1 & l2 & -> & H).
        exists l1, (l2 ++ [AddNode k m]). split; [rewrite <- app_assoc; reflexivity|]. intros a I. apply in_app_or in I. destruct I as [I|[<-|[]]]; [apply H; exact I|].
        intros (n' & E). injection E as -> _. contradiction.
      * intros (l1 & l2 & E & H). destruct l2 as [|b l2 _] using rev_ind; [apply app_inj_tail in E; destruct E as [_ E]; injection E as -> ->; left; auto|].
        rewrite app_comm_cons, app_assoc in E. apply app_inj_tail in E. destruct E as [-> <-]. right. split.
        -- intros ->. apply (H (AddNode k m)); [apply in_or_app; right; left; reflexivity|]. exists m. reflexivity.
        -- apply IH. exists l1, l2. split; [reflexivity|]. intros a I. apply H. apply in_or_app. left. exact I.
    + split; [exact ND|]. intros id n. rewrite IH. split; intros (l1 & l2 & E & H).
      * subst l. exists l1, (l2 ++ [AddEdge e]). split; [rewrite <- app_assoc; reflexivity|]. intros a I. apply in_app_or in I. destruct I as [I|[<-|[]]]; [apply H; exact I|intros (n' & E'); discriminate].
      * destruct l2 as [|b l2 _] using rev_ind; [apply app_inj_tail in E; destruct E as [_ E]; discriminate|].
        rewrite app_comm_cons, app_assoc in E. apply app_inj_tail in E. destruct E as [-> <-]. exists l1, l2. split; [reflexivity|]. intros a I. apply H. apply in_or_app. left. exact I.
Qed.
(** which way a format is rendered *)
Lemma way_text graphviz matplotlib format : way_of graphviz matplotlib format = ByText <->
  matplotlib = false /\ format <> "dot" /\ format <> "html" /\ (graphviz = true -> ~ In format ["png"; "svg"; "pdf"]).
Proof.
  unfold way_of. destruct (String.eqb_spec format "dot") as [->|N1]; [split; [discriminate|intros (_ & H & _); contradiction]|].
  destruct (String.eqb_spec format "html") as [->|N2]; [split; [discriminate|intros (_ & _ & H & _); contradiction]|].
  destruct graphviz; cbn [andb].
  - destruct (existsb (String.eqb format) ["png"; "svg"; "pdf"]) eqn:E.
    + split; [discriminate|]. intros (_ & _ & _ & H). exfalso. apply existsb_exists in E. destruct E as (x & I & Ex). apply String.eqb_eq in Ex. subst. apply (H eq_refl). exact I.
    + assert (NI : ~ In format ["png"; "svg"; "pdf"]).
      { intros I. assert (T : existsb (String.eqb format) ["png"; "svg"; "pdf"] = true) by (apply existsb_exists; exists format; split; [exact I|apply String.eqb_refl]). congruence. }
      destruct matplotlib; (split; [try discriminate; intros _; repeat split; auto|intros (H & _); try discriminate; reflexivity]).
  - destruct matplotlib; (split; [try discriminate; intros _; repeat split; auto; discriminate|intros (H & _); try discriminate; reflexivity]).
Qed.
(** Two edges, or an edge with brackets in its name, with the same text. *)
Lemma text_collides : exists r r', text_content true false r = text_content true false r' /\ rd_edges r <> rd_edges r' /\ rd_nodes r = rd_nodes r'.
Proof.
  exists (Renderer [] [TEdge "a" "b [x]" ""]), (Renderer [] [TEdge "a" "b" "x"]). split; [reflexivity|]. split; [discriminate|reflexivity].
Qed.
Lemma ways graphviz matplotlib format :
  (way_of graphviz matplotlib format = ByDot <-> format = "dot") /\
  (way_of graphviz matplotlib format = ByHtml <-> format = "html") /\
  (way_of graphviz matplotlib format = ByGraphviz <-> graphviz = true /\ In format ["png"; "svg"; "pdf"]) /\
  (way_of graphviz matplotlib format = ByMatplotlib <->
   matplotlib = true /\ format <> "dot" /\ format <> "html" /\ (graphviz = true -> ~ In format ["png"; "svg"; "pdf"])).
Proof.
  unfold way_of. destruct (String.eqb_spec format "dot") as [->|N1].
  { repeat split; intros; try discriminate; try reflexivity; try (destruct H as (_ & I); cbn [In] in I; decompose [or] I; (discriminate || contradiction));
    try (destruct H as (_ & K & _); exfalso; apply K; reflexivity). }
  destruct (String.eqb_spec format "html") as [->|N2].
  { repeat split; intros; try discriminate; try reflexivity; try (destruct H as (_ & I); cbn [In] in I; decompose [or] I; (discriminate || contradiction));
    try (destruct H as (_ & _ & K & _); exfalso; apply K; reflexivity). }
  assert (E : existsb (String.eqb format) ["png"; "svg"; "pdf"] = true <-> In format ["png"; "svg"; "pdf"]).
  { rewrite existsb_exists. split; [intros (x & I & Ex); apply String.eqb_eq in Ex; subst; exact I|intros I; exists format; split; [exact I|apply String.eqb_refl]]. }
  destruct graphviz; cbn [andb]; destruct (existsb (String.eqb format) ["png"; "svg"; "pdf"]) eqn:B; destruct matplotlib;
  (split; [split; intros; congruence|split; [split; intros; congruence|]]); (split; split; intros H;
    try discriminate; try reflexivity; try (destruct H; discriminate)).
  all: try (split; [reflexivity|apply E; reflexivity]).
  all: try (destruct H as (_ & I); apply E in I; congruence).
  all: try (destruct H as (_ & _ & _ & K); exfalso; apply (K eq_refl); apply E; reflexivity).
  all: try (repeat split; try assumption; intros _ I; apply E in I; congruence).
  all: try (repeat split; try assumption; intros X; discriminate X).
Qed.
