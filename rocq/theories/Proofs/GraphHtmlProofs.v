(** Proofs about the html page of a graph. *)
From Coq Require Import String Ascii List Bool Arith Lia DecimalString.
From Verif Require Import Model.FlaxOptim Model.Graph Model.Dot Model.GraphText Spec.DotSpec.
From Verif Require Import Model.GraphHtml Spec.GraphHtmlSpec.
Import ListNotations.
Local Open Scope string_scope.
Local Open Scope list_scope.

Inductive piece := Tx (s : string) | Tg (s : string).
Definition flat (p : piece) : string := match p with Tx s => s | Tg s => "<" ++ s ++ ">" end%string.
Definition fits (p : piece) : Prop := match p with Tx s => has_no "<" s | Tg s => has_no ">" s end.
Fixpoint lead (l : list piece) : string := match l with Tx s :: r => s ++ lead r | _ => "" end%string.
Fixpoint afters (l : list piece) : list (string * string) :=
  match l with [] => [] | Tx _ :: r => afters r | Tg t :: r => (t, lead r) :: afters r end.
Definition flush (a : list (string * string) * place) : list (string * string) :=
  fst a ++ match snd a with AfterTag t x => [(t, x)] | _ => [] end.

Lemma sassoc (a b c : string) : ((a ++ b) ++ c = a ++ (b ++ c))%string.
Proof. induction a as [|d a IH]; cbn [append]; [reflexivity|rewrite IH; reflexivity]. Qed.
Lemma snil (a : string) : (a ++ "" = a)%string.
Proof. induction a as [|d a IH]; cbn [append]; [reflexivity|rewrite IH; reflexivity]. Qed.
Lemma scan_app a : forall p b, scan p (a ++ b)%string = (fst (scan p a) ++ fst (scan (snd (scan p a)) b), snd (scan (snd (scan p a)) b)).
Proof.
  induction a as [|c a IH]; intros p b; cbn [append scan fst snd app]; [destruct (scan p b); reflexivity|].
  rewrite IH. cbn [fst snd]. rewrite <- app_assoc. reflexivity.
Qed.
Lemma has_no_tail c d s : has_no c (String d s) -> Ascii.eqb d c = false /\ has_no c s.
Proof.
  unfold has_no. cbn [list_ascii_of_string In]. intros H. split; [|intros I; apply H; right; exact I].
  apply Ascii.eqb_neq. intros ->. apply H. left. reflexivity.
Qed.
Lemma scan_before s : has_no "<" s -> scan Before s = ([], Before).
Proof.
  induction s as [|c s IH]; intros H; [reflexivity|]. apply has_no_tail in H. destruct H as [E H]. cbn [scan step].
  rewrite E. cbn [fst snd]. rewrite (IH H). reflexivity.
Qed.
Lemma scan_text s : forall t x, has_no "<" s -> scan (AfterTag t x) s = ([], AfterTag t (x ++ s)).
Proof.
  induction s as [|c s IH]; intros t x H; [cbn [scan]; rewrite snil; reflexivity|].
  apply has_no_tail in H. destruct H as [E H]. cbn [scan step]. rewrite E. cbn [fst snd]. rewrite (IH _ _ H). cbn [fst snd app].
  rewrite sassoc. reflexivity.
Qed.
Lemma scan_tag s : forall t, has_no ">" s -> scan (InTag t) (s ++ ">") = ([], AfterTag (t ++ s) "").
Proof.
  induction s as [|c s IH]; intros t H; [cbn; rewrite snil; reflexivity|].
  apply has_no_tail in H. destruct H as [E H]. cbn [append scan step]. rewrite E. cbn [fst snd]. rewrite (IH _ H). cbn [fst snd app].
  rewrite sassoc. reflexivity.
Qed.
Lemma scan_tag_after s t x : has_no ">" s -> scan (AfterTag t x) (flat (Tg s)) = ([(t, x)], AfterTag s "").
Proof. intros H. cbn [flat append scan step]. cbn [Ascii.eqb Bool.eqb fst snd]. rewrite (scan_tag s "" H). reflexivity. Qed.
Lemma scan_tag_before s : has_no ">" s -> scan Before (flat (Tg s)) = ([], AfterTag s "").
Proof. intros H. cbn [flat append scan step]. cbn [Ascii.eqb Bool.eqb fst snd]. rewrite (scan_tag s "" H). reflexivity. Qed.
Lemma flush_after l : Forall fits l -> forall t x, flush (scan (AfterTag t x) (joined (map flat l))) = (t, x ++ lead l)%string :: afters l.
Proof.
  induction 1 as [|[s|s] l F Fl IH]; intros t x.
  - cbn. rewrite snil. reflexivity.
  - cbn [map joined fold_right flat lead afters]. unfold flush in *. rewrite scan_app, (scan_text s t x F). cbn [fst snd app].
    change (fold_right append "" (map flat l)) with (joined (map flat l)). rewrite IH. rewrite sassoc. reflexivity.
  - cbn [map joined fold_right lead afters]. unfold flush in *. rewrite scan_app, (scan_tag_after s t x F). cbn [fst snd app].
    change (fold_right append "" (map flat l)) with (joined (map flat l)). rewrite IH. rewrite snil. reflexivity.
Qed.
Lemma parts_pieces l : Forall fits l -> parts (joined (map flat l)) = afters l.
Proof.
  change (parts (joined (map flat l))) with (flush (scan Before (joined (map flat l)))).
  induction 1 as [|[s|s] l F Fl IH]; [reflexivity| |]; cbn [map joined fold_right afters]; unfold flush in *; rewrite scan_app.
  - cbn [flat]. rewrite (scan_before s F). cbn [fst snd app]. exact IH.
  - rewrite (scan_tag_before s F). cbn [fst snd app]. exact (flush_after l Fl s "").
Qed.
(** the pieces of a page *)
Definition head_pieces (n : nat) : list piece :=
  [Tx "
"; Tg "!DOCTYPE html"; Tx "
"; Tg "html"; Tx "
"; Tg "head"; Tx "
    "; Tg "title"; Tx "WAX-ML Pipeline Visualization"; Tg "/title"; Tx "
    "; Tg "style"; Tx "
        body { font-family: Arial, sans-serif; margin: 20px; }
        .node {
            border: 2px solid #333;
            margin: 10px;
            padding: 10px;
            border-radius: 5px;
            display: inline-block;
            background-color: #f0f0f0;
        }
        .edge { margin: 5px 0; color: #666; }
        h1 { color: #333; }
        h2 { color: #666; }
    "; Tg "/style"; Tx "
"; Tg "/head"; Tx "
"; Tg "body"; Tx "
    "; Tg "h1"; Tx "WAX-ML Streaming Pipeline"; Tg "/h1"; Tx "

    "; Tg "h2"; Tx "Nodes ("; Tx (str_of_nat n); Tx ")"; Tg "/h2"; Tx "
    "; Tg "div"; Tx "
"].
Definition node_pieces (shapes params : bool) (h : hnode) : list piece :=
  [Tx "
        "; Tg ("div class=""node"" style=""background-color: " ++ z_color h ++ "20;"""); Tx "
            "; Tg "strong"; Tx (x_name (z_node h)); Tg "/strong"; Tx " ("; Tx (x_type (z_node h)); Tx ")
            "; Tg "br"; Tx "ID: "; Tx (z_id h); Tx "
"]%string
  ++ (if shapes && has_text (x_shapes (z_node h)) then [Tg "br"; Tx "Input shapes: "; Tx (x_shapes (z_node h))] else [])
  ++ (if params && has_text (x_params (z_node h)) then [Tg "br"; Tx "Parameters: "; Tx (x_params (z_node h))] else []) ++ [Tg "/div"].
Definition mid_pieces (n : nat) : list piece :=
  [Tx "
    "; Tg "/div"; Tx "

    "; Tg "h2"; Tx "Edges ("; Tx (str_of_nat n); Tx ")"; Tg "/h2"; Tx "
    "; Tg "div"; Tx "
"].
Definition edge_pieces (e : tedge) : list piece :=
  [Tg "div class=""edge"""; Tx (edge_line e); Tg "/div"].
Definition end_pieces : list piece :=
  [Tx "
    "; Tg "/div"; Tx "
"; Tg "/body"; Tx "
"; Tg "/html"; Tx "
"].
Lemma joined_app a b : joined (a ++ b) = (joined a ++ joined b)%string.
Proof. unfold joined. induction a as [|x a IH]; cbn [fold_right app]; [reflexivity|]. rewrite IH, sassoc. reflexivity. Qed.
Lemma head_flat n : html_head n = joined (map flat (head_pieces n)).
Proof. reflexivity. Qed.
Lemma mid_flat n : html_mid n = joined (map flat (mid_pieces n)).
Proof. reflexivity. Qed.
Lemma end_flat : html_end = joined (map flat end_pieces).
Proof. reflexivity. Qed.
Lemma node_flat shapes params h : html_node shapes params h = joined (map flat (node_pieces shapes params h)).
Proof.
  unfold html_node, node_pieces. rewrite !map_app, !joined_app. rewrite <- !joined_app.
  change (negb (String.eqb (x_shapes (z_node h)) "")) with (has_text (x_shapes (z_node h))).
  change (negb (String.eqb (x_params (z_node h)) "")) with (has_text (x_params (z_node h))).
  destruct (shapes && has_text (x_shapes (z_node h))), (params && has_text (x_params (z_node h)));
  cbn [joined map flat app fold_right append]; rewrite ?sassoc; cbn [append]; rewrite ?snil; reflexivity.
Qed.
Lemma edge_flat e : html_edge e = joined (map flat (edge_pieces e)).
Proof.
  unfold html_edge, edge_pieces, edge_line. unfold has_text. destruct (String.eqb (y_label e) "");
  cbn [joined map flat app fold_right append negb]; do 4 (rewrite ?sassoc, ?snil; cbn [append]); reflexivity.
Qed.
Definition page_pieces (shapes params : bool) (nodes : list hnode) (edges : list tedge) : list piece :=
  head_pieces (length nodes) ++ flat_map (node_pieces shapes params) nodes ++ mid_pieces (length edges) ++ flat_map edge_pieces edges ++ end_pieces.
Lemma joined_flat_map {A : Type} (f : A -> string) (g : A -> list piece) l :
  (forall x, f x = joined (map flat (g x))) -> joined (map f l) = joined (map flat (flat_map g l)).
Proof.
  intros H. induction l as [|x l IH]; [reflexivity|]. cbn [flat_map map]. rewrite map_app, joined_app, <- IH, <- H. reflexivity.
Qed.
Lemma page_flat shapes params nodes edges : html_content shapes params nodes edges = joined (map flat (page_pieces shapes params nodes edges)).
Proof.
  unfold html_content, page_pieces. rewrite !map_app, !joined_app, head_flat, mid_flat, end_flat.
  rewrite (joined_flat_map _ _ nodes (node_flat shapes params)), (joined_flat_map _ _ edges edge_flat).
  cbn [joined fold_right]. rewrite !snil. reflexivity.
Qed.
(** fits *)
Lemma none_in c s : existsb (Ascii.eqb c) (list_ascii_of_string s) = false -> has_no c s.
Proof.
  intros H I. assert (T : existsb (Ascii.eqb c) (list_ascii_of_string s) = true)
    by (apply existsb_exists; exists c; split; [exact I|apply Ascii.eqb_refl]). congruence.
Qed.
Lemma chars_app a b : list_ascii_of_string (a ++ b) = list_ascii_of_string a ++ list_ascii_of_string b.
Proof. induction a as [|c a IH]; cbn [append list_ascii_of_string app]; [reflexivity|rewrite IH; reflexivity]. Qed.
Lemma none_app c a b : has_no c a -> has_no c b -> has_no c (a ++ b)%string.
Proof. unfold has_no. intros A B I. rewrite chars_app in I. apply in_app_or in I. tauto. Qed.
Lemma none_uint u : has_no "<" (NilEmpty.string_of_uint u).
Proof. induction u; cbn [NilEmpty.string_of_uint]; [intros []|..]; intros I; cbn [list_ascii_of_string In] in I; destruct I as [I|I]; try discriminate; contradiction. Qed.
Lemma none_nat n : has_no "<" (str_of_nat n).
Proof. unfold str_of_nat, NilZero.string_of_uint. destruct (Nat.to_uint n); try (apply none_in; reflexivity); apply none_uint. Qed.
Ltac lits := repeat (apply Forall_cons || apply Forall_nil); cbn [fits]; try (apply none_nat); try (apply none_in; reflexivity).
Lemma fits_page shapes params nodes edges : Forall clear_node nodes -> Forall clear_edge edges -> Forall fits (page_pieces shapes params nodes edges).
Proof.
  intros Fn Fe. unfold page_pieces. rewrite !Forall_app. repeat split.
  - unfold head_pieces. lits.
  - apply Forall_flat_map. eapply Forall_impl; [|exact Fn]. intros h (A & B & C & D & E & F). unfold node_pieces. rewrite !Forall_app. repeat split.
    + lits; try assumption. apply none_app; [apply none_in; reflexivity|]. apply none_app; [exact F|apply none_in; reflexivity].
    + destruct (shapes && _); lits; assumption.
    + destruct (params && _); lits; assumption.
    + lits.
  - unfold mid_pieces. lits.
  - apply Forall_flat_map. eapply Forall_impl; [|exact Fe]. intros e (A & B & C). unfold edge_pieces. lits.
    unfold edge_line. apply none_app; [exact A|]. apply none_app; [apply none_in; reflexivity|]. apply none_app; [exact B|].
    destruct (has_text (y_label e)); [|intros []]. apply none_app; [apply none_in; reflexivity|]. apply none_app; [exact C|apply none_in; reflexivity].
  - unfold end_pieces. lits.
Qed.
Section Page.
Context (shapes params : bool) (nodes : list hnode) (edges : list tedge) (Fn : Forall clear_node nodes) (Fe : Forall clear_edge edges).
Notation page := (html_content shapes params nodes edges).
Lemma parts_page : parts page = afters (page_pieces shapes params nodes edges).
Proof using Fn Fe. rewrite page_flat. apply parts_pieces. apply fits_page; assumption. Qed.
Lemma afters_tags l : map fst (afters l) = flat_map (fun p => match p with Tg t => [t] | _ => [] end) l.
Proof. induction l as [|[s|s] l IH]; cbn; [reflexivity|exact IH|rewrite IH; reflexivity]. Qed.
Lemma flat_map_flat_map {A B C : Type} (f : A -> list B) (g : B -> list C) l : flat_map g (flat_map f l) = flat_map (fun x => flat_map g (f x)) l.
Proof. induction l as [|x l IH]; cbn [flat_map]; [reflexivity|]. rewrite flat_map_app, IH. reflexivity. Qed.
Lemma page_tags_spec : tags page = page_tags shapes params nodes edges.
Proof using Fn Fe.
  unfold tags. rewrite parts_page, afters_tags. unfold page_pieces, page_tags. rewrite !flat_map_app, !flat_map_flat_map.
  cbn [head_pieces mid_pieces end_pieces edge_pieces flat_map app].
  assert (E : flat_map (fun h => flat_map (fun p => match p with Tg t => [t] | _ => [] end) (node_pieces shapes params h)) nodes
              = flat_map (node_tags shapes params) nodes).
  { apply flat_map_ext. intros h. unfold node_pieces, node_tags. rewrite !flat_map_app.
    destruct (shapes && _), (params && _); reflexivity. }
  rewrite E. reflexivity.
Qed.
Definition under (g : string) (l : list piece) : list string := map snd (filter (fun p => String.eqb (fst p) g) (afters l)).
Lemma under_nodes g f r : (forall h r, under g (node_pieces shapes params h ++ r) = f h ++ under g r) ->
  under g (flat_map (node_pieces shapes params) nodes ++ r) = flat_map f nodes ++ under g r.
Proof. intros H. clear Fn. induction nodes as [|h l IH]; cbn [flat_map app]; [reflexivity|]. rewrite <- app_assoc, H, IH, app_assoc. reflexivity. Qed.
Lemma under_edges g f r : (forall e r, under g (edge_pieces e ++ r) = f e ++ under g r) ->
  under g (flat_map edge_pieces edges ++ r) = flat_map f edges ++ under g r.
Proof. intros H. clear Fe. induction edges as [|h l IH]; cbn [flat_map app]; [reflexivity|]. rewrite <- app_assoc, H, IH, app_assoc. reflexivity. Qed.
Lemma under_page g : texts_after g page = under g (page_pieces shapes params nodes edges).
Proof using Fn Fe. unfold texts_after, under. rewrite parts_page. reflexivity. Qed.
Lemma flat_map_nil {A B : Type} (l : list A) : flat_map (fun _ => @nil B) l = [].
Proof. induction l; [reflexivity|assumption]. Qed.
Lemma flat_map_one {A B : Type} (f : A -> B) (l : list A) : flat_map (fun x => [f x]) l = map f l.
Proof. induction l as [|x l IH]; [reflexivity|]. cbn. rewrite IH. reflexivity. Qed.
Ltac one := intros; unfold under, node_pieces, edge_pieces;
  try (destruct (shapes && _), (params && _)); cbn; rewrite ?snil; cbn; rewrite ?snil; reflexivity.
Lemma page_names : texts_after "strong" page = map (fun h => x_name (z_node h)) nodes.
Proof using Fn Fe.
  rewrite under_page. unfold page_pieces. change (under "strong" (head_pieces (length nodes) ++ ?r)) with (under "strong" r).
  rewrite (under_nodes "strong" (fun h => [x_name (z_node h)])) by one.
  change (under "strong" (mid_pieces (length edges) ++ ?r)) with (under "strong" r).
  rewrite (under_edges "strong" (fun _ => [])) by one. rewrite flat_map_nil, flat_map_one. cbn. apply app_nil_r.
Qed.
Lemma page_types : texts_after "/strong" page = map (fun h => " (" ++ x_type (z_node h) ++ ")
            ")%string nodes.
Proof using Fn Fe.
  rewrite under_page. unfold page_pieces. change (under "/strong" (head_pieces (length nodes) ++ ?r)) with (under "/strong" r).
  rewrite (under_nodes "/strong" (fun h => [" (" ++ x_type (z_node h) ++ ")
            "]%string)) by one.
  change (under "/strong" (mid_pieces (length edges) ++ ?r)) with (under "/strong" r).
  rewrite (under_edges "/strong" (fun _ => [])) by one. rewrite flat_map_nil, flat_map_one. cbn. apply app_nil_r.
Qed.
Lemma page_details : texts_after "br" page = flat_map (fun h =>
  ["ID: " ++ z_id h ++ "
"]%string ++ (if shapes && has_text (x_shapes (z_node h)) then ["Input shapes: " ++ x_shapes (z_node h)] else [])%string
         ++ (if params && has_text (x_params (z_node h)) then ["Parameters: " ++ x_params (z_node h)] else [])%string) nodes.
Proof using Fn Fe.
  rewrite under_page. unfold page_pieces. change (under "br" (head_pieces (length nodes) ++ ?r)) with (under "br" r).
  match goal with |- _ = flat_map ?f nodes => rewrite (under_nodes "br" f) by one end.
  change (under "br" (mid_pieces (length edges) ++ ?r)) with (under "br" r).
  rewrite (under_edges "br" (fun _ => [])) by one. rewrite flat_map_nil. cbn. apply app_nil_r.
Qed.
Lemma page_edges : texts_after "div class=""edge""" page = map edge_line edges.
Proof using Fn Fe.
  rewrite under_page. unfold page_pieces. change (under "div class=""edge""" (head_pieces (length nodes) ++ ?r)) with (under "div class=""edge""" r).
  rewrite (under_nodes "div class=""edge""" (fun _ => [])) by one.
  change (under "div class=""edge""" (mid_pieces (length edges) ++ ?r)) with (under "div class=""edge""" r).
  rewrite (under_edges "div class=""edge""" (fun e => [edge_line e])) by one. rewrite flat_map_nil, flat_map_one. cbn. apply app_nil_r.
Qed.
Lemma page_counts : texts_after "h2" page = ["Nodes (" ++ str_of_nat (length nodes) ++ ")"; "Edges (" ++ str_of_nat (length edges) ++ ")"]%string.
Proof using Fn Fe.
  rewrite under_page. unfold page_pieces.
  change (under "h2" (head_pieces (length nodes) ++ ?r)) with (["Nodes (" ++ str_of_nat (length nodes) ++ ")"]%string ++ under "h2" r).
  rewrite (under_nodes "h2" (fun _ => [])) by one.
  change (under "h2" (mid_pieces (length edges) ++ ?r)) with (["Edges (" ++ str_of_nat (length edges) ++ ")"]%string ++ under "h2" r).
  rewrite (under_edges "h2" (fun _ => [])) by one. rewrite !flat_map_nil. reflexivity.
Qed.
End Page.
Lemma page_injects : exists (h : hnode) (e : tedge), ~ In "script" (page_tags false false [h] [e]) /\
  In "script" (tags (html_content false false [h] [e])) /\ texts_after "strong" (html_content false false [h] [e]) <> [x_name (z_node h)].
Proof.
  exists (HNode "a" "#ff0000" (TNode "<script>" "T" "" "")), (TEdge "a" "a" ""). split; [|split].
  - vm_compute. intros I. repeat (destruct I as [I|I]; [discriminate|]). exact I.
  - vm_compute. repeat ((left; reflexivity) || right).
  - vm_compute. discriminate.
Qed.
