(** The computation graph extracted from parameters. *)
From Coq Require Import String Ascii List Bool Arith Lia Permutation.
From Verif Require Import Model.FlaxOptim Model.Graph Spec.GraphSpec Proofs.FlaxOptimProofs.
From Verif Require Model.Debug.
Import ListNotations.
Local Open Scope list_scope.

(** ** strings *)
Lemma los_append a b : list_ascii_of_string (String.append a b) = list_ascii_of_string a ++ list_ascii_of_string b.
Proof. induction a; cbn; congruence. Qed.
Lemma los_inj a b : list_ascii_of_string a = list_ascii_of_string b -> a = b.
Proof. intros H. rewrite <- (string_of_list_ascii_of_string a), <- (string_of_list_ascii_of_string b), H. reflexivity. Qed.
Lemma append_assoc a b c : String.append (String.append a b) c = String.append a (String.append b c).
Proof. induction a; cbn; congruence. Qed.
Lemma append_nil_r a : String.append a "" = a.
Proof. induction a; cbn; congruence. Qed.
Lemma append_inj_l a b c : String.append a b = String.append a c -> b = c.
Proof. induction a; cbn; intros H; [exact H|]. injection H. auto. Qed.

Lemma dotted_cons k q : q <> [] -> dotted (k :: q) = String.append k (String.append "." (dotted q)).
Proof. intros H. destruct q; [contradiction|]. reflexivity. Qed.
Lemma dotted_nonempty p : p <> [] -> Forall plain_key p -> dotted p <> ""%string.
Proof.
  intros H F. destruct F as [|k q [K _] F]; [contradiction|]. destruct q; [exact K|].
  rewrite dotted_cons by discriminate. destruct k; [contradiction|]. cbn. discriminate.
Qed.
Lemma dotted_snoc p k : p <> [] -> dotted (p ++ [k]) = String.append (dotted p) (String.append "." k).
Proof.
  induction p as [|a p IH]; intros H; [contradiction|].
  destruct p as [|b p]; [reflexivity|]. cbn [app]. rewrite dotted_cons by (destruct p; discriminate).
  change (b :: p ++ [k]) with ((b :: p) ++ [k]). rewrite IH by discriminate.
  rewrite (dotted_cons a (b :: p)) by discriminate. rewrite !append_assoc. reflexivity.
Qed.
Lemma node_path_dotted p k : Forall plain_key p -> node_path (dotted p) k = dotted (p ++ [k]).
Proof.
  intros F. unfold node_path. destruct p as [|a p]; [reflexivity|].
  destruct (String.eqb_spec (dotted (a :: p)) "") as [E|E].
  - exfalso. revert E. apply dotted_nonempty; [discriminate|exact F].
  - rewrite dotted_snoc by discriminate. reflexivity.
Qed.

(** split at the first dot *)
Lemma split_dot (a b : list ascii) (x y : list ascii) :
  ~ In "."%char a -> ~ In "."%char b -> a ++ "."%char :: x = b ++ "."%char :: y -> a = b /\ x = y.
Proof.
  revert b. induction a as [|c a IH]; intros [|c' b] Ha Hb H; cbn in H.
  - injection H as H. auto.
  - exfalso. injection H as H1 _. apply Hb. left. congruence.
  - exfalso. injection H as H1 _. apply Ha. left. congruence.
  - injection H as -> H. destruct (IH b) as [-> ->]; auto; intros I; [apply Ha|apply Hb]; right; exact I.
Qed.
Lemma los_dot a b : list_ascii_of_string (String.append a (String.append "." b)) =
  list_ascii_of_string a ++ "."%char :: list_ascii_of_string b.
Proof. rewrite los_append. reflexivity. Qed.

Lemma dotted_inj p q : Forall plain_key p -> Forall plain_key q -> dotted p = dotted q -> p = q.
Proof.
  revert q. induction p as [|a p IH]; intros q Fp Fq E.
  - destruct q as [|b q]; [reflexivity|]. exfalso. symmetry in E. revert E. apply dotted_nonempty; [discriminate|exact Fq].
  - destruct q as [|b q]; [exfalso; revert E; apply dotted_nonempty; [discriminate|exact Fp]|].
    inversion Fp as [|? ? [Ka Da] Fp']; inversion Fq as [|? ? [Kb Db] Fq']; subst.
    destruct p as [|a' p], q as [|b' q].
    + cbn in E. congruence.
    + exfalso. rewrite (dotted_cons b) in E by discriminate. cbn [dotted String.concat] in E. rewrite E in Da. apply Da.
      rewrite los_dot. apply in_or_app. right. left. reflexivity.
    + exfalso. rewrite (dotted_cons a) in E by discriminate. cbn [dotted String.concat] in E. rewrite <- E in Db. apply Db.
      rewrite los_dot. apply in_or_app. right. left. reflexivity.
    + rewrite (dotted_cons a), (dotted_cons b) in E by discriminate.
      apply (f_equal list_ascii_of_string) in E. rewrite !los_dot in E. apply split_dot in E; [|exact Da|exact Db].
      destruct E as [E1 E2]. apply los_inj in E1. apply los_inj in E2. f_equal; [exact E1|]. apply IH; assumption.
Qed.

Lemma dotted_split path a b : Forall plain_key path -> dotted path = String.append a (String.append "." b) ->
  exists p q, path = p ++ q /\ p <> [] /\ q <> [] /\ a = dotted p.
Proof.
  revert a b. induction path as [|k path IH]; intros a b F E.
  - exfalso. cbn in E. destruct a; discriminate E.
  - inversion F as [|? ? [K D] F']; subst. destruct path as [|k' path].
    + exfalso. cbn [dotted String.concat] in E. rewrite E in D. apply D. rewrite los_dot. apply in_or_app. right. left. reflexivity.
    + rewrite dotted_cons in E by discriminate. apply (f_equal list_ascii_of_string) in E. rewrite !los_dot in E.
      destruct (in_dec ascii_dec "."%char (list_ascii_of_string a)) as [I|I].
      * (* a itself holds the first dot *)
        assert (exists a1 a2, list_ascii_of_string a = a1 ++ "."%char :: a2 /\ ~ In "."%char a1) as (a1 & a2 & Ea & Na).
        { clear -I. induction (list_ascii_of_string a) as [|c l IHl]; [destruct I|].
          destruct (ascii_dec c ".") as [->|N]; [exists [], l; split; [reflexivity|intros []]|].
          destruct I as [I|I]; [contradiction|]. destruct (IHl I) as (a1 & a2 & -> & Na).
          exists (c :: a1), a2. split; [reflexivity|]. intros [J|J]; [congruence|contradiction]. }
        rewrite Ea in E. rewrite <- app_assoc in E. cbn [app] in E. apply split_dot in E; [|exact D|exact Na].
        destruct E as [E1 E2].
        destruct (IH (string_of_list_ascii a2) b F') as (p & q & E3 & Np & Nq & E4).
        { apply los_inj. rewrite los_dot, list_ascii_of_string_of_list_ascii. exact E2. }
        exists (k :: p), q. rewrite E3. split; [reflexivity|]. split; [discriminate|]. split; [exact Nq|].
        apply los_inj. rewrite dotted_cons by exact Np. rewrite los_dot, Ea, <- E4, list_ascii_of_string_of_list_ascii, E1. reflexivity.
      * apply split_dot in E; [|exact D|exact I]. destruct E as [E1 _]. apply los_inj in E1.
        exists [k], (k' :: path). split; [reflexivity|]. split; [discriminate|]. split; [discriminate|]. symmetry. exact E1.
Qed.

(** ** parameters *)
Section ParamInd.
  Variable P : param -> Prop.
  Hypothesis Hv : P PVal.
  Hypothesis Hs : forall d, (forall k v, In (k, v) d -> P v) -> P (PSub d).
  Fixpoint param_ind' (v : param) : P v :=
    match v with
    | PVal => Hv
    | PSub d => Hs d ((fix go (d : list (string * param)) : forall k v, In (k, v) d -> P v :=
        match d return forall k v, In (k, v) d -> P v with
        | [] => fun k v H => match H with end
        | (k0, v0) :: r => fun k v H => match H with
                                        | or_introl E => match E in _ = p return P (snd p) with eq_refl => param_ind' v0 end
                                        | or_intror H' => go r k v H'
                                        end
        end) d)
    end.
End ParamInd.

Lemma mem_key_in {A} k (d : list (string * A)) : mem_key k d = true <-> In k (map fst d).
Proof.
  unfold mem_key. destruct (sget k d) as [v|] eqn:E.
  - split; intros _; [|reflexivity]. apply sget_in in E. apply in_map_iff. exists (k, v). auto.
  - split; [discriminate|]. intros H. apply sget_none in E. contradiction.
Qed.
Lemma looks_own d : looks_like_module d = true <-> own_parameters d.
Proof.
  unfold looks_like_module, own_parameters, marker_keys. rewrite existsb_exists.
  split; intros (k & I & M); exists k; (split; [exact I|]); apply mem_key_in; exact M.
Qed.

(** the modules, in the order of the traversal, with their paths *)
Fixpoint mods (path : list string) (v : param) : list (list string * list (string * param)) :=
  match v with
  | PVal => []
  | PSub d => if looks_like_module d then [(path, d)] else flat_map (fun kv => mods (path ++ [fst kv]) (snd kv)) d
  end.
Definition mods_of (path : list string) (ps : list (string * param)) := flat_map (fun kv => mods (path ++ [fst kv]) (snd kv)) ps.

Lemma mods_outermost v : forall P Q d, In (Q, d) (mods P v) <-> exists q, Q = P ++ q /\ outermost v q d.
Proof.
  induction v as [|d0 IH] using param_ind'; intros P Q d; cbn [mods].
  - split; [intros []|]. intros (q & _ & H). inversion H.
  - destruct (looks_like_module d0) eqn:L.
    + split.
      * intros [E|[]]. inversion E; subst. exists []. rewrite app_nil_r. split; [reflexivity|]. constructor. apply looks_own. exact L.
      * intros (q & -> & H). apply looks_own in L. inversion H; subst; [|contradiction]. rewrite app_nil_r. left. reflexivity.
    + assert (NL : ~ own_parameters d0) by (intros H; apply looks_own in H; congruence).
      rewrite in_flat_map. split.
      * intros ([k v] & I & H). cbn [fst snd] in H. apply (IH k v I) in H. destruct H as (q & -> & H).
        exists (k :: q). rewrite <- app_assoc. split; [reflexivity|]. econstructor; eassumption.
      * intros (q & -> & H). inversion H as [? O|? k v q' d' _ I H']; subst; [contradiction|].
        exists (k, v). split; [exact I|]. cbn [fst snd]. apply (IH k v I). exists q'. rewrite <- app_assoc. split; [reflexivity|exact H'].
Qed.
Lemma mods_of_module_at ps Q d : In (Q, d) (mods_of [] ps) <-> module_at ps Q d.
Proof.
  unfold mods_of, module_at. rewrite in_flat_map. split.
  - intros ([k v] & I & H). cbn [fst snd app] in H. apply mods_outermost in H. destruct H as (q & -> & H). exists k, v, q. auto.
  - intros (k & v & q & -> & I & H). exists (k, v). split; [exact I|]. cbn [fst snd app]. apply mods_outermost. exists q. auto.
Qed.

(** ** the traversal as a fold over the modules *)
Definition add_module (g : graph) (m : list string * list (string * param)) : graph :=
  let '(Q, d) := m in
  let k := last Q ""%string in
  let nodes := sset (dotted Q) (Node k (infer_module_type k d)) (g_nodes g) in
  Graph nodes (if negb (String.eqb (dotted (removelast Q)) "") && mem_key (dotted (removelast Q)) nodes
               then g_edges g ++ [Edge (dotted (removelast Q)) (dotted Q) "module"] else g_edges g).

Lemma fold_left_flat_map {A B C : Type} (f : A -> B -> A) (h : C -> list B) (l : list C) (a : A) :
  fold_left f (flat_map h l) a = fold_left (fun a c => fold_left f (h c) a) l a.
Proof. revert a. induction l as [|c l IH]; intros a; cbn; [reflexivity|]. rewrite fold_left_app. apply IH. Qed.
Lemma fold_left_ext_in {A B : Type} (f g : A -> B -> A) (l : list B) :
  (forall a b, In b l -> f a b = g a b) -> forall a, fold_left f l a = fold_left g l a.
Proof.
  induction l as [|b l IH]; intros H a; cbn; [reflexivity|]. rewrite H by (left; reflexivity). apply IH.
  intros a' b' I. apply H. right. exact I.
Qed.

Lemma extract_item_fold v : forall P k g, well_named v -> plain_key k -> Forall plain_key P ->
  extract_item (dotted P) k v g = fold_left add_module (mods (P ++ [k]) v) g.
Proof.
  induction v as [|d IH] using param_ind'; intros P k g W K F; cbn [extract_item mods]; [reflexivity|].
  rewrite node_path_dotted by exact F. destruct (looks_like_module d) eqn:L.
  - cbn [fold_left]. unfold add_module. rewrite last_last, removelast_last. reflexivity.
  - rewrite fold_left_flat_map. inversion W as [|? ND W']; subst. apply fold_left_ext_in.
    intros g' [k' v'] I. cbn [fst snd]. destruct (W' k' v' I) as [K' W'']. apply (IH k' v' I); auto.
    apply Forall_app. auto.
Qed.
Lemma extract_modules_fold ps g : well_named (PSub ps) -> extract_modules "" ps g = fold_left add_module (mods_of [] ps) g.
Proof.
  intros W. unfold extract_modules, mods_of. rewrite fold_left_flat_map. apply fold_left_ext_in.
  intros g' [k v] I. cbn [fst snd app]. inversion W as [|? ND W']; subst. destruct (W' k v I) as [K W''].
  change ""%string with (dotted []). rewrite extract_item_fold; auto.
Qed.

(** ** paths of modules: distinct, plain, and none inside another *)
Lemma nodup_in_eq {A} (d : list (string * A)) k v v' : NoDup (map fst d) -> In (k, v) d -> In (k, v') d -> v = v'.
Proof.
  induction d as [|[a b] d IH]; cbn [map fst]; intros N; [intros []|]. inversion N; subst.
  intros [E|E] [E'|E'].
  - congruence.
  - inversion E; subst. exfalso. apply H1. apply in_map_iff. exists (k, v'). auto.
  - inversion E'; subst. exfalso. apply H1. apply in_map_iff. exists (k, v). auto.
  - apply IH; assumption.
Qed.
Lemma outermost_antichain v q d : well_named v -> outermost v q d -> forall r d', outermost v (q ++ r) d' -> r = [] /\ d' = d.
Proof.
  intros W H. induction H as [d O|d k v q d1 NO I H IH]; intros r d' H'.
  - cbn [app] in H'. inversion H'; subst; [auto|contradiction].
  - cbn [app] in H'. inversion H' as [|? ? v' ? ? _ I' H'']; subst. inversion W as [|? ND W']; subst.
    assert (v' = v) by (eapply nodup_in_eq; eassumption). subst v'. apply IH; [apply (W' k v I)|exact H''].
Qed.
Lemma module_antichain ps p d r d' : well_named (PSub ps) -> module_at ps p d -> module_at ps (p ++ r) d' -> r = [] /\ d' = d.
Proof.
  intros W (k & v & q & -> & I & H) (k' & v' & q' & E & I' & H'). cbn [app] in E. injection E as <- <-.
  inversion W as [|? ND W']; subst. assert (v' = v) by (eapply nodup_in_eq; eassumption). subst v'.
  eapply outermost_antichain; [apply (W' k v I)|exact H|exact H'].
Qed.
Lemma outermost_plain v q d : well_named v -> outermost v q d -> Forall plain_key q.
Proof.
  intros W H. induction H as [|d k v q d1 NO I H IH]; constructor; inversion W as [|? ND W']; subst; destruct (W' k v I); auto.
Qed.
Lemma module_plain ps p d : well_named (PSub ps) -> module_at ps p d -> Forall plain_key p.
Proof.
  intros W (k & v & q & -> & I & H). inversion W as [|? ND W']; subst. destruct (W' k v I) as [K Wv]. constructor; [exact K|].
  eapply outermost_plain; eassumption.
Qed.
Lemma module_nonempty ps p d : module_at ps p d -> p <> [].
Proof. intros (k & v & q & -> & _). discriminate. Qed.

Lemma NoDup_app2 {A} (l l' : list A) : NoDup l -> NoDup l' -> (forall x, In x l -> ~ In x l') -> NoDup (l ++ l').
Proof.
  induction l as [|a l IH]; intros N N' D; cbn; [exact N'|]. inversion N; subst. constructor.
  - rewrite in_app_iff. intros [I|I]; [contradiction|]. apply (D a); [left; reflexivity|exact I].
  - apply IH; auto. intros x I. apply D. right. exact I.
Qed.
Lemma NoDup_flat_map {A B : Type} (f : A -> list B) (l : list A) :
  NoDup l -> (forall a, In a l -> NoDup (f a)) ->
  (forall a a' b, In a l -> In a' l -> In b (f a) -> In b (f a') -> a = a') -> NoDup (flat_map f l).
Proof.
  induction l as [|a l IH]; intros N H D; cbn; [constructor|]. inversion N; subst. apply NoDup_app2.
  - apply H. left. reflexivity.
  - apply IH; auto. + intros x I. apply H. right. exact I. + intros x y b I J. apply D; right; assumption.
  - intros b I J. apply in_flat_map in J. destruct J as (a' & Ia & Ib). assert (a = a') by (apply (D a a' b); [left; reflexivity|right; exact Ia|exact I|exact Ib]).
    subst a'. contradiction.
Qed.

Lemma map_flat_map {A B C : Type} (f : B -> C) (h : A -> list B) l : map f (flat_map h l) = flat_map (fun a => map f (h a)) l.
Proof. induction l as [|a l IH]; cbn; [reflexivity|]. rewrite map_app, IH. reflexivity. Qed.
Lemma NoDup_fst {A B : Type} (l : list (A * B)) : NoDup (map fst l) -> NoDup l.
Proof. apply NoDup_map_inv. Qed.

Lemma mods_fst_in v P Q : In Q (map fst (mods P v)) -> exists q d, Q = P ++ q /\ outermost v q d.
Proof. intros H. apply in_map_iff in H. destruct H as ([Q' d] & <- & H). apply mods_outermost in H. destruct H as (q & E & H). exists q, d. auto. Qed.
Lemma mods_list_nodup P (d : list (string * param)) : NoDup (map fst d) -> (forall k v, In (k, v) d -> forall P, NoDup (map fst (mods P v))) ->
  NoDup (map fst (flat_map (fun kv => mods (P ++ [fst kv]) (snd kv)) d)).
Proof.
  intros ND IH. rewrite map_flat_map. apply NoDup_flat_map.
  - apply NoDup_fst. exact ND.
  - intros [k v] I. cbn [fst snd]. apply (IH k v I).
  - intros [k v] [k' v'] b I I' H H'. cbn [fst snd] in *. apply mods_fst_in in H. apply mods_fst_in in H'.
    destruct H as (q & e & -> & _), H' as (q' & e' & E & _). rewrite <- !app_assoc in E. apply app_inv_head in E. injection E as <- _.
    assert (v' = v) by (eapply nodup_in_eq; eassumption). congruence.
Qed.
Lemma mods_nodup v : well_named v -> forall P, NoDup (map fst (mods P v)).
Proof.
  induction v as [|d IH] using param_ind'; intros W P; cbn [mods]; [constructor|].
  destruct (looks_like_module d); [constructor; [intros []|constructor]|].
  inversion W as [|? ND W']; subst. apply mods_list_nodup; [exact ND|]. intros k v I. apply (IH k v I). apply (W' k v I).
Qed.
Lemma mods_of_nodup ps : well_named (PSub ps) -> NoDup (map fst (mods_of [] ps)).
Proof. intros W. inversion W as [|? ND W']; subst. apply mods_list_nodup; [exact ND|]. intros k v I P. apply mods_nodup. apply (W' k v I). Qed.

(** ** the nodes and edges *)
Definition entry_of (m : list string * list (string * param)) : string * node :=
  (dotted (fst m), Node (last (fst m) ""%string) (infer_module_type (last (fst m) ""%string) (snd m))).

Lemma fold_add_module l : forall g,
  NoDup (map (fun m => dotted (fst m)) l) ->
  (forall m, In m l -> ~ In (dotted (fst m)) (map fst (g_nodes g))) ->
  (forall m, In m l -> dotted (removelast (fst m)) = ""%string \/
     (~ In (dotted (removelast (fst m))) (map fst (g_nodes g)) /\ forall m', In m' l -> dotted (fst m') <> dotted (removelast (fst m)))) ->
  fold_left add_module l g = Graph (g_nodes g ++ map entry_of l) (g_edges g).
Proof.
  induction l as [|[Q d] l IH]; intros g N F E; cbn [fold_left map].
  - rewrite app_nil_r. destruct g; reflexivity.
  - inversion N as [|? ? N1 N2]; subst.
    assert (S : add_module g (Q, d) = Graph (g_nodes g ++ [entry_of (Q, d)]) (g_edges g)).
    { unfold add_module. rewrite sset_fresh by (apply (F (Q, d)); left; reflexivity). cbn [fst] in *. f_equal.
      destruct (E (Q, d) (or_introl eq_refl)) as [Z|[Z1 Z2]]; cbn [fst] in *; [rewrite Z; reflexivity|].
      destruct (mem_key _ _) eqn:M; [|rewrite andb_false_r; reflexivity].
      apply mem_key_in in M. rewrite map_app, in_app_iff in M. destruct M as [M|[M|[]]]; [contradiction|].
      exfalso. apply (Z2 (Q, d)); [left; reflexivity|]. exact M. }
    rewrite S, IH; cbn [g_nodes g_edges].
    + rewrite <- app_assoc. reflexivity.
    + exact N2.
    + intros m I. rewrite map_app, in_app_iff. intros [J|[J|[]]]; [revert J; apply F; right; exact I|].
      apply N1. cbn [fst entry_of] in J. apply in_map_iff. exists m. split; [symmetry; exact J|exact I].
    + intros m I. destruct (E m (or_intror I)) as [Z|[Z1 Z2]]; [left; exact Z|right]. split.
      * rewrite map_app, in_app_iff. intros [J|[J|[]]]; [contradiction|]. revert J. cbn [fst entry_of]. apply (Z2 (Q, d)). left. reflexivity.
      * intros m' I'. apply Z2. right. exact I'.
Qed.

Lemma removelast_prefix {A} (l : list A) d : l <> [] -> l = removelast l ++ [last l d].
Proof. apply app_removelast_last. Qed.

Lemma extract_exact ps : well_named (PSub ps) ->
  extract_modules "" ps empty_graph = Graph (map entry_of (mods_of [] ps)) [].
Proof.
  intros W. rewrite extract_modules_fold by exact W. rewrite fold_add_module; [reflexivity| | |].
  - assert (P : forall Q, In Q (map fst (mods_of [] ps)) -> Forall plain_key Q).
    { intros Q H. apply in_map_iff in H. destruct H as ([Q' d] & <- & H). apply mods_of_module_at in H. eapply module_plain; eassumption. }
    rewrite <- (map_map fst dotted). pose proof (mods_of_nodup ps W) as N. revert P N. generalize (map fst (mods_of [] ps)) as l.
    induction l as [|Q l IH]; intros P N; cbn [map]; [constructor|]. inversion N; subst. constructor.
    + intros I. apply in_map_iff in I. destruct I as (Q' & E & I). apply dotted_inj in E; [subst; contradiction|apply P; right; exact I|apply P; left; reflexivity].
    + apply IH; [|assumption]. intros Q' I. apply P. right. exact I.
  - intros m _ H. cbn in H. exact H.
  - intros [Q d] I. cbn [fst]. destruct (removelast Q) as [|a r] eqn:ER; [left; reflexivity|right]. split; [intros H; cbn in H; exact H|].
    intros [Q' d'] I'. cbn [fst]. apply mods_of_module_at in I, I'. intros E.
    pose proof (module_plain _ _ _ W I) as FQ. pose proof (module_plain _ _ _ W I') as FQ'.
    assert (EQ : Q = (a :: r) ++ [last Q ""%string]) by (rewrite <- ER; apply removelast_prefix; eapply module_nonempty; exact I).
    apply dotted_inj in E; [|exact FQ'|rewrite EQ in FQ; apply Forall_app in FQ; apply FQ].
    subst Q'. rewrite EQ in I. destruct (module_antichain _ _ _ _ _ W I' I) as [Z _]. discriminate Z.
Qed.

(** ** theorems *)
Lemma in_sset_exact {A} k (v : A) d id n : NoDup (map fst d) ->
  (In (id, n) (sset k v d) <-> (id = k /\ n = v) \/ (id <> k /\ In (id, n) d)).
Proof.
  induction d as [|[k' v'] d IH]; intros N; cbn [sset].
  - cbn. split; [intros [E|[]]; inversion E; auto|]. intros [[-> ->]|[_ []]]. left. reflexivity.
  - inversion N as [|? ? N1 N2]; subst. cbn [map fst] in *. destruct (String.eqb_spec k k') as [E|E].
    + subst k'. cbn [In]. split.
      * intros [H|H]; [inversion H; auto|]. right. split; [|right; exact H]. intros ->. apply N1. apply in_map_iff. exists (k, n). auto.
      * intros [[-> ->]|[N3 [H|H]]]; [left; reflexivity|inversion H; congruence|right; exact H].
    + cbn [In]. rewrite (IH N2). split.
      * intros [H|[H|H]]; [inversion H; subst; right; split; auto|left; exact H|right; tauto].
      * intros [H|[N3 [H|H]]]; tauto.
Qed.

Lemma extract_ids_nodup ps : well_named (PSub ps) -> NoDup (map fst (map entry_of (mods_of [] ps))).
Proof.
  intros W. rewrite map_map. cbn [fst entry_of].
  assert (P : forall Q, In Q (map fst (mods_of [] ps)) -> Forall plain_key Q).
  { intros Q H. apply in_map_iff in H. destruct H as ([Q' d] & <- & H). apply mods_of_module_at in H. eapply module_plain; eassumption. }
  rewrite <- (map_map fst dotted). pose proof (mods_of_nodup ps W) as N. revert P N. generalize (map fst (mods_of [] ps)) as l.
  induction l as [|Q l IH]; intros P N; cbn [map]; [constructor|]. inversion N; subst. constructor.
  + intros I. apply in_map_iff in I. destruct I as (Q' & E & I). apply dotted_inj in E; [subst; contradiction|apply P; right; exact I|apply P; left; reflexivity].
  + apply IH; [|assumption]. intros Q' I. apply P. right. exact I.
Qed.

Lemma graph_nodes_exact name ps : well_named (PSub ps) ->
  let g := analyze (Transformed name ps) empty_graph in
  NoDup (map fst (g_nodes g)) /\
  forall id n, In (id, n) (g_nodes g) <->
    (id = "main"%string /\ n = Node name "StreamingFunction") \/
    (id <> "main"%string /\ exists path k d, id = dotted (path ++ [k]) /\ module_at ps (path ++ [k]) d /\ n = Node k (infer_module_type k d)).
Proof.
  intros W. cbv zeta. unfold analyze. cbn [g_nodes]. rewrite extract_exact by exact W. cbn [g_nodes].
  pose proof (extract_ids_nodup ps W) as N. split; [apply sset_nodup; exact N|].
  intros id n. rewrite in_sset_exact by exact N. apply or_iff_compat_l. apply and_iff_compat_l. rewrite in_map_iff. split.
  - intros ([Q d] & E & I). apply mods_of_module_at in I. unfold entry_of in E. cbn [fst snd] in E.
    exists (removelast Q), (last Q ""%string), d. rewrite <- removelast_prefix by (eapply module_nonempty; exact I).
    inversion E; subst. auto.
  - intros (path & k & d & -> & M & ->). exists (path ++ [k], d). unfold entry_of. cbn [fst snd]. rewrite last_last. split; [reflexivity|].
    apply mods_of_module_at. exact M.
Qed.

Lemma graph_no_edges name ps : well_named (PSub ps) -> g_edges (analyze (Transformed name ps) empty_graph) = [].
Proof. intros W. unfold analyze. cbn [g_edges]. rewrite extract_exact by exact W. reflexivity. Qed.

Lemma dotted_has_dot p q : p <> [] -> q <> [] -> Forall plain_key (p ++ q) -> In "."%char (list_ascii_of_string (dotted (p ++ q))).
Proof.
  intros Np Nq _. destruct p as [|a p]; [contradiction|]. cbn [app]. rewrite dotted_cons by (destruct p, q; cbn; congruence).
  rewrite los_dot. apply in_or_app. right. left. reflexivity.
Qed.
Lemma graph_hidden name ps path d q : well_named (PSub ps) -> module_at ps path d -> q <> [] -> Forall plain_key q ->
  ~ In (dotted (path ++ q)) (map fst (g_nodes (analyze (Transformed name ps) empty_graph))).
Proof.
  intros W M Nq Fq I. apply in_map_iff in I. destruct I as ([id n] & E & I). cbn [fst] in E. subst id.
  pose proof (module_plain _ _ _ W M) as Fp.
  destruct (graph_nodes_exact name ps W) as [_ X]. cbv zeta in X. apply X in I. destruct I as [[E _]|(_ & p & k & d' & E & M' & _)].
  - pose proof (dotted_has_dot path q (module_nonempty _ _ _ M) Nq (proj2 (Forall_app _ _ _) (conj Fp Fq))) as D. rewrite E in D.
    cbn in D. repeat (destruct D as [D|D]; [discriminate D|]). exact D.
  - apply dotted_inj in E; [|apply Forall_app; auto|eapply module_plain; eassumption].
    rewrite <- E in M'. destruct (module_antichain _ _ _ _ _ W M M') as [Z _]. contradiction.
Qed.

Lemma sset_keys_grow {A} k (v : A) d x : In x (map fst d) -> In x (map fst (sset k v d)).
Proof. intros H. apply sset_keys. right. exact H. Qed.
Lemma extract_item_grows v : forall p k g x, In x (map fst (g_nodes g)) -> In x (map fst (g_nodes (extract_item p k v g))).
Proof.
  induction v as [|d IH] using param_ind'; intros p k g x I; cbn [extract_item]; [exact I|].
  destruct (looks_like_module d); [apply sset_keys_grow; exact I|].
  revert g I. induction d as [|[k' v'] d IHd]; intros g I; cbn [fold_left]; [exact I|].
  apply IHd; [intros k0 v0 I0; apply (IH k0 v0); right; exact I0|]. cbn [fst snd]. apply (IH k' v'); [left; reflexivity|exact I].
Qed.
Lemma analyze_grows t g x : In x (map fst (g_nodes g)) -> In x (map fst (g_nodes (analyze t g))).
Proof.
  intros I. destruct t as [name ps|name]; unfold analyze; cbn [g_nodes]; apply sset_keys_grow; [|exact I].
  unfold extract_modules. revert g I. induction ps as [|[k v] ps IH]; intros g I; cbn [fold_left]; [exact I|]. apply IH. apply extract_item_grows. exact I.
Qed.

(** a graph is not that of the last function analyzed: every id of the earlier ones stays *)
Lemma analyze_accumulates t ts g : (forall x, In x (map fst (g_nodes (analyze t g))) -> In x (map fst (g_nodes (fold_left (fun g t => analyze t g) ts (analyze t g))))).
Proof.
  generalize (analyze t g) as g0. induction ts as [|t' ts IH]; intros g0 x I; cbn [fold_left]; [exact I|]. apply IH. apply analyze_grows. exact I.
Qed.
