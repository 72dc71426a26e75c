From Coq Require Import String List Bool Arith ZArith Relations Permutation Lia Reals Lra.
From Verif Require Import Model.Tree Model.Unroll Model.FlaxModules Model.FlaxCore Model.Modules Spec.FlaxSpec Spec.FlaxCoreSpec
  Proofs.ListFacts Proofs.RunFacts Proofs.BufferProofs Proofs.FlaxProofs Proofs.FlaxCoreProofs Proofs.HsmProofs.
Import ListNotations.

(** *** the selector *)
Lemma padded_window_push {A} m (f : A) l x : 0 < m ->
  padded_window m f (l ++ [x]) = tl (padded_window m f l) ++ [x].
Proof.
  intros Hm. unfold padded_window. rewrite app_length. cbn [length].
  destruct (Nat.lt_ge_cases (length l) m) as [H|H].
  - replace (length l + 1 - m) with 0 by lia. replace (length l - m) with 0 by lia. cbn [skipn].
    replace (m - length l) with (S (m - (length l + 1))) by lia. cbn [repeat tl app]. rewrite app_assoc. reflexivity.
  - replace (m - (length l + 1)) with 0 by lia. replace (m - length l) with 0 by lia. cbn [repeat app].
    rewrite skipn_app. replace (length l + 1 - m - length l) with 0 by lia. cbn [skipn]. f_equal.
    replace (length l + 1 - m) with (S (length l - m)) by lia.
    clear Hm H. generalize (length l - m) as k. induction l as [|a l IH]; intros k.
    + destruct k; reflexivity.
    + destruct k as [|k]; [reflexivity|]. cbn [skipn]. rewrite <- IH. reflexivity.
Qed.
Lemma padded_window_length {A} m (f : A) l : length (padded_window m f l) = m.
Proof. unfold padded_window. rewrite app_length, repeat_length, skipn_length. lia. Qed.

Lemma app_eq_len {A} (a b c d : list A) : length a = length c -> a ++ b = c ++ d -> a = c /\ b = d.
Proof.
  revert c. induction a as [|x a IH]; intros [|y c] L E; cbn in *; try lia; [auto|].
  assert (x = y) by congruence. subst. destruct (IH c) as [E1 E2]; [lia|congruence|]. subst. auto.
Qed.

Lemma flax_calls_length {S X Y} (m : flax_module S X Y) l : forall s, length (fst (flax_calls m s l)) = length l.
Proof.
  induction l as [|x l IH]; intros s; cbn [flax_calls]; [reflexivity|].
  destruct (fx_call m s x) as [y s1]. specialize (IH s1). destruct (flax_calls m s1 l). cbn in *. congruence.
Qed.

Section Sel.
  Context {X E : Type}.
  Variable N : nat.
  Variable encode : X -> E.
  Variable attend : E -> list E -> E.
  Variable zero : E.
  Hypothesis HN : 0 < N.

  Definition sel_inv (es : list E) (st : selector_state E) : Prop :=
    length (history st) = N /\ pointer st = length es mod N /\ size st = Nat.min (length es) N /\
    rotated (pointer st) (history st) = padded_window N zero es.

  Lemma sel_inv_step es st e : sel_inv es st -> sel_inv (es ++ [e]) (add_to_history N st e).
  Proof.
    intros (H1 & H2 & H3 & H4). unfold add_to_history, sel_inv. cbn [history pointer size].
    assert (Hp : pointer st < N) by (rewrite H2; apply Nat.mod_upper_bound; lia).
    rewrite app_length. cbn [length]. split; [rewrite set_at_length; lia|]. split; [|split].
    - rewrite H2. rewrite Nat.add_mod_idemp_l by lia. reflexivity.
    - rewrite H3. lia.
    - rewrite padded_window_push by exact HN. rewrite <- H4.
      pose proof (rotate_write (history st) (pointer st) e ltac:(lia)) as RW. rewrite H1 in RW.
      replace (pointer st + 1) with (S (pointer st)) by lia. rewrite RW. apply push_eq.
      intros F. apply (f_equal (@length E)) in F. rewrite rotated_length, H1 in F. cbn in F. lia.
  Qed.

  Lemma sel_valid es st : sel_inv es st -> valid_history N st = lastn N es.
  Proof.
    intros (H1 & H2 & H3 & H4). unfold valid_history, lastn. unfold padded_window in H4.
    destruct (Nat.ltb_spec (size st) N) as [L|L].
    - assert (length es < N) by lia. rewrite H3, Nat.min_l by lia. rewrite Nat.mod_small in H2 by lia.
      replace (length es - N) with 0 in * by lia. cbn [skipn] in *. unfold rotated in H4. rewrite H2 in H4.
      assert (L1 : length (skipn (length es) (history st)) = length (repeat zero (N - length es))).
      { rewrite skipn_length, repeat_length. lia. }
      destruct (app_eq_len _ _ _ _ L1 H4) as [_ E2]. exact E2.
    - assert (N <= length es) by lia. replace (N - length es) with 0 in H4 by lia. exact H4.
  Qed.

  Lemma sel_after xs : forall es st ua, sel_inv es st ->
    sel_inv (es ++ map encode xs) (snd (flax_calls (Selector N encode attend zero ua) st xs)).
  Proof.
    induction xs as [|x xs IH]; intros es st ua I; cbn [flax_calls map]; [rewrite app_nil_r; exact I|].
    change (fx_call (Selector N encode attend zero ua) st x) with (selector_call N encode attend zero ua st x).
    unfold selector_call. pose proof (sel_inv_step es st (encode x) I) as I'.
    specialize (IH _ _ ua I'). rewrite <- app_assoc in IH. cbn [app] in IH.
    destruct (flax_calls (Selector N encode attend zero ua) (add_to_history N st (encode x)) xs). exact IH.
  Qed.
  Lemma sel_inv_init : sel_inv [] (SelectorState (repeat zero N) 0 0).
  Proof.
    split; [apply repeat_length|]. split; [rewrite Nat.mod_0_l by lia; reflexivity|]. split; [reflexivity|].
    cbn [pointer history]. unfold rotated, padded_window. cbn [skipn firstn length]. rewrite Nat.sub_0_r. reflexivity.
  Qed.

  (** the outputs of the call that follows the calls on [x0 :: xs] (or is the first one) *)
  Theorem selector_history ua xs x0 x t : nth_error (x0 :: xs) t = Some x ->
    exists o, nth_error (flax_from_scratch (Selector N encode attend zero ua) (x0 :: xs)) t = Some o /\
      original_state o = encode x /\
      let past := lastn N (map encode (firstn t (x0 :: xs))) in
      if ua && (2 <=? length past)
      then relevant_history o = past /\ enhanced_state o = attend (encode x) past /\
           attention_weights o = repeat (1 / INR (length past))%R (length past)
      else relevant_history o = [zero] /\ enhanced_state o = encode x /\ attention_weights o = [0%R].
  Proof.
    intros Hx. set (l := x0 :: xs) in *. assert (Sp : l = firstn t l ++ x :: skipn (S t) l).
    { clear - Hx. revert t Hx. induction l as [|a l IH]; intros [|t] H; try discriminate.
      - cbn in H. cbn. congruence.
      - cbn in H. cbn [firstn skipn app]. f_equal. apply IH. exact H. }
    assert (Lt : t < length l) by (apply nth_error_Some; congruence).
    assert (FS : flax_from_scratch (Selector N encode attend zero ua) l =
      fst (flax_calls (Selector N encode attend zero ua) (SelectorState (repeat zero N) 0 0) (firstn t l ++ x :: skipn (S t) l)))
      by (rewrite <- Sp; reflexivity).
    rewrite FS. rewrite flax_calls_app. cbn [fst].
    set (st := snd (flax_calls (Selector N encode attend zero ua) (SelectorState (repeat zero N) 0 0) (firstn t l))).
    assert (I : sel_inv (map encode (firstn t l)) st) by (apply (sel_after (firstn t l) []); apply sel_inv_init).
    exists (fst (selector_call N encode attend zero ua st x)). split.
    - rewrite nth_error_app2 by (rewrite flax_calls_length, firstn_length; lia).
      rewrite flax_calls_length, firstn_length. replace (t - Nat.min t (length l)) with 0 by lia.
      cbn [flax_calls]. fold st. destruct (fx_call (Selector N encode attend zero ua) st x) as [y s'] eqn:C.
      destruct (flax_calls (Selector N encode attend zero ua) s' (skipn (S t) l)). cbn [fst nth_error]. f_equal.
      change (fx_call (Selector N encode attend zero ua) st x) with (selector_call N encode attend zero ua st x) in C.
      rewrite C. reflexivity.
    - unfold selector_call. cbn [fst]. pose proof (sel_valid _ _ I) as V. destruct I as (_ & _ & Sz & _).
      cbn zeta. rewrite V.
      assert (Q : (1 <? size st) = (2 <=? length (lastn N (map encode (firstn t l))))).
      { rewrite Sz. unfold lastn. rewrite skipn_length.
        destruct (Nat.ltb_spec 1 (Nat.min (length (map encode (firstn t l))) N));
          destruct (Nat.leb_spec 2 (length (map encode (firstn t l)) - (length (map encode (firstn t l)) - N))); lia. }
      rewrite <- Q. destruct (ua && (1 <? size st)); cbn [original_state relevant_history enhanced_state attention_weights]; auto.
  Qed.
End Sel.

(** *** CompositeStateManager *)
Lemma lookup_merge {V} (b : list (string * V)) : forall a k, NoDup (map fst b) ->
  lookup k (merge a b) = match lookup k b with Some v => Some v | None => lookup k a end.
Proof.
  unfold merge. induction b as [|[k' v] b IH]; intros a k ND; cbn [fold_left lookup]; [reflexivity|].
  cbn in ND. apply NoDup_cons_iff in ND. destruct ND as [Nk ND]. rewrite IH by exact ND. cbn [fst snd]. rewrite lookup_store.
  destruct (String.eqb_spec k k') as [F|F]; [|reflexivity]. subst.
  apply lookup_None in Nk. rewrite Nk. reflexivity.
Qed.

Section Comp.
  Context {S : Type}.
  Notation pats := (list (string * flax_module S pyval pyval)).

  (** the common shape: [next c o] gives the following input *)
  Fixpoint chain (next : pyval -> pyval -> pyval) (ps : pats) (st : string -> S) (c : pyval)
    (outputs : list (string * pyval)) : list (string * pyval) * (string -> S) :=
    match ps with
    | [] => (outputs, st)
    | (n, m) :: r => let '(o, s') := fx_call m (st n) c in chain next r (upd st n s') (next c o) (store outputs n o)
    end.
  Definition next_hier (c o : pyval) : pyval :=
    match o with PDict d => match lookup "influence" d with Some v => v | None => c end | _ => c end.
  Lemma pipeline_chain ps : forall st c outs, pipeline ps st c outs = chain feed ps st c outs.
  Proof. induction ps as [|[n m] ps IH]; intros st c outs; cbn; [reflexivity|]. destruct (fx_call m (st n) c). apply IH. Qed.
  Lemma parallel_chain ps : forall st c outs, parallel ps st c outs = chain (fun c _ => c) ps st c outs.
  Proof. induction ps as [|[n m] ps IH]; intros st c outs; cbn; [reflexivity|]. destruct (fx_call m (st n) c). apply IH. Qed.
  Lemma hierarchical_chain ps : forall st c outs, hierarchical ps st c outs = chain next_hier ps st c outs.
  Proof. induction ps as [|[n m] ps IH]; intros st c outs; cbn; [reflexivity|]. destruct (fx_call m (st n) c). apply IH. Qed.

  Lemma chain_spec next ps : forall st c outs, NoDup (map fst ps) ->
    (forall n, In n (map fst ps) -> lookup n outs = None) ->
    exists inputs news, length inputs = length ps + 1 /\ nth_error inputs 0 = Some c /\
      fst (chain next ps st c outs) = outs ++ news /\ map fst news = map fst ps /\
      (forall n, ~ In n (map fst ps) -> snd (chain next ps st c outs) n = st n) /\
      forall i n m, nth_error ps i = Some (n, m) -> exists ci,
        nth_error inputs i = Some ci /\ nth_error news i = Some (n, fst (fx_call m (st n) ci)) /\
        snd (chain next ps st c outs) n = snd (fx_call m (st n) ci) /\
        nth_error inputs (i + 1) = Some (next ci (fst (fx_call m (st n) ci))).
  Proof.
    induction ps as [|[n m] ps IH]; intros st c outs ND Fr; cbn [chain].
    - exists [c], []. repeat split; try reflexivity; [cbn; rewrite app_nil_r; reflexivity|]. intros [|i] n m H; discriminate.
    - cbn in ND. apply NoDup_cons_iff in ND. destruct ND as [Nn ND]. destruct (fx_call m (st n) c) as [o s'] eqn:C.
      rewrite (store_fresh outs n o) by (apply Fr; left; reflexivity).
      destruct (IH (upd st n s') (next c o) (outs ++ [(n, o)]) ND) as (inputs & news & L & H0 & H1 & H2 & H3 & H4).
      { intros n' I. rewrite lookup_None, map_app, in_app_iff. cbn. intros [F|[F|[]]].
        - revert F. apply lookup_None. apply Fr. right. exact I.
        - subst. contradiction. }
      exists (c :: inputs), ((n, o) :: news). split; [cbn; lia|]. split; [reflexivity|]. split; [rewrite H1, <- app_assoc; reflexivity|].
      split; [cbn; congruence|]. split.
      + intros n' NI. cbn in NI. rewrite H3 by tauto. unfold upd. destruct (String.eqb_spec n' n) as [F|F]; [|reflexivity].
        subst. destruct NI. left. reflexivity.
      + intros [|i] n' m' Hi.
        * cbn in Hi. assert (n' = n) by congruence. assert (m' = m) by congruence. subst. exists c.
          split; [reflexivity|]. rewrite C. split; [reflexivity|]. split; [|exact H0].
          rewrite H3 by exact Nn. unfold upd. rewrite String.eqb_refl. reflexivity.
        * cbn in Hi. destruct (H4 i n' m' Hi) as (ci & G1 & G2 & G3 & G4). exists ci.
          assert (n' <> n) by (intros F; subst; apply Nn; apply nth_error_In in Hi; apply (in_map fst) in Hi; exact Hi).
          assert (U : upd st n s' n' = st n') by (unfold upd; destruct (String.eqb_spec n' n); [congruence|reflexivity]).
          rewrite U in *. split; [exact G1|]. split; [exact G2|]. split; [exact G3|exact G4].
  Qed.

  Variable ps : pats.
  Hypothesis ND : NoDup (map fst ps).

  Theorem pipeline_spec st input outs st' :
    (forall n m s x d, In (n, m) ps -> fst (fx_call m s x) = PDict d -> NoDup (map fst d)) ->
    composite_call ps "pipeline" st input = Some (outs, st') ->
    map fst outs = map fst ps /\ exists inputs, nth_error inputs 0 = Some input /\
      forall i n m, nth_error ps i = Some (n, m) -> exists c c' o,
        nth_error inputs i = Some c /\ nth_error inputs (i + 1) = Some c' /\ nth_error outs i = Some (n, o) /\
        fx_call m (st n) c = (o, st' n) /\ passed_on c o c'.
  Proof.
    intros W E. unfold composite_call in E. cbn in E. rewrite pipeline_chain in E.
    destruct (chain_spec feed ps st input [] ND) as (inputs & news & L & H0 & H1 & H2 & H3 & H4); [reflexivity|].
    assert (C : chain feed ps st input [] = (outs, st')) by congruence. rewrite C in *. cbn [fst snd app] in *. subst news.
    split; [exact H2|]. exists inputs. split; [exact H0|]. intros i n m Hi.
    destruct (H4 i n m Hi) as (ci & G1 & G2 & G3 & G4). exists ci, (feed ci (fst (fx_call m (st n) ci))), (fst (fx_call m (st n) ci)).
    split; [exact G1|]. split; [exact G4|]. split; [exact G2|]. split; [rewrite G3; destruct (fx_call m (st n) ci); reflexivity|].
    apply nth_error_In in Hi. specialize (W n m (st n) ci). destruct (fst (fx_call m (st n) ci)) as [r|s|d]; destruct ci as [r'|s'|d'];
      cbn [feed passed_on]; try reflexivity. exists (merge d' d). split; [reflexivity|]. intros k. apply lookup_merge. exact (W d Hi eq_refl).
  Qed.

  Theorem parallel_spec st input outs st' :
    composite_call ps "parallel" st input = Some (outs, st') ->
    map fst outs = map fst ps /\
    forall i n m, nth_error ps i = Some (n, m) -> exists o,
      nth_error outs i = Some (n, o) /\ fx_call m (st n) input = (o, st' n).
  Proof.
    intros E. unfold composite_call in E. cbn in E. rewrite parallel_chain in E.
    destruct (chain_spec (fun c _ => c) ps st input [] ND) as (inputs & news & L & H0 & H1 & H2 & H3 & H4); [reflexivity|].
    assert (C : chain (fun c _ => c) ps st input [] = (outs, st')) by congruence. rewrite C in *. cbn [fst snd app] in *. subst news.
    split; [exact H2|].
    assert (AI : forall i c, i <= length ps -> nth_error inputs i = Some c -> c = input).
    { induction i as [|i IH]; intros c Li Hc; [congruence|].
      destruct (nth_error ps i) as [[n m]|] eqn:Hi; [|apply nth_error_None in Hi; lia].
      destruct (H4 i n m Hi) as (ci & G1 & _ & _ & G4). replace (i + 1) with (Datatypes.S i) in G4 by lia.
      assert (c = ci) by congruence. subst. apply IH; [lia|exact G1]. }
    intros i n m Hi. destruct (H4 i n m Hi) as (ci & G1 & G2 & G3 & G4).
    assert (ci = input) by (apply (AI i); [assert (i < length ps) by (apply nth_error_Some; congruence); lia|exact G1]). subst ci.
    exists (fst (fx_call m (st n) input)). split; [exact G2|]. rewrite G3. destruct (fx_call m (st n) input); reflexivity.
  Qed.

  Theorem hierarchical_spec st input outs st' :
    composite_call ps "hierarchical" st input = Some (outs, st') ->
    map fst outs = map fst ps /\ exists inputs, nth_error inputs 0 = Some input /\
      forall i n m, nth_error ps i = Some (n, m) -> exists c c' o,
        nth_error inputs i = Some c /\ nth_error inputs (i + 1) = Some c' /\ nth_error outs i = Some (n, o) /\
        fx_call m (st n) c = (o, st' n) /\
        ((exists d, o = PDict d /\ lookup "influence" d = Some c') \/
         ((forall d, o = PDict d -> lookup "influence" d = None) /\ c' = c)).
  Proof.
    intros E. unfold composite_call in E. cbn in E. rewrite hierarchical_chain in E.
    destruct (chain_spec next_hier ps st input [] ND) as (inputs & news & L & H0 & H1 & H2 & H3 & H4); [reflexivity|].
    assert (C : chain next_hier ps st input [] = (outs, st')) by congruence. rewrite C in *. cbn [fst snd app] in *. subst news.
    split; [exact H2|]. exists inputs. split; [exact H0|]. intros i n m Hi.
    destruct (H4 i n m Hi) as (ci & G1 & G2 & G3 & G4). exists ci, (next_hier ci (fst (fx_call m (st n) ci))), (fst (fx_call m (st n) ci)).
    split; [exact G1|]. split; [exact G4|]. split; [exact G2|]. split; [rewrite G3; destruct (fx_call m (st n) ci); reflexivity|].
    destruct (fst (fx_call m (st n) ci)) as [r|s|d]; cbn [next_hier].
    - right. split; [intros d F; discriminate|reflexivity].
    - right. split; [intros d F; discriminate|reflexivity].
    - destruct (lookup "influence" d) as [v|] eqn:Lk.
      + left. exists d. auto.
      + right. split; [intros d' F; congruence|reflexivity].
  Qed.

  Theorem composite_unknown strategy st input : strategy <> "pipeline"%string -> strategy <> "parallel"%string ->
    strategy <> "hierarchical"%string -> composite_call ps strategy st input = None.
  Proof.
    intros H1 H2 H3. unfold composite_call. destruct (String.eqb_spec strategy "pipeline"); [congruence|].
    destruct (String.eqb_spec strategy "parallel"); [congruence|]. destruct (String.eqb_spec strategy "hierarchical"); [congruence|reflexivity].
  Qed.
End Comp.

(** *** HierarchicalState *)
Section HS.
  Context {S V : Type}.
  Variable deps : list (string * list string).
  Notation kw := (list (string * V)).

  Lemma from_deps_lookup (computed : kw) k l : forall d0,
    lookup k (fold_left (fun d dep => match lookup dep computed with Some v => store d dep v | None => d end) l d0) =
    if mem k l then match lookup k computed with Some v => Some v | None => lookup k d0 end else lookup k d0.
  Proof.
    induction l as [|a l IH]; intros d0; cbn [fold_left]; [reflexivity|]. rewrite IH. unfold mem. cbn [existsb].
    fold (mem k l). destruct (String.eqb_spec k a) as [F|F]; cbn [orb].
    - subst. destruct (lookup a computed) as [v|]; [|destruct (mem a l); reflexivity].
      rewrite lookup_store, String.eqb_refl. destruct (mem a l); reflexivity.
    - destruct (lookup a computed) as [v|]; [|reflexivity]. rewrite lookup_store.
      destruct (String.eqb_spec k a); [congruence|reflexivity].
  Qed.

  Theorem execute_in_order_spec (inputs : kw) : NoDup (map fst inputs) ->
    forall (ms : list (string * flax_module S kw V)) (st : string -> S) (outs : kw),
    NoDup (map fst ms) -> (forall n, In n (map fst ms) -> lookup n outs = None) ->
    exists news, fst (execute_in_order deps ms st inputs outs) = outs ++ news /\ map fst news = map fst ms /\
     (forall n, ~ In n (map fst ms) -> snd (execute_in_order deps ms st inputs outs) n = st n) /\
     forall a n m b, ms = a ++ (n, m) :: b -> exists kws,
       (forall k, lookup k kws = match lookup k inputs with
          | Some v => Some v
          | None => if mem k (deps_of deps n) then lookup k (outs ++ firstn (length a) news) else None end) /\
       nth_error news (length a) = Some (n, fst (fx_call m (st n) kws)) /\
       snd (execute_in_order deps ms st inputs outs) n = snd (fx_call m (st n) kws).
  Proof.
    intros NI. induction ms as [|[n0 m0] ms IH]; intros st outs ND Fr; cbn [execute_in_order].
    - exists []. rewrite app_nil_r. split; [reflexivity|]. split; [reflexivity|]. split; [reflexivity|].
      intros a n m b F. destruct a; discriminate.
    - cbn in ND. apply NoDup_cons_iff in ND. destruct ND as [Nn ND].
      set (kws0 := module_inputs deps n0 inputs outs).
      assert (K0 : forall k, lookup k kws0 = match lookup k inputs with Some v => Some v
         | None => if mem k (deps_of deps n0) then lookup k outs else None end).
      { intros k. unfold kws0, module_inputs. rewrite lookup_merge by exact NI. destruct (lookup k inputs); [reflexivity|].
        rewrite from_deps_lookup. cbn [lookup]. destruct (mem k (deps_of deps n0)); [|reflexivity]. destruct (lookup k outs); reflexivity. }
      destruct (fx_call m0 (st n0) kws0) as [o s'] eqn:C.
      rewrite (store_fresh outs n0 o) by (apply Fr; left; reflexivity).
      destruct (IH (upd st n0 s') (outs ++ [(n0, o)]) ND) as (news & H1 & H2 & H3 & H4).
      { intros n' I. rewrite lookup_None, map_app, in_app_iff. cbn. intros [F|[F|[]]].
        - revert F. apply lookup_None. apply Fr. right. exact I.
        - subst. contradiction. }
      exists ((n0, o) :: news). split; [rewrite H1, <- app_assoc; reflexivity|]. split; [cbn; congruence|]. split.
      + intros n' N'. cbn in N'. rewrite H3 by tauto. unfold upd. destruct (String.eqb_spec n' n0) as [F|F]; [|reflexivity].
        subst. destruct N'. left. reflexivity.
      + intros a n m b F. destruct a as [|[n1 m1] a]; cbn [app] in F.
        * assert (n0 = n) by congruence. assert (m0 = m) by congruence. subst n0 m0. exists kws0.
          split; [intros k; rewrite K0; cbn [length firstn]; rewrite app_nil_r; reflexivity|]. rewrite C. split; [reflexivity|].
          rewrite H3 by exact Nn. unfold upd. rewrite String.eqb_refl. reflexivity.
        * assert (ms = a ++ (n, m) :: b) by congruence.
          assert (n <> n0).
          { intros G. subst n0. apply Nn. rewrite H, map_app, in_app_iff. right. left. reflexivity. }
          destruct (H4 a n m b H) as (kws & G1 & G2 & G3). exists kws.
          assert (U : upd st n0 s' n = st n) by (unfold upd; destruct (String.eqb_spec n n0); [congruence|reflexivity]).
          rewrite U in *. split; [|split; [exact G2|exact G3]].
          intros k. rewrite G1. destruct (lookup k inputs); [reflexivity|]. rewrite <- app_assoc. reflexivity.
  Qed.
End HS.

(** *** StreamingOptimizer *)
Section SO.
  Context {S X Y L T O : Type}.
  Variable model : flax_module S X Y.
  Variable target : X -> T.
  Variable vg : Y -> T -> R -> L * R.
  Variable opt_init : R -> O.
  Variable opt_update : R -> O -> R -> R * O.
  Notation SOpt := (StreamingOptimizer model target vg opt_init opt_update).

  Lemma sopt_model xs : forall s so, 
    map (fun o => snd (fst o)) (fst (flax_calls SOpt (s, so) xs)) = fst (flax_calls model s xs) /\
    fst (snd (flax_calls SOpt (s, so) xs)) = snd (flax_calls model s xs).
  Proof.
    induction xs as [|x xs IH]; intros s so; cbn [flax_calls]; [split; reflexivity|].
    change (fx_call SOpt (s, so) x) with (sopt_call model target vg opt_update (s, so) x).
    unfold sopt_call. destruct so as [scale os]. destruct (fx_call model s x) as [y s'].
    destruct (vg y (target x) scale) as [l g]. destruct (opt_update g os scale) as [u os'].
    destruct (IH s' ((scale + u)%R, os')) as [I1 I2]. destruct (flax_calls SOpt (s', ((scale + u)%R, os')) xs) as [ys ss].
    destruct (flax_calls model s' xs) as [zs s2]. cbn [fst snd map] in *. split; [congruence|exact I2].
  Qed.

  (** the scale and the optimizer state along the calls *)
  Lemma sopt_scale xs : forall s sc os ys st',
    flax_calls SOpt (s, (sc, os)) xs = (ys, st') ->
    exists states, nth_error states 0 = Some (sc, os) /\ nth_error states (length xs) = Some (snd st') /\
      forall t x, nth_error xs t = Some x -> exists sc_t os_t y l g u os',
        nth_error states t = Some (sc_t, os_t) /\ nth_error (fst (flax_calls model s xs)) t = Some y /\
        vg y (target x) sc_t = (l, g) /\ opt_update g os_t sc_t = (u, os') /\
        nth_error ys t = Some ((l, y), ((sc_t + u)%R, g)) /\ nth_error states (t + 1) = Some ((sc_t + u)%R, os').
  Proof.
    induction xs as [|x xs IH]; intros s sc os ys st' E; cbn [flax_calls] in *.
    - exists [(sc, os)]. split; [reflexivity|]. split; [assert (st' = (s, (sc, os))) by congruence; subst; reflexivity|].
      intros [|t] x H; discriminate.
    - change (fx_call SOpt (s, (sc, os)) x) with (sopt_call model target vg opt_update (s, (sc, os)) x) in E.
      unfold sopt_call in E. destruct (fx_call model s x) as [y s'] eqn:C.
      destruct (vg y (target x) sc) as [l g] eqn:V. destruct (opt_update g os sc) as [u os'] eqn:U.
      destruct (flax_calls SOpt (s', ((sc + u)%R, os')) xs) as [ys' ss] eqn:Fc.
      assert (ys = ((l, y), ((sc + u)%R, g)) :: ys') by congruence. assert (ss = st') by congruence. subst ys ss.
      destruct (IH _ _ _ _ _ Fc) as (states & H0 & H1 & H2). exists ((sc, os) :: states). split; [reflexivity|].
      split; [exact H1|]. intros [|t] z Hz.
      + cbn in Hz. assert (z = x) by congruence. subst z. exists sc, os, y, l, g, u, os'. split; [reflexivity|].
        split; [destruct (flax_calls model s' xs); reflexivity|]. split; [exact V|]. split; [exact U|]. split; [reflexivity|exact H0].
      + cbn in Hz. destruct (H2 t z Hz) as (sc_t & os_t & yt & lt & gt & ut & ot & G1 & G2 & G3 & G4 & G5 & G6).
        exists sc_t, os_t, yt, lt, gt, ut, ot. split; [exact G1|]. split; [destruct (flax_calls model s' xs); exact G2|].
        split; [exact G3|]. split; [exact G4|]. split; [exact G5|exact G6].
  Qed.

  Lemma sopt_from_scratch x0 xs :
    let outs := flax_from_scratch SOpt (x0 :: xs) in
    exists scale : nat -> R, exists os : nat -> O,
      scale 0%nat = 1%R /\ os 0%nat = opt_init 1%R /\
      forall t x, nth_error (x0 :: xs) t = Some x -> exists y l g u,
        nth_error (flax_from_scratch model (x0 :: xs)) t = Some y /\
        vg y (target x) (scale t) = (l, g) /\ opt_update g (os t) (scale t) = (u, os (t + 1)%nat) /\
        scale (t + 1)%nat = (scale t + u)%R /\ nth_error outs t = Some ((l, y), (scale (t + 1)%nat, g)).
  Proof.
    intros outs. unfold outs, flax_from_scratch. change (fx_vars SOpt x0) with (fx_vars model x0, (1%R, opt_init 1%R)).
    destruct (flax_calls SOpt (fx_vars model x0, (1%R, opt_init 1%R)) (x0 :: xs)) as [ys st'] eqn:E.
    destruct (sopt_scale _ _ _ _ _ _ E) as (states & H0 & _ & H).
    exists (fun t => fst (nth t states (1%R, opt_init 1%R))), (fun t => snd (nth t states (1%R, opt_init 1%R))).
    rewrite (nth_error_nth _ _ _ H0). cbn [fst snd]. split; [reflexivity|]. split; [reflexivity|].
    intros t x Hx. destruct (H t x Hx) as (sc_t & os_t & y & l & g & u & os' & G1 & G2 & G3 & G4 & G5 & G6).
    exists y, l, g, u. rewrite (nth_error_nth _ _ _ G1), (nth_error_nth _ _ _ G6). cbn [fst snd].
    split; [exact G2|]. split; [exact G3|]. split; [exact G4|]. split; [reflexivity|exact G5].
  Qed.
End SO.
