From Coq Require Import String List Bool Arith Relations Permutation Sorted Lia Reals Lra.
From Verif Require Import Model.Tree Model.Unroll Model.FlaxModules Model.FlaxCore Spec.FlaxCoreSpec
  Proofs.FlaxCoreProofs.
Import ListNotations.

Lemma lookup_store {V} (d : list (string * V)) k v k' :
  lookup k' (store d k v) = if String.eqb k' k then Some v else lookup k' d.
Proof.
  induction d as [|[a b] d IH]; cbn [store lookup].
  - reflexivity.
  - destruct (String.eqb_spec k a) as [E|E]; cbn [lookup].
    + subst. destruct (String.eqb k' a); reflexivity.
    + rewrite IH. destruct (String.eqb_spec k' a) as [E1|E1]; [|reflexivity].
      subst. destruct (String.eqb_spec a k) as [E2|]; [congruence|reflexivity].
Qed.
Lemma store_fresh {V} (d : list (string * V)) k v : lookup k d = None -> store d k v = d ++ [(k, v)].
Proof.
  induction d as [|[a b] d IH]; cbn [store lookup app]; [reflexivity|].
  destruct (String.eqb k a); [discriminate|]. intros E. rewrite IH by exact E. reflexivity.
Qed.
Lemma lookup_In {V} (d : list (string * V)) k v : lookup k d = Some v -> In (k, v) d.
Proof.
  induction d as [|[a b] d IH]; cbn; [discriminate|]. destruct (String.eqb_spec k a); intros E; [left; congruence|auto].
Qed.
Lemma lookup_None {V} (d : list (string * V)) k : lookup k d = None <-> ~ In k (map fst d).
Proof.
  induction d as [|[a b] d IH]; cbn; [tauto|]. destruct (String.eqb_spec k a) as [E|E].
  - split; [discriminate|]. intros H. destruct H. left; congruence.
  - rewrite IH. split; [intros H [F|F]; [congruence|tauto]|tauto].
Qed.
Lemma lookup_NoDup {V} (d : list (string * V)) k v : NoDup (map fst d) -> In (k, v) d -> lookup k d = Some v.
Proof.
  induction d as [|[a b] d IH]; cbn; [intros _ []|]. intros N [E|I]; apply NoDup_cons_iff in N; destruct N as [Na N].
  - assert (a = k) by congruence. assert (b = v) by congruence. subst. rewrite String.eqb_refl. reflexivity.
  - destruct (String.eqb_spec k a) as [E|E]; [|auto]. subst. destruct Na.
    apply (in_map fst) in I. exact I.
Qed.

(** *** depth *)
Lemma max_opt_bound {A} (g : A -> option nat) B l :
  (forall x, In x l -> exists k, g x = Some k /\ k <= B) ->
  exists m, max_opt (map g l) = Some m /\ m <= B.
Proof.
  induction l as [|x l IH]; intros H; cbn [map max_opt].
  - exists 0. split; [reflexivity|lia].
  - destruct (H x (or_introl eq_refl)) as [k [E L]]. destruct IH as [m [E2 L2]]; [intros y I; apply H; right; exact I|].
    rewrite E, E2. exists (Nat.max k m). split; [reflexivity|lia].
Qed.
Lemma max_opt_ge {A} (g : A -> option nat) l m x : max_opt (map g l) = Some m -> In x l ->
  exists k, g x = Some k /\ k <= m.
Proof.
  revert m. induction l as [|y l IH]; intros m E; [intros []|]. cbn [map max_opt] in E.
  destruct (g y) as [k|] eqn:G; [|discriminate]. destruct (max_opt (map g l)) as [m'|]; [|discriminate].
  assert (m = Nat.max k m') by congruence. subst. intros [F|I].
  - subst. exists k. split; [exact G|lia].
  - destruct (IH m' eq_refl I) as [k' [G' L]]. exists k'. split; [exact G'|lia].
Qed.

Section Depth.
  Variable deps : list (string * list string).
  Lemma get_depth_S f v n : get_depth (S f) deps v n =
    if mem n v then Some 0 else
    if Nat.eqb (length (deps_of deps n)) 0 then Some 0 else
      match max_opt (map (get_depth f deps (n :: v)) (deps_of deps n)) with Some m => Some (m + 1) | None => None end.
  Proof. cbn [get_depth]. destruct (mem n v); [reflexivity|]. destruct (deps_of deps n); reflexivity. Qed.

  Lemma deps_key n : deps_of deps n <> [] -> In n (map fst deps).
  Proof.
    unfold deps_of. destruct (lookup n deps) as [l|] eqn:E; [|congruence]. intros _.
    apply lookup_In in E. apply (in_map fst) in E. exact E.
  Qed.

  Lemma get_depth_total f : forall v n, NoDup v -> incl v (map fst deps) ->
    length deps - length v + 2 <= f ->
    exists k, get_depth f deps v n = Some k /\ k <= length deps - length v.
  Proof.
    induction f as [|f IH]; intros v n N I L; [lia|]. rewrite get_depth_S.
    destruct (mem n v) eqn:M; [exists 0; split; [reflexivity|lia]|].
    destruct (Nat.eqb_spec (length (deps_of deps n)) 0) as [Z|Z]; [exists 0; split; [reflexivity|lia]|].
    assert (K : In n (map fst deps)) by (apply deps_key; intros E; rewrite E in Z; apply Z; reflexivity).
    apply mem_false in M.
    assert (N' : NoDup (n :: v)) by (constructor; assumption).
    assert (I' : incl (n :: v) (map fst deps)) by (intros y [E|Y]; [subst; exact K|apply I; exact Y]).
    pose proof (NoDup_incl_length N' I') as LL. rewrite map_length in LL. cbn [length] in LL.
    destruct (max_opt_bound (get_depth f deps (n :: v)) (length deps - length (n :: v)) (deps_of deps n)) as [m [E B]].
    { intros d _. apply IH; [exact N'|exact I'|cbn [length]; lia]. }
    rewrite E. cbn [length] in B. exists (m + 1). split; [reflexivity|lia].
  Qed.
  Lemma depth_total n : exists k, depth deps n = Some k /\ k <= length deps.
  Proof.
    destruct (get_depth_total (S (S (length deps))) [] n) as [k [E L]].
    - constructor.
    - intros x [].
    - cbn [length]. lia.
    - exists k. split; [exact E|cbn [length] in L; lia].
  Qed.

  Hypothesis A : acyclic (needs deps).
  Lemma get_depth_visited f : forall f' v v' n k k',
    (forall x, In x v -> clos_trans _ (needs deps) x n) -> (forall x, In x v' -> clos_trans _ (needs deps) x n) ->
    get_depth f deps v n = Some k -> get_depth f' deps v' n = Some k' -> k = k'.
  Proof.
    induction f as [|f IH]; intros f' v v' n k k' H H' E E'; [discriminate|].
    destruct f' as [|f']; [discriminate|]. rewrite get_depth_S in E, E'.
    assert (M : mem n v = false) by (apply mem_false; intros I; exact (A _ (H _ I))).
    assert (M' : mem n v' = false) by (apply mem_false; intros I; exact (A _ (H' _ I))).
    rewrite M in E. rewrite M' in E'.
    destruct (Nat.eqb (length (deps_of deps n)) 0); [congruence|].
    assert (ND : forall d, In d (deps_of deps n) -> needs deps n d) by (intros d; apply needs_deps).
    assert (Q : forall m m', max_opt (map (get_depth f deps (n :: v)) (deps_of deps n)) = Some m ->
      max_opt (map (get_depth f' deps (n :: v')) (deps_of deps n)) = Some m' -> m = m').
    { clear E E'. induction (deps_of deps n) as [|d l IHl]; cbn [map max_opt]; [congruence|]. intros m m' E E'.
      destruct (get_depth f deps (n :: v) d) as [a|] eqn:D1; [|discriminate].
      destruct (get_depth f' deps (n :: v') d) as [a'|] eqn:D2; [|discriminate].
      destruct (max_opt (map (get_depth f deps (n :: v)) l)) as [b|]; [|discriminate].
      destruct (max_opt (map (get_depth f' deps (n :: v')) l)) as [b'|]; [|discriminate].
      assert (T : needs deps n d) by (apply ND; left; reflexivity).
      assert (a = a').
      { refine (IH f' _ _ d a a' _ _ D1 D2).
        - intros x [F|I]; [subst; apply t_step; exact T|eapply t_trans; [apply H; exact I|apply t_step; exact T]].
        - intros x [F|I]; [subst; apply t_step; exact T|eapply t_trans; [apply H'; exact I|apply t_step; exact T]]. }
      assert (b = b') by (apply IHl; [intros e I; apply ND; right; exact I|reflexivity|reflexivity]). congruence. }
    destruct (max_opt (map (get_depth f deps (n :: v)) (deps_of deps n))) as [m|]; [|discriminate].
    destruct (max_opt (map (get_depth f' deps (n :: v')) (deps_of deps n))) as [m'|]; [|discriminate].
    assert (m = m') by (apply Q; reflexivity). congruence.
  Qed.

  Lemma depth_dep s d ks kd : needs deps s d -> depth deps s = Some ks -> depth deps d = Some kd -> kd < ks.
  Proof.
    intros Nd Es Ed. unfold depth in Es. rewrite get_depth_S in Es. cbn [mem existsb] in Es.
    pose proof (proj1 (needs_deps deps s d) Nd) as I.
    destruct (Nat.eqb_spec (length (deps_of deps s)) 0) as [Z|Z].
    { destruct (deps_of deps s); [destruct I|discriminate]. }
    destruct (max_opt (map (get_depth (S (length deps)) deps [s]) (deps_of deps s))) as [m|] eqn:E; [|discriminate].
    destruct (max_opt_ge _ _ _ d E I) as [k [G L]].
    assert (k = kd).
    { refine (get_depth_visited _ _ _ _ _ _ _ _ _ G Ed); [|intros x []].
      intros x [F|[]]. subst. apply t_step. exact Nd. }
    assert (ks = m + 1) by congruence. lia.
  Qed.
End Depth.

(** *** levels *)
Section Levels.
  Variable deps : list (string * list string).
  Variable names : list string.
  Lemma at_level_In n l : In n (at_level deps names l) <-> In n names /\ depth deps n = Some l.
  Proof.
    unfold at_level. rewrite filter_In. destruct (depth deps n) as [d|].
    - destruct (Nat.eqb_spec d l); split; intros [H H']; split; try exact H; try congruence.
    - split; intros [_ H]; discriminate.
  Qed.
  Lemma higher_In h n k : depth deps n = Some k ->
    (In h (higher_level_states deps names n) <->
     In h names /\ exists kh, depth deps h = Some kh /\ kh < k).
  Proof.
    intros E. unfold higher_level_states. rewrite E. rewrite in_flat_map. split.
    - intros [l [I J]]. apply at_level_In in J. apply in_seq in I. split; [tauto|]. exists l. split; [tauto|lia].
    - intros [I [kh [D L]]]. exists kh. split; [apply in_seq; lia|apply at_level_In; tauto].
  Qed.
  Lemma by_level_In n : In n (by_level deps names) <-> In n names.
  Proof.
    unfold by_level. rewrite in_flat_map. split.
    - intros [l [_ J]]. apply at_level_In in J. tauto.
    - intros I. destruct (depth_total deps n) as [k [D L]]. exists k. split; [apply in_seq; lia|].
      apply at_level_In. tauto.
  Qed.
  Lemma flat_level_nodup ls : NoDup names -> NoDup ls -> NoDup (flat_map (at_level deps names) ls).
  Proof.
    intros N. induction ls as [|l ls IH]; intros NL; cbn [flat_map]; [constructor|].
    apply NoDup_cons_iff in NL. destruct NL as [Nl NL].
    apply NoDup_app'; [apply NoDup_filter; exact N|apply IH; exact NL|].
    intros x I J. apply at_level_In in I. apply in_flat_map in J. destruct J as [l' [I' J]].
    apply at_level_In in J. assert (l = l') by (destruct I, J; congruence). subst. contradiction.
  Qed.
  Lemma by_level_nodup : NoDup names -> NoDup (by_level deps names).
  Proof. intros N. apply flat_level_nodup; [exact N|apply seq_NoDup]. Qed.
End Levels.

Section Sorted.
  Variable deps : list (string * list string).
  Variable names : list string.
  Definition dle (a b : string) : Prop :=
    forall ka kb, depth deps a = Some ka -> depth deps b = Some kb -> ka <= kb.
  Lemma sorted_app (R : string -> string -> Prop) l l' : StronglySorted R l -> StronglySorted R l' ->
    (forall x y, In x l -> In y l' -> R x y) -> StronglySorted R (l ++ l').
  Proof.
    induction l as [|a l IH]; cbn; intros S S' H; [exact S'|].
    apply StronglySorted_inv in S. destruct S as [S F]. constructor.
    - apply IH; auto.
    - rewrite Forall_forall in *. intros y I. apply in_app_iff in I. destruct I as [I|I]; [auto|].
      apply H; [left; reflexivity|exact I].
  Qed.
  Lemma sorted_split (R : string -> string -> Prop) a n b :
    StronglySorted R (a ++ n :: b) -> forall h, In h b -> R n h.
  Proof.
    induction a as [|x a IH]; cbn; intros S h I; apply StronglySorted_inv in S; destruct S as [S F].
    - rewrite Forall_forall in F. auto.
    - auto.
  Qed.
  Lemma flat_level_sorted k : forall s, StronglySorted dle (flat_map (at_level deps names) (seq s k)).
  Proof.
    induction k as [|k IH]; intros s; cbn [seq flat_map]; [constructor|]. apply sorted_app; [|apply IH|].
    - assert (H : forall l, (forall x, In x l -> depth deps x = Some s) -> StronglySorted dle l).
      { induction l as [|a l IHl]; intros H; constructor.
        - apply IHl. intros x I. apply H. right; exact I.
        - rewrite Forall_forall. intros y I ka kb E1 E2.
          rewrite (H a (or_introl eq_refl)) in E1. rewrite (H y (or_intror I)) in E2. assert (s = ka) by congruence.
          assert (s = kb) by congruence. lia. }
      apply H. intros x I. apply at_level_In in I. tauto.
    - intros x y I J ka kb E1 E2. apply at_level_In in I. destruct I as [_ I]. apply in_flat_map in J.
      destruct J as [l [L J]]. apply in_seq in L. apply at_level_In in J. destruct J as [_ J].
      assert (ka = s) by congruence. assert (kb = l) by congruence. lia.
  Qed.
End Sorted.

Lemma influences_ext hs c c' o : (forall h, In h hs -> lookup h c = lookup h c') ->
  influences hs c o = influences hs c' o.
Proof.
  revert o. induction hs as [|h hs IH]; intros o H; cbn [influences]; [reflexivity|].
  rewrite <- (H h (or_introl eq_refl)). assert (H' : forall h', In h' hs -> lookup h' c = lookup h' c') by (intros; apply H; right; auto).
  destruct (lookup h c) as [v|]; [|auto]. destruct (apply_influence o v); auto.
Qed.

Section Coordinate.
  Variable deps : list (string * list string).
  Variable names : list string.
  Lemma coordinate_ext todo : forall o1 o2 c, (forall n, lookup n o1 = lookup n o2) ->
    coordinate_loop deps names todo o1 c = coordinate_loop deps names todo o2 c.
  Proof.
    induction todo as [|n todo IH]; intros o1 o2 c H; cbn [coordinate_loop]; [reflexivity|].
    rewrite H. destruct (lookup n o2) as [o|]; [|auto].
    destruct (influences (higher_level_states deps names n) c o); auto.
  Qed.
  Lemma coordinate_keeps todo : forall outs c r n, ~ In n todo ->
    coordinate_loop deps names todo outs c = Some r -> lookup n r = lookup n c.
  Proof.
    induction todo as [|m todo IH]; intros outs c r n NI E; cbn [coordinate_loop] in E; [congruence|].
    assert (n <> m) by (intros F; apply NI; left; congruence).
    assert (NI' : ~ In n todo) by (intros F; apply NI; right; exact F).
    destruct (lookup m outs) as [o|].
    - destruct (influences (higher_level_states deps names m) c o) as [o'|]; [|discriminate].
      rewrite (IH _ _ _ _ NI' E), lookup_store. destruct (String.eqb_spec n m); congruence.
    - exact (IH _ _ _ _ NI' E).
  Qed.
  Lemma coordinate_at a : forall n b outs c r o, NoDup (a ++ n :: b) -> lookup n outs = Some o ->
    coordinate_loop deps names (a ++ n :: b) outs c = Some r ->
    exists o' c', influences (higher_level_states deps names n) c' o = Some o' /\ lookup n r = Some o' /\
      forall h, ~ In h (n :: b) -> lookup h r = lookup h c'.
  Proof.
    induction a as [|m a IH]; intros n b outs c r o N L E; cbn [app coordinate_loop] in E.
    - rewrite L in E. destruct (influences (higher_level_states deps names n) c o) as [o'|] eqn:I; [|discriminate].
      exists o', c. split; [exact I|]. cbn in N. apply NoDup_cons_iff in N. destruct N as [Nn N]. split.
      + rewrite (coordinate_keeps _ _ _ _ _ Nn E), lookup_store, String.eqb_refl. reflexivity.
      + intros h NI. assert (NI' : ~ In h b) by (intros F; apply NI; right; exact F).
        rewrite (coordinate_keeps _ _ _ _ _ NI' E), lookup_store.
        destruct (String.eqb_spec h n) as [F|F]; [|reflexivity]. subst. destruct NI. left; reflexivity.
    - cbn in N. apply NoDup_cons_iff in N. destruct N as [_ N]. destruct (lookup m outs) as [om|].
      + destruct (influences (higher_level_states deps names m) c om); [|discriminate]. eapply IH; eauto.
      + eapply IH; eauto.
  Qed.
  Lemma coordinate_keys todo : forall outs c r, NoDup todo -> (forall n, In n todo -> lookup n c = None) ->
    (forall n, In n todo -> lookup n outs <> None) ->
    coordinate_loop deps names todo outs c = Some r -> map fst r = map fst c ++ todo.
  Proof.
    induction todo as [|m todo IH]; intros outs c r N Fr Ou E; cbn [coordinate_loop] in E.
    - rewrite app_nil_r. congruence.
    - apply NoDup_cons_iff in N. destruct N as [Nm N].
      destruct (lookup m outs) as [o|] eqn:L; [|destruct (Ou m (or_introl eq_refl) L)].
      destruct (influences (higher_level_states deps names m) c o) as [o'|]; [|discriminate].
      rewrite (store_fresh c m o' (Fr m (or_introl eq_refl))) in E.
      apply IH in E; [|exact N| |intros n I; apply Ou; right; exact I].
      + rewrite E, map_app, <- app_assoc. reflexivity.
      + intros n I. rewrite lookup_None, map_app, in_app_iff. cbn.
        intros [F|[F|[]]].
        * revert F. apply lookup_None. apply Fr. right. exact I.
        * subst. contradiction.
  Qed.
End Coordinate.

(** *** the whole call *)
Section Execute.
  Context {S X : Type}.
  Variable mods : list (string * flax_module S X (pyval + string)).
  Lemma execute_spec order : forall outs st x outs' st', NoDup order ->
    execute mods order outs st x = (outs', st') ->
    (forall n, ~ In n order -> lookup n outs' = lookup n outs /\ st' n = st n) /\
    (forall n, In n order -> match lookup n mods with
       | Some m => lookup n outs' = Some (shown (fst (fx_call m (st n) x))) /\ st' n = snd (fx_call m (st n) x)
       | None => lookup n outs' = lookup n outs /\ st' n = st n end).
  Proof.
    induction order as [|a order IH]; intros outs st x outs' st' N E; cbn [execute] in E.
    - assert (outs = outs') by congruence. assert (st = st') by congruence. subst. split; [auto|intros n []].
    - apply NoDup_cons_iff in N. destruct N as [Na N]. destruct (lookup a mods) as [m|] eqn:L.
      + destruct (fx_call m (st a) x) as [o s'] eqn:C. destruct (IH _ _ _ _ _ N E) as [H1 H2]. split.
        * intros n NI. assert (n <> a) by (intros F; apply NI; left; congruence).
          destruct (H1 n) as [H3 H4]; [intros F; apply NI; right; exact F|].
          rewrite H3, H4, lookup_store. unfold upd. destruct (String.eqb_spec n a); [congruence|auto].
        * intros n [F|I].
          -- subst n. rewrite L. destruct (H1 a Na) as [H3 H4]. rewrite H3, H4, lookup_store. unfold upd.
             rewrite String.eqb_refl, C. auto.
          -- assert (n <> a) by (intros F; congruence). specialize (H2 n I). rewrite lookup_store in H2.
             unfold upd in H2. destruct (String.eqb_spec n a); [congruence|]. exact H2.
      + destruct (IH _ _ _ _ _ N E) as [H1 H2]. split.
        * intros n NI. apply H1. intros F; apply NI; right; exact F.
        * intros n [F|I]; [subst n; rewrite L; apply H1; exact Na|apply H2; exact I].
  Qed.
  Lemma execute_keys order : forall outs st x, NoDup order -> (forall n, In n order -> lookup n outs = None) ->
    (forall n, In n order -> lookup n mods <> None) ->
    map fst (fst (execute mods order outs st x)) = map fst outs ++ order.
  Proof.
    induction order as [|a order IH]; intros outs st x N Fr M; cbn [execute fst]; [rewrite app_nil_r; reflexivity|].
    apply NoDup_cons_iff in N. destruct N as [Na N].
    destruct (lookup a mods) as [m|] eqn:L; [|destruct (M a (or_introl eq_refl) L)].
    destruct (fx_call m (st a) x) as [o s']. rewrite (store_fresh outs a _ (Fr a (or_introl eq_refl))).
    rewrite IH; [rewrite map_app, <- app_assoc; reflexivity|exact N| |intros n I; apply M; right; exact I].
    intros n I. rewrite lookup_None, map_app, in_app_iff. cbn. intros [F|[F|[]]].
    - revert F. apply lookup_None. apply Fr. right. exact I.
    - subst. contradiction.
  Qed.

  Definition own_output (m : flax_module S X (pyval + string)) (s : S) (x : X) : pyval := shown (fst (fx_call m s x)).

  Variable deps : list (string * list string).
  Hypothesis Nm : NoDup (map fst mods).

  Lemma hsm_core pick st x : any_order pick -> exists order outs st',
    get_execution_order pick deps (map fst mods) = Some order /\ execute mods order [] st x = (outs, st') /\
    NoDup order /\ map fst outs = order /\ Permutation order (map fst mods) /\
    (forall n m, In (n, m) mods -> lookup n outs = Some (shown (fst (fx_call m (st n) x))) /\
                                   st' n = snd (fx_call m (st n) x)) /\
    (forall n, ~ In n (map fst mods) -> lookup n outs = None /\ st' n = st n).
  Proof.
    intros P. destruct (order_total pick deps P (map fst mods)) as [order [E [N I]]].
    destruct (execute mods order [] st x) as [outs st'] eqn:X1.
    exists order, outs, st'. split; [exact E|]. split; [exact X1|]. split; [exact N|].
    destruct (execute_spec order [] st x outs st' N X1) as [H1 H2]. split; [|split; [|split]].
    - pose proof (execute_keys order [] st x N) as K. rewrite X1 in K. apply K; [reflexivity|].
      intros n I2. rewrite lookup_None. intros F. apply F. apply I. exact I2.
    - apply NoDup_Permutation; assumption.
    - intros n m Im. assert (In n order) by (apply I; apply (in_map fst) in Im; exact Im).
      specialize (H2 n H). rewrite (lookup_NoDup mods n m Nm Im) in H2. exact H2.
    - intros n NI. apply H1. intros F. apply NI. apply I. exact F.
  Qed.

  Theorem hsm_plain pick strategy st x : any_order pick -> strategy <> Hierarchical ->
    exists outs st', hsm_call mods pick deps strategy st x = Some (outs, st') /\
      Permutation (map fst outs) (map fst mods) /\
      (forall n m, In (n, m) mods -> lookup n outs = Some (shown (fst (fx_call m (st n) x))) /\
                                     st' n = snd (fx_call m (st n) x)) /\
      (forall n, ~ In n (map fst mods) -> st' n = st n).
  Proof.
    intros P NH. destruct (hsm_core pick st x P) as (order & outs & st' & E & X1 & N & K & Pm & H1 & H2).
    exists outs, st'. split; [|split; [|split]].
    - unfold hsm_call. rewrite E, X1. destruct strategy; [reflexivity|congruence|reflexivity].
    - rewrite K. exact Pm.
    - exact H1.
    - intros n NI. apply H2. exact NI.
  Qed.

  Theorem hsm_deterministic pick1 pick2 st x : any_order pick1 -> any_order pick2 ->
    match hsm_call mods pick1 deps Hierarchical st x, hsm_call mods pick2 deps Hierarchical st x with
    | Some (c1, st1), Some (c2, st2) => c1 = c2 /\ forall n, st1 n = st2 n
    | None, None => True
    | _, _ => False
    end.
  Proof.
    intros P1 P2. destruct (hsm_core pick1 st x P1) as (o1 & outs1 & st1 & E1 & X1 & N1 & K1 & Pm1 & H1 & G1).
    destruct (hsm_core pick2 st x P2) as (o2 & outs2 & st2 & E2 & X2 & N2 & K2 & Pm2 & H2 & G2).
    unfold hsm_call. rewrite E1, E2, X1, X2.
    assert (L : forall n, lookup n outs1 = lookup n outs2 /\ st1 n = st2 n).
    { intros n. destruct (lookup n mods) as [m|] eqn:Lm.
      - apply lookup_In in Lm. destruct (H1 n m Lm) as [A1 B1]. destruct (H2 n m Lm) as [A2 B2]. split; congruence.
      - apply lookup_None in Lm. destruct (G1 n Lm) as [A1 B1]. destruct (G2 n Lm) as [A2 B2]. split; congruence. }
    cbn [coordinate_states].
    rewrite (coordinate_ext deps (map fst mods) (by_level deps (map fst mods)) outs1 outs2 [])
      by (intros n; apply L).
    destruct (coordinate_loop deps (map fst mods) (by_level deps (map fst mods)) outs2 []); [|exact I].
    split; [reflexivity|intros n; apply L].
  Qed.

  Lemma hsm_hier pick st x c st' : any_order pick -> hsm_call mods pick deps Hierarchical st x = Some (c, st') ->
    map fst c = by_level deps (map fst mods) /\
    forall n m, In (n, m) mods -> exists o, lookup n c = Some o /\
      influences (higher_level_states deps (map fst mods) n) c (shown (fst (fx_call m (st n) x))) = Some o.
  Proof.
    intros P H. destruct (hsm_core pick st x P) as (order & outs & st1 & E & X1 & N & K & Pm & H1 & H2).
    unfold hsm_call in H. rewrite E, X1 in H. cbn [coordinate_states] in H.
    destruct (coordinate_loop deps (map fst mods) (by_level deps (map fst mods)) outs []) as [c1|] eqn:C; [|discriminate].
    assert (c1 = c) by congruence. subst c1. clear H.
    pose proof (by_level_nodup deps (map fst mods) Nm) as NB. split.
    - apply (coordinate_keys deps (map fst mods)) in C; [exact C|exact NB|reflexivity|].
      intros n I. apply by_level_In in I. apply in_map_iff in I. destruct I as [[n' m] [F I]]. cbn in F. subst.
      destruct (H1 n m I) as [L _]. congruence.
    - intros n m I. destruct (H1 n m I) as [L _].
      assert (B : In n (by_level deps (map fst mods))) by (apply by_level_In; apply (in_map fst) in I; exact I).
      apply in_split in B. destruct B as (a & b & B). rewrite B in C, NB.
      destruct (coordinate_at deps (map fst mods) a n b outs [] c _ NB L C) as (o & c' & I1 & I2 & I3).
      exists o. split; [exact I2|]. rewrite <- I1. apply influences_ext. intros h Hh. apply I3.
      destruct (depth_total deps n) as [k [Dk _]]. apply (higher_In deps (map fst mods) h n k Dk) in Hh.
      destruct Hh as [_ [kh [Dh Lt]]]. intros [F|F].
      + subst. assert (k = kh) by congruence. lia.
      + pose proof (flat_level_sorted deps (map fst mods) (Datatypes.S (Datatypes.S (length deps))) 0) as SS.
        fold (by_level deps (map fst mods)) in SS. rewrite B in SS.
        pose proof (sorted_split _ _ _ _ SS h F k kh Dk Dh). lia.
  Qed.
End Execute.

(** *** what the influences are on one entry *)
Lemma influence_items_lookup low high d k : influence_items low high = Some d ->
  lookup k d = match lookup k low with
               | Some (PNum a) => match lookup k high with Some (PNum b) => Some (PNum (blend a b)) | _ => Some (PNum a) end
               | o => o end.
Proof.
  revert d. induction low as [|[k' v] low IH]; intros d E; cbn [influence_items] in E.
  - assert (d = []) by congruence. subst. reflexivity.
  - destruct v as [a|s|dd].
    + destruct (lookup k' high) as [[b|s|dd]|] eqn:L; try discriminate;
        (destruct (influence_items low high) as [r'|]; [|discriminate]).
      * assert (d = (k', PNum (blend a b)) :: r') by congruence. subst. cbn [lookup].
        destruct (String.eqb_spec k k'); [subst; rewrite L; reflexivity|apply IH; reflexivity].
      * assert (d = (k', PNum a) :: r') by congruence. subst. cbn [lookup].
        destruct (String.eqb_spec k k'); [subst; rewrite L; reflexivity|apply IH; reflexivity].
    + destruct (influence_items low high) as [r'|]; [|discriminate].
      assert (d = (k', PStr s) :: r') by congruence. subst. cbn [lookup].
      destruct (String.eqb_spec k k'); [reflexivity|apply IH; reflexivity].
    + destruct (influence_items low high) as [r'|]; [|discriminate].
      assert (d = (k', PDict dd) :: r') by congruence. subst. cbn [lookup].
      destruct (String.eqb_spec k k'); [reflexivity|apply IH; reflexivity].
Qed.
Lemma influence_items_num low high d k a : influence_items low high = Some d -> lookup k low = Some (PNum a) ->
  lookup k high = None \/ exists b, lookup k high = Some (PNum b).
Proof.
  revert d. induction low as [|[k' v] low IH]; intros d E L; cbn [influence_items] in E; cbn [lookup] in L; [discriminate|].
  destruct (String.eqb_spec k k') as [F|F].
  - assert (v = PNum a) by congruence. subst. destruct (lookup k' high) as [[b|s|dd]|]; try discriminate; eauto.
  - destruct v as [a'|s|dd]; [destruct (lookup k' high) as [[b|s|dd]|]; try discriminate| | ];
      (destruct (influence_items low high) as [r'|]; [|discriminate]); eapply IH; eauto.
Qed.

Lemma influences_lookup hs c d o k : influences hs c (PDict d) = Some o ->
  exists d', o = PDict d' /\ map fst d' = map fst d /\
    lookup k d' = match lookup k d with Some (PNum a) => Some (PNum (nudged (signals c k hs) a)) | v => v end.
Proof.
  revert d. induction hs as [|h hs IH]; intros d E; cbn [influences] in E.
  - exists d. split; [congruence|]. split; [reflexivity|]. unfold nudged. cbn. destruct (lookup k d) as [[|?|?]|]; reflexivity.
  - unfold signals. cbn [flat_map]. fold (signals c k hs). destruct (lookup h c) as [v|] eqn:L; [|apply IH; exact E].
    destruct v as [r|s|dh]; cbn [apply_influence] in E; [apply IH; exact E|apply IH; exact E|].
    destruct (influence_items d dh) as [d1|] eqn:I; [|discriminate].
    destruct (IH d1 E) as (d' & F1 & F2 & F3). exists d'. split; [exact F1|]. split.
    + rewrite F2. clear - I. revert d1 I. induction d as [|[k' v] d IH]; intros d1 I; cbn [influence_items] in I.
      * assert (d1 = []) by congruence. subst. reflexivity.
      * destruct (match v with PNum a => match lookup k' dh with Some (PNum b) => Some (PNum (blend a b)) | Some _ => None | None => Some v end | _ => Some v end); [|discriminate].
        destruct (influence_items d dh) as [r'|]; [|discriminate]. assert (d1 = (k', p) :: r') by congruence. subst.
        cbn. f_equal. apply IH. reflexivity.
    + rewrite F3, (influence_items_lookup d dh d1 k I). destruct (lookup k d) as [[a|s|dd]|] eqn:Ld; try reflexivity.
      destruct (influence_items_num d dh d1 k a I Ld) as [Ln|[b Lb]].
      * rewrite Ln. reflexivity.
      * rewrite Lb. cbn [app]. unfold nudged. cbn [fold_left]. do 3 f_equal. unfold blend. lra.
Qed.
Lemma influences_other hs c o o' : (forall d, o <> PDict d) -> influences hs c o = Some o' -> o' = o.
Proof.
  revert o. induction hs as [|h hs IH]; intros o H E; cbn [influences] in E; [congruence|].
  destruct (lookup h c) as [v|]; [|apply IH; assumption].
  destruct o as [r|s|d]; [| |destruct (H d eq_refl)]; cbn [apply_influence] in E; apply IH; assumption.
Qed.
