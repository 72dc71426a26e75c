(** C65: the coordinated outputs of a HierarchicalStateMachine. *)
From Coq Require Import String List Bool Arith Lia Permutation Relations Sorted Reals.
From Verif Require Import Model.FlaxModules Model.FlaxCore Spec.FlaxCoreSpec Proofs.FlaxCoreProofs Proofs.HsmProofs.
Import ListNotations.

Section Longest.
  Variable deps : list (string * list string).
  Hypothesis A : acyclic (needs deps).

  Lemma max_opt_attained {B} (g : B -> option nat) l m : max_opt (map g l) = Some m -> l <> [] ->
    exists x, In x l /\ g x = Some m.
  Proof.
    revert m; induction l as [|a l IH]; intros m H N; [easy|]. cbn in H.
    destruct (g a) as [k|] eqn:Ga; [|easy]. destruct (max_opt (map g l)) as [m'|] eqn:E; [|easy].
    injection H as <-. destruct l as [|b l'].
    - cbn in E. injection E as <-. exists a. split; [now left|]. rewrite Ga. f_equal. lia.
    - destruct (Nat.le_ge_cases m' k).
      + exists a. split; [now left|]. rewrite Ga. f_equal. lia.
      + destruct (IH m' eq_refl) as (x & I & Gx); [easy|]. exists x. split; [now right|]. rewrite Gx. f_equal. lia.
  Qed.

  Lemma get_depth_longest f : forall v n k,
    (forall x, In x v -> clos_trans _ (needs deps) x n) -> get_depth f deps v n = Some k -> longest_path deps n k.
  Proof.
    induction f as [|f IH]; intros v n k V H; [easy|]. rewrite get_depth_S in H.
    destruct (mem n v) eqn:M; [apply mem_spec in M; destruct (A n (V n M))|].
    destruct (deps_of deps n) as [|d0 ds] eqn:D.
    - cbn in H. injection H as <-. split; [exists []; now split|]. intros [|d l]; [cbn; lia|].
      intros [N _]. apply needs_deps in N. rewrite D in N. easy.
    - cbn [length Nat.eqb] in H. rewrite <- D in *. 
      assert (NE : deps_of deps n <> []) by (rewrite D; easy).
      destruct (max_opt _) as [m|] eqn:E; [|easy]. injection H as <-.
      assert (V' : forall d, In d (deps_of deps n) -> forall x, In x (n :: v) -> clos_trans _ (needs deps) x d).
      { intros d I x [<-|J]; [apply t_step; now apply needs_deps|].
        eapply t_trans; [apply (V x J)|]. apply t_step. now apply needs_deps. }
      split.
      + destruct (max_opt_attained _ _ _ E NE) as (d & I & Gd).
        destruct (IH _ _ _ (V' d I) Gd) as [(l & P & L) _]. exists (d :: l). split; [|cbn; lia].
        split; [now apply needs_deps|exact P].
      + intros [|d l]; [cbn; lia|]. intros [N P]. apply needs_deps in N.
        destruct (max_opt_ge _ _ _ _ E N) as (kd & Gd & Le).
        destruct (IH _ _ _ (V' d N) Gd) as [_ B]. specialize (B l P). cbn. lia.
  Qed.
  Lemma depth_longest n k : depth deps n = Some k -> longest_path deps n k.
  Proof. apply get_depth_longest. easy. Qed.
End Longest.

Section Final.
  Context {S X : Type}.
  Variable mods : list (string * flax_module S X (pyval + string)).
  Variable deps : list (string * list string).

  Theorem hsm_hierarchical pick st x c st' :
    NoDup (map fst mods) -> any_order pick ->
    hsm_call mods pick deps Hierarchical st x = Some (c, st') ->
    Permutation (map fst c) (map fst mods) /\
    exists level : string -> nat,
      (acyclic (needs deps) -> forall n, longest_path deps n (level n)) /\
      forall n m, In (n, m) mods -> exists above,
        NoDup above /\ (forall h, In h above <-> In h (map fst mods) /\ level h < level n) /\
        StronglySorted (fun a b => level a <= level b) above /\
        match shown (fst (fx_call m (st n) x)) with
        | PDict d => exists d', lookup n c = Some (PDict d') /\ map fst d' = map fst d /\
            forall k, lookup k d' = match lookup k d with
                                    | Some (PNum a) => Some (PNum (nudged (signals c k above) a))
                                    | v => v end
        | o => lookup n c = Some o
        end.
  Proof.
    intros N HP H.
    destruct (hsm_hier mods deps N pick st x c st' HP H) as [K V].
    split.
    { rewrite K. apply NoDup_Permutation; [now apply by_level_nodup|exact N|]. apply by_level_In. }
    exists (fun n => match depth deps n with Some k => k | None => 0 end). split.
    { intros A n. destruct (depth_total deps n) as (k & E & _). rewrite E. now apply depth_longest. }
    intros n m I. destruct (V n m I) as (o & Lo & Io).
    destruct (depth_total deps n) as (k & E & _).
    set (above := higher_level_states deps (map fst mods) n) in *.
    exists above. split; [|split; [|split]].
    - unfold above, higher_level_states. rewrite E. apply flat_level_nodup; [exact N|apply seq_NoDup].
    - intros h. unfold above. rewrite (higher_In deps (map fst mods) h n k E). rewrite E. split.
      + intros (J & kh & Eh & Lh). rewrite Eh. now split.
      + intros (J & L). split; [exact J|]. destruct (depth_total deps h) as (kh & Eh & _). rewrite Eh in L. now exists kh.
    - unfold above, higher_level_states. rewrite E.
      assert (G : forall l, StronglySorted (dle deps) l -> StronglySorted (fun a b =>
        (match depth deps a with Some k => k | None => 0 end) <= (match depth deps b with Some k => k | None => 0 end)) l).
      { intros l SS. induction SS as [|a l SS IH F]; constructor; [exact IH|].
        eapply Forall_impl; [|exact F]. intros b D. destruct (depth deps a) eqn:Ea; [|lia].
        destruct (depth deps b) as [kb|] eqn:Eb; [apply (D _ _ Ea Eb)|].
        destruct (depth_total deps b) as (? & C & _). congruence. }
      apply G, flat_level_sorted.
    - remember (shown (fst (fx_call m (st n) x))) as own eqn:Eo. destruct own as [r|s|d].
      + rewrite Lo. f_equal. apply (influences_other above c (PNum r) o); [easy|exact Io].
      + rewrite Lo. f_equal. apply (influences_other above c (PStr s) o); [easy|exact Io].
      + destruct (influences_lookup above c d o EmptyString Io) as (d' & -> & Kd & _).
        exists d'. split; [exact Lo|]. split; [exact Kd|]. intros k'.
        destruct (influences_lookup above c d (PDict d') k' Io) as (d2 & E2 & _ & L2). injection E2 as <-. exact L2.
  Qed.

  Theorem hsm_states pick strategy st x c st' :
    NoDup (map fst mods) -> any_order pick -> hsm_call mods pick deps strategy st x = Some (c, st') ->
    (forall n m, In (n, m) mods -> st' n = snd (fx_call m (st n) x)) /\
    (forall n, ~ In n (map fst mods) -> st' n = st n).
  Proof.
    intros N HP H. destruct (hsm_core mods deps N pick st x HP) as (order & outs & s2 & O & E & _ & _ & _ & A & B).
    unfold hsm_call in H. rewrite O, E in H. destruct (coordinate_states _ _ _ _); [|easy]. injection H as _ <-.
    split; [intros n m I; apply (A n m I)|intros n I; apply (B n I)].
  Qed.

  Definition numeric (o : pyval) : Prop := forall d k v, o = PDict d -> In (k, v) d -> exists r, v = PNum r.

  Lemma influence_items_numeric low high :
    (forall k v, In (k, v) low -> exists r, v = PNum r) -> (forall k v, In (k, v) high -> exists r, v = PNum r) ->
    exists d, influence_items low high = Some d /\ forall k v, In (k, v) d -> exists r, v = PNum r.
  Proof.
    intros L H. induction low as [|(k, v) r IH]; [exists []; split; [reflexivity|easy]|].
    destruct IH as (d & E & Nd); [intros k' v' I; apply (L k' v'); now right|].
    destruct (L k v (or_introl eq_refl)) as (a & ->). cbn [influence_items]. rewrite E.
    destruct (lookup k high) as [w|] eqn:Lk.
    - destruct (H k w (lookup_In _ _ _ Lk)) as (b & ->). eexists; split; [reflexivity|].
      intros k' v' [J|J]; [injection J as _ <-; eauto|eauto].
    - eexists; split; [reflexivity|]. intros k' v' [J|J]; [injection J as _ <-; eauto|eauto].
  Qed.
  Lemma influences_numeric hs c : (forall h v, lookup h c = Some v -> numeric v) ->
    forall o, numeric o -> exists o', influences hs c o = Some o' /\ numeric o'.
  Proof.
    intros C. induction hs as [|h hs IH]; intros o No; [exists o; now split|]. cbn [influences].
    destruct (lookup h c) as [hv|] eqn:L; [|now apply IH]. specialize (C h hv L).
    destruct o as [r|s|low]; destruct hv as [r'|s'|high]; cbn [apply_influence]; try (now apply IH).
    destruct (influence_items_numeric low high) as (d & E & Nd);
      [intros k v I; now apply (No low k v)|intros k v I; now apply (C high k v)|].
    rewrite E. apply IH. intros d' k v Ed I. injection Ed as <-. now apply (Nd k v).
  Qed.
  Lemma coordinate_numeric names todo : forall outs c,
    (forall h v, lookup h outs = Some v -> numeric v) -> (forall h v, lookup h c = Some v -> numeric v) ->
    coordinate_loop deps names todo outs c <> None.
  Proof.
    induction todo as [|n todo IH]; intros outs c O C; [easy|]. cbn [coordinate_loop].
    destruct (lookup n outs) as [o|] eqn:L; [|now apply IH].
    destruct (influences_numeric (higher_level_states deps names n) c C o (O n o L)) as (o' & E & No).
    rewrite E. apply IH; [exact O|]. intros h v. rewrite lookup_store. destruct (String.eqb h n); [intros Ev; injection Ev as <-; exact No|apply C].
  Qed.
  Theorem hsm_total pick strategy st x :
    NoDup (map fst mods) -> any_order pick ->
    (strategy = Hierarchical -> forall n m d, In (n, m) mods -> fst (fx_call m (st n) x) = inl (PDict d) ->
       forall k v, In (k, v) d -> exists r, v = PNum r) ->
    (strategy = Hierarchical -> forall n m e, In (n, m) mods -> fst (fx_call m (st n) x) <> inr e) ->
    hsm_call mods pick deps strategy st x <> None.
  Proof.
    intros N HP Num NE. destruct (hsm_core mods deps N pick st x HP) as (order & outs & s2 & O & E & _ & _ & _ & A & B).
    unfold hsm_call. rewrite O, E. destruct strategy; cbn [coordinate_states]; try easy.
    destruct (coordinate_loop _ _ _ _ _) eqn:Ec; [easy|]. exfalso. revert Ec. apply coordinate_numeric; [|easy].
    intros h v L. destruct (in_dec string_dec h (map fst mods)) as [I|I]; [|rewrite (proj1 (B h I)) in L; easy].
    apply in_map_iff in I as ((h' & m) & <- & I). cbn [fst] in L.
    rewrite (proj1 (A h' m I)) in L. injection L as <-. intros d k w Ed J.
    destruct (fst (fx_call m (st h') x)) as [v|e] eqn:Ev; [|now destruct (NE eq_refl h' m e I)].
    cbn in Ed. subst v. exact (Num eq_refl h' m d I Ev k w J).
  Qed.
End Final.
