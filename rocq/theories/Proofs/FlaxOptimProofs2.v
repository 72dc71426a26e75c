(** Proofs for C78-C81. *)
From Coq Require Import String Ascii List Bool Reals Lra Lia.
From Verif Require Import Model.Float Model.Optim Model.FlaxModules Model.FlaxMore Model.FlaxOptim
  Spec.FlaxOptimSpec Proofs.FloatFacts Proofs.FlaxMoreProofs Proofs.FlaxOptimProofs.
Import ListNotations.
Local Open Scope list_scope.

Section Maps.
  Context {V : Type}.
  Lemma sget_map {A B} (f : string -> A -> B) k d :
    sget k (map (fun kv => (fst kv, f (fst kv) (snd kv))) d) = option_map (f k) (sget k d).
  Proof.
    induction d as [|[k0 v0] r IH]; cbn [map sget fst snd]; [reflexivity|].
    destruct (String.eqb_spec k k0) as [->|N]; [reflexivity|exact IH].
  Qed.
  Lemma leaf_at_map (f : list string -> V -> V) p : forall prefix t,
    leaf_at p (ptree_map f prefix t) = option_map (f (prefix ++ p)) (leaf_at p t).
  Proof.
    induction p as [|k p IH]; intros prefix t; destruct t as [v|kvs]; cbn [ptree_map leaf_at option_map].
    - rewrite app_nil_r. reflexivity.
    - reflexivity.
    - reflexivity.
    - rewrite (sget_map (fun k c => ptree_map f (prefix ++ [k]) c)).
      destruct (sget k kvs) as [c|]; cbn [option_map]; [|reflexivity].
      rewrite IH, <- app_assoc. reflexivity.
  Qed.
  Lemma map_wn (f : list string -> V -> V) t : well_named t -> forall prefix, well_named (ptree_map f prefix t).
  Proof.
    induction t as [v|kvs IH] using ptree_ind'; intros W prefix; cbn [ptree_map]; [constructor|].
    inversion W as [|? ND NS WS]; subst.
    assert (E : map fst (map (fun kv => (fst kv, ptree_map f (prefix ++ [fst kv]) (snd kv))) kvs) = map fst kvs)
      by (rewrite map_map; reflexivity).
    constructor; [rewrite E; exact ND|rewrite E; exact NS|].
    rewrite Forall_forall in *. intros [k c] Hk. apply in_map_iff in Hk. destruct Hk as [[k0 c0] [Ek Hk]].
    cbn [fst snd] in *. injection Ek; intros <- <-. apply (IH _ Hk (WS _ Hk)).
  Qed.
  Lemma map_keys (f : list string -> V -> V) prefix kvs :
    exists kvs', ptree_map f prefix (PDict kvs) = PDict kvs' /\ map fst kvs' = map fst kvs.
  Proof. eexists. split; [reflexivity|]. rewrite map_map. reflexivity. Qed.
End Maps.

Lemma apply_updates_leaf (params updates : ptree array) p :
  leaf_at p (nested_apply_updates params updates) =
    match leaf_at p params with
    | Some v => Some (match leaf_at p updates with Some u => array_add v u | None => v end)
    | None => None
    end.
Proof.
  unfold nested_apply_updates. rewrite leaf_at_map. cbn [app].
  destruct (leaf_at p params); reflexivity.
Qed.

Section Online.
  Context {X Aux OS : Type}.
  Variables (fm : R) (model_init : X -> list (string * ptree array))
    (model_apply : ptree array -> list (string * ptree array) -> X -> fl * Aux)
    (opt : nested_optimizer OS)
    (project : option (ptree array -> ptree array)) (reg : option (fl -> ptree array -> Aux -> fl))
    (predicate : string -> string -> array -> bool) (sel : string -> bool)
    (grad : (ptree array -> fl) -> ptree array -> ptree array).
  Let call := foo_call fm model_init model_apply opt project reg predicate grad.
  Let calls := foo_calls fm model_init model_apply opt project reg predicate grad.
  (** the loss and the auxiliary data for given parameters *)
  Let loss_at (P : ptree array) others x : fl * Aux :=
    let '(l, a) := model_apply P others x in
    (match reg with Some r => r l P a | None => l end, a).
  Let projected t := match project with Some f => f t | None => t end.

  Section Step.
    Variables (st : foo_state OS) (x : X) (kvs : list (string * ptree array)).
    Let current := match model_vars st with [] => model_init x | v => v end.
    Let others := filter (fun kv => negb (String.eqb (fst kv) "params")) current.
    Hypothesis HP : sget "params" current = Some (PDict kvs).
    Hypothesis W : well_named (PDict kvs).

    Lemma foo_call_eq : exists ts ns,
      fpartition predicate kvs = Some (PDict ts, PDict ns) /\
      let tp := PDict ts in
      let grads := nested_nan_to_num fm (grad (fun t => fst (loss_at (shallow_merge t (PDict ns)) others x)) tp) in
      let os := match foo_opt st with Some o => o | None => nopt_init opt tp end in
      let upd := nopt_update opt grads os tp in
      let P' := shallow_merge (projected (nested_apply_updates tp (fst upd))) (PDict ns) in
      call st x = Some (FOOInfo (fst (loss_at (shallow_merge tp (PDict ns)) others x))
                                (snd (loss_at (shallow_merge tp (PDict ns)) others x)) grads P',
                        FOOState (("params"%string, P') :: others) (Some (snd upd))).
    Proof.
      destruct (fpartition_spec predicate kvs W) as [ts [ns [E _]]]. exists ts, ns. split; [exact E|].
      cbv zeta. unfold call, foo_call. fold current. rewrite HP, E. fold others.
      unfold foo_loss_fn, loss_at, foptax_call, projected.
      destruct (model_apply (shallow_merge (PDict ts) (PDict ns)) others x) as [l a]. cbn [fst snd].
      destruct (nopt_update opt _ _ (PDict ts)) as [u os'] eqn:Eu. cbn [fst snd]. reflexivity.
    Qed.
  End Step.

  Hypothesis Hsel : forall k n v, predicate k n v = sel k.
  Hypothesis Hproj : forall f, project = Some f -> keeps_modules f.

  Lemma projected_ok ts u : well_named (PDict ts) ->
    exists us, projected (nested_apply_updates (PDict ts) u) = PDict us /\ map fst us = map fst ts /\
               well_named (PDict us).
  Proof.
    intros W.
    assert (N : exists ts', nested_apply_updates (PDict ts) u = PDict ts' /\ map fst ts' = map fst ts /\
                            well_named (PDict ts')).
    { pose proof (map_wn (V := array) (fun path v => match leaf_at path u with
        | Some uv => map (fun ab => fadd (fst ab) (snd ab)) (combine v uv) | None => v end) _ W []) as W'.
      eexists. split; [reflexivity|]. split; [rewrite map_map; reflexivity|exact W']. }
    destruct N as [ts' [E [K W']]]. rewrite E. unfold projected. destruct project as [f|] eqn:Ep.
    - destruct (Hproj f eq_refl ts' W') as [us [E1 [K1 W1]]]. exists us. rewrite K1, K. auto.
    - exists ts'. auto.
  Qed.

  Definition step_claim (kvs : list (string * ptree array)) others (os : option OS) x (y : foo_info Aux) (st' : foo_state OS) : Prop :=
    exists tp ntp,
      (forall p, leaf_at p tp = if sel (hd ""%string p) then leaf_at p (PDict kvs) else None) /\
      (forall p, leaf_at p ntp = if sel (hd ""%string p) then None else leaf_at p (PDict kvs)) /\
      same_params (shallow_merge tp ntp) (PDict kvs) /\
      (foo_loss y, foo_aux y) = loss_at (shallow_merge tp ntp) others x /\
      foo_grads y = nested_nan_to_num fm (grad (fun t => fst (loss_at (shallow_merge t ntp) others x)) tp) /\
      let upd := nopt_update opt (foo_grads y) (match os with Some o => o | None => nopt_init opt tp end) tp in
      foo_opt st' = Some (snd upd) /\
      (forall p, leaf_at p (foo_params y) =
         if sel (hd ""%string p) then leaf_at p (projected (nested_apply_updates tp (fst upd)))
         else leaf_at p (PDict kvs)) /\
      model_vars st' = ("params"%string, foo_params y) :: others /\
      (exists kvs', foo_params y = PDict kvs' /\ well_named (PDict kvs')) /\
      (exists ns, ntp = PDict ns /\ NoDup (map fst ns)).

  Lemma foo_step st x kvs :
    let current := match model_vars st with [] => model_init x | v => v end in
    let others := filter (fun kv => negb (String.eqb (fst kv) "params")) current in
    sget "params" current = Some (PDict kvs) -> well_named (PDict kvs) ->
    exists y st', call st x = Some (y, st') /\ step_claim kvs others (foo_opt st) x y st'.
  Proof.
    intros current others HP W.
    destruct (foo_call_eq st x kvs HP W) as [ts [ns [E C]]]. cbv zeta in C.
    fold current in C. fold others in C. fold call in C.
    eexists. eexists. split; [exact C|]. clear C.
    destruct (fpartition_spec predicate kvs W) as [ts' [ns' [E' [Wt [Wn [Lt [Ln [Kt Kn]]]]]]]].
    rewrite E in E'. injection E'; intros <- <-. clear E'.
    assert (Ch : forall p (v : array), chosen predicate p v = sel (hd ""%string p)) by (intros; apply Hsel).
    assert (LT : forall p, leaf_at p (PDict ts) = if sel (hd ""%string p) then leaf_at p (PDict kvs) else None).
    { intros p. apply option_ext. intros v. rewrite Lt, Ch. destruct (sel (hd ""%string p)); intuition discriminate. }
    assert (LN : forall p, leaf_at p (PDict ns) = if sel (hd ""%string p) then None else leaf_at p (PDict kvs)).
    { intros p. apply option_ext. intros v. rewrite Ln, Ch. destruct (sel (hd ""%string p)); intuition discriminate. }
    exists (PDict ts), (PDict ns). cbn [foo_loss foo_aux foo_grads foo_params foo_opt model_vars].
    split; [exact LT|]. split; [exact LN|]. split.
    { intros p. apply option_ext. intros v. rewrite (merge_partition _ _ _ _ W E). rewrite Ch.
      split; [intros [H _]; exact H|]. intros H. split; [exact H|].
      destruct (sel (hd ""%string p)) eqn:S; [auto|]. right. intros [q [w [_ Cq]]]. rewrite Ch in Cq. cbn [hd] in Cq. congruence. }
    split; [destruct (loss_at _ _ _); reflexivity|]. split; [reflexivity|]. cbv zeta. split; [reflexivity|].
    match goal with |- context [nested_apply_updates (PDict ts) ?u] => set (U := u) end.
    destruct (projected_ok ts U Wt) as [us [Eu [Ku Wu]]]. rewrite Eu.
    inversion Wu as [|? Nu _ _]; inversion Wn as [|? Nn _ _]; subst.
    split; [|split; [reflexivity|split; [|exists ns; split; [reflexivity|assumption]]]].
    - intros p. destruct p as [|k p]; [cbn [shallow_merge leaf_at]; destruct (sel _); reflexivity|].
      rewrite leaf_at_merge by assumption. cbn [hd]. destruct (sel k) eqn:S.
      + rewrite (leaf_at_cons k p us). destruct (sget k us); [reflexivity|].
        rewrite LN. cbn [hd]. rewrite S. reflexivity.
      + assert (N : sget k us = None).
        { apply sget_none. rewrite Ku. intros H. destruct (Kt k H) as [q [w Hq]]. rewrite LT in Hq.
          cbn [hd] in Hq. rewrite S in Hq. discriminate. }
        rewrite N, LN. cbn [hd]. rewrite S. reflexivity.
    - eexists. split; [reflexivity|]. apply (merge_wn us ns Wu Wn).
  Qed.

  (** runs *)
  Lemma filter_idem {A} (f : A -> bool) l : filter f (filter f l) = filter f l.
  Proof.
    induction l as [|a l IH]; cbn [filter]; [reflexivity|]. destruct (f a) eqn:E; cbn [filter]; rewrite ?E, ?IH; reflexivity.
  Qed.

  Lemma foo_run_from xs : forall st kvs others,
    filter (fun kv => negb (String.eqb (fst kv) "params")) others = others ->
    model_vars st = ("params"%string, PDict kvs) :: others -> well_named (PDict kvs) ->
    exists ys st', calls st xs = Some (ys, st') /\ length ys = length xs /\
      (forall t x y P, nth_error xs t = Some x -> nth_error ys t = Some y ->
         nth_error (PDict kvs :: map foo_params ys) t = Some P ->
         exists kvs_t os st_t, P = PDict kvs_t /\ step_claim kvs_t others os x y st_t) /\
      (forall t y, nth_error ys t = Some y -> forall p, sel (hd ""%string p) = false ->
         leaf_at p (foo_params y) = leaf_at p (PDict kvs)) /\
      exists P, model_vars st' = ("params"%string, P) :: others.
  Proof.
    induction xs as [|x xs IH]; intros st kvs others Fo HV W.
    - exists [], st. split; [reflexivity|]. split; [reflexivity|]. split; [|split].
      + intros [|t] x y P H; discriminate.
      + intros [|t] y H; discriminate.
      + rewrite HV. eauto.
    - assert (HP : sget "params" (match model_vars st with [] => model_init x | v => v end) = Some (PDict kvs))
        by (rewrite HV; reflexivity).
      destruct (foo_step st x kvs HP W) as [y [st1 [E C]]].
      rewrite HV in C. cbn [filter fst] in C. rewrite String.eqb_refl in C. cbn [negb] in C. rewrite Fo in C.
      pose proof C as C0.
      destruct C as [tp [ntp [_ [_ [_ [_ [_ [_ [Lp [HV1 [[kvs1 [EP W1]] _]]]]]]]]]]].
      rewrite EP in HV1. destruct (IH st1 kvs1 others Fo HV1 W1) as [ys [st2 [E2 [L2 [S2 [F2 V2]]]]]].
      exists (y :: ys), st2. split; [|split; [|split; [|split]]].
      + unfold calls in *. cbn [foo_calls]. unfold call in E. rewrite E, E2. reflexivity.
      + cbn [length]. congruence.
      + intros [|t] x' y' P Hx Hy HPt; cbn [nth_error map] in Hx, Hy, HPt.
        * injection Hx; intros <-. injection Hy; intros <-. injection HPt; intros <-. exists kvs, (foo_opt st), st1. auto.
        * rewrite EP in HPt. apply (S2 t x' y' P Hx Hy). exact HPt.
      + intros [|t] y' Hy p Sp; cbn [nth_error] in Hy.
        * injection Hy; intros <-. rewrite Lp, Sp. reflexivity.
        * rewrite (F2 t y' Hy p Sp). rewrite <- EP. rewrite Lp, Sp. reflexivity.
      + exact V2.
  Qed.
End Online.

Section Online2.
  Context {X Aux OS : Type}.
  Variables (fm : R) (model_init : X -> list (string * ptree array))
    (model_apply : ptree array -> list (string * ptree array) -> X -> fl * Aux)
    (opt : nested_optimizer OS)
    (project : option (ptree array -> ptree array)) (reg : option (fl -> ptree array -> Aux -> fl))
    (predicate : string -> string -> array -> bool) (sel : string -> bool)
    (grad : (ptree array -> fl) -> ptree array -> ptree array).

  Lemma online_step (st : foo_state OS) x kvs :
    (forall k n v, predicate k n v = sel k) ->
    (forall f, project = Some f -> keeps_modules f) ->
    let current := match model_vars st with [] => model_init x | v => v end in
    sget "params" current = Some (PDict kvs) -> well_named (PDict kvs) ->
    exists y st' tp ntp (whole : ptree array -> ptree array) moved,
      foo_call fm model_init model_apply opt project reg predicate grad st x = Some (y, st') /\
      (forall p, leaf_at p tp = if sel (hd ""%string p) then leaf_at p (PDict kvs) else None) /\
      (forall p, leaf_at p ntp = if sel (hd ""%string p) then None else leaf_at p (PDict kvs)) /\
      (forall ts, NoDup (map fst ts) -> forall k p, leaf_at (k :: p) (whole (PDict ts)) =
         match sget k ts with Some m => leaf_at p m | None => leaf_at (k :: p) ntp end) /\
      same_params (whole tp) (PDict kvs) /\
      (foo_loss y, foo_aux y) = loss_of model_apply reg (whole tp) (other_collections current) x /\
      (forall p, leaf_at p (foo_grads y) = option_map (map (finite_value fm))
        (leaf_at p (grad (fun t => fst (loss_of model_apply reg (whole t) (other_collections current) x)) tp))) /\
      let upd := nopt_update opt (foo_grads y) (match foo_opt st with Some o => o | None => nopt_init opt tp end) tp in
      foo_opt st' = Some (snd upd) /\
      (forall p, leaf_at p moved =
         match leaf_at p tp with
         | Some v => Some (match leaf_at p (fst upd) with Some u => array_add v u | None => v end)
         | None => None end) /\
      (forall p, leaf_at p (foo_params y) =
         if sel (hd ""%string p) then leaf_at p (project_with project moved)
         else leaf_at p (PDict kvs)) /\
      model_vars st' = ("params"%string, foo_params y) :: other_collections current.
  Proof.
    intros Hs Hp current HP W.
    destruct (foo_step fm model_init model_apply opt project reg predicate sel grad Hs Hp st x kvs HP W)
      as [y [st' [E [tp [ntp [A [B [C [D [F [G [I [J [_ [ns [En Nn]]]]]]]]]]]]]]]].
    exists y, st', tp, ntp, (fun t => shallow_merge t ntp). eexists.
    split; [exact E|]. split; [exact A|]. split; [exact B|]. split.
    { intros ts Nt k p. rewrite En. apply leaf_at_merge; assumption. }
    split; [exact C|]. split; [exact D|]. split.
    { intros p. rewrite F. unfold nested_nan_to_num. rewrite leaf_at_map. destruct (leaf_at p (grad _ tp)); reflexivity. }
    cbv zeta. split; [exact G|]. split; [intros p; apply apply_updates_leaf|]. split; [exact I|exact J].
  Qed.

  Lemma online_run x0 xs kvs :
    (forall k n v, predicate k n v = sel k) ->
    (forall f, project = Some f -> keeps_modules f) ->
    (forall others x, reads_params (fun P => loss_of model_apply reg P others x)) ->
    sget "params" (model_init x0) = Some (PDict kvs) -> well_named (PDict kvs) ->
    exists ys st, foo_calls fm model_init model_apply opt project reg predicate grad foo_start (x0 :: xs) = Some (ys, st) /\
      length ys = length (x0 :: xs) /\
      (forall t x y P, nth_error (x0 :: xs) t = Some x -> nth_error ys t = Some y ->
         nth_error (PDict kvs :: map foo_params ys) t = Some P ->
         (foo_loss y, foo_aux y) = loss_of model_apply reg P (other_collections (model_init x0)) x) /\
      (forall t y p, nth_error ys t = Some y -> sel (hd ""%string p) = false ->
         leaf_at p (foo_params y) = leaf_at p (PDict kvs)) /\
      other_collections (model_vars st) = other_collections (model_init x0).
  Proof.
    intros Hs Hp Hr HP W.
    destruct (foo_step fm model_init model_apply opt project reg predicate sel grad Hs Hp foo_start x0 kvs HP W)
      as [y [st1 [E C]]]. cbn [foo_start model_vars] in C.
    pose proof C as [tp [ntp [_ [_ [SP [L0 [_ [_ [Lp [HV1 [[kvs1 [EP W1]] _]]]]]]]]]]].
    rewrite EP in HV1.
    destruct (foo_run_from fm model_init model_apply opt project reg predicate sel grad Hs Hp xs st1 kvs1
                (other_collections (model_init x0)) (filter_idem _ _) HV1 W1)
      as [ys [st2 [E2 [L2 [S2 [F2 [P2 V2]]]]]]].
    exists (y :: ys), st2. split; [|split; [|split; [|split]]].
    - cbn [foo_calls]. rewrite E, E2. reflexivity.
    - cbn [length]. congruence.
    - intros [|t] x' y' P Hx Hy HPt; cbn [nth_error map] in Hx, Hy, HPt.
      + injection Hx; intros <-. injection Hy; intros <-. injection HPt; intros <-.
        rewrite L0. apply (Hr _ x0 _ _ SP).
      + rewrite EP in HPt.
        destruct (S2 t x' y' P Hx Hy HPt) as [kv [os [stt [-> [tp' [ntp' [_ [_ [SP' [L' _]]]]]]]]]].
        rewrite L'. apply (Hr _ x' _ _ SP').
    - intros [|t] y' p Hy Sp; cbn [nth_error] in Hy.
      + injection Hy; intros <-. rewrite Lp, Sp. reflexivity.
      + rewrite (F2 t y' Hy p Sp), <- EP, Lp, Sp. reflexivity.
    - rewrite V2. unfold other_collections at 1. cbn [filter fst]. rewrite String.eqb_refl. cbn [negb].
      apply filter_idem.
  Qed.

  Lemma online_grads_finite (st st' : foo_state OS) x y p a :
    foo_call fm model_init model_apply opt project reg predicate grad st x = Some (y, st') ->
    leaf_at p (foo_grads y) = Some a -> Forall (fun v => isfinite v = true) a.
  Proof.
    unfold foo_call. set (cur := match model_vars st with [] => model_init x | v => v end).
    destruct (match sget "params" cur with Some p => _ | None => _ end) as [params state].
    destruct params as [|kvs]; [discriminate|]. destruct (fpartition predicate kvs) as [[tp ntp]|]; [|discriminate].
    destruct (foo_loss_fn _ _ _ _ _ tp) as [l au]. destruct (foptax_call _ _ _ _) as [utp os].
    intros E. injection E; intros _ <-. cbn [foo_grads]. unfold nested_nan_to_num. rewrite leaf_at_map.
    destruct (leaf_at p (grad _ tp)) as [g|]; cbn [option_map]; [|discriminate].
    intros H. injection H; intros <-. apply Forall_forall. intros v Hv. apply in_map_iff in Hv.
    destruct Hv as [w [<- _]]. destruct w; reflexivity.
  Qed.

  Lemma online_mixed_lost x0 kvs k p v :
    sget "params" (model_init x0) = Some (PDict kvs) -> well_named (PDict kvs) ->
    (forall f, project = Some f -> keeps_modules f) ->
    leaf_at (k :: p) (PDict kvs) = Some v -> chosen predicate (k :: p) v = false ->
    trains predicate (PDict kvs) k ->
    exists y st P,
      foo_call fm model_init model_apply opt project reg predicate grad foo_start x0 = Some (y, st) /\
      (foo_loss y, foo_aux y) = loss_of model_apply reg P (other_collections (model_init x0)) x0 /\
      leaf_at (k :: p) P = None /\
      (project = None -> leaf_at (k :: p) (foo_params y) = None).
  Proof.
    intros HP W Hp Hv C T.
    destruct (foo_call_eq fm model_init model_apply opt project reg predicate grad (@foo_start OS) x0 kvs HP W)
      as [ts [ns [E F]]]. cbv zeta in F.
    eexists. eexists. exists (shallow_merge (PDict ts) (PDict ns)). split; [exact F|]. cbn [foo_loss foo_aux foo_params].
    split; [unfold loss_of, other_collections; cbn [foo_start model_vars]; destruct (model_apply _ _ _); reflexivity|].
    destruct (fpartition_spec predicate kvs W) as [ts' [ns' [E' [Wt [Wn [Lt [Ln [Kt Kn]]]]]]]].
    rewrite E in E'. injection E'; intros <- <-. clear E'.
    inversion Wt as [|? Nt _ _]; inversion Wn as [|? Nn _ _]; subst.
    assert (Ek : exists c, sget k ts = Some c /\ leaf_at p c = None).
    { destruct T as [q [w [Hq Cq]]].
      assert (X1 : leaf_at (k :: q) (PDict ts) = Some w) by (apply Lt; auto).
      rewrite leaf_at_cons in X1. destruct (sget k ts) as [c|] eqn:Ek; [|discriminate].
      exists c. split; [reflexivity|]. destruct (leaf_at p c) as [u|] eqn:Eu; [|reflexivity]. exfalso.
      assert (X2 : leaf_at (k :: p) (PDict ts) = Some u) by (rewrite leaf_at_cons, Ek; exact Eu).
      apply Lt in X2. destruct X2 as [X2 X3]. rewrite Hv in X2. injection X2; intros <-. congruence. }
    destruct Ek as [c [Ek Ec]]. split.
    - rewrite leaf_at_merge by assumption. rewrite Ek. exact Ec.
    - intros ->.
      match goal with |- context [nested_apply_updates (PDict ts) ?u] => set (U := u) end.
      assert (Np : forall f : ptree array -> ptree array, @None (ptree array -> ptree array) = Some f -> keeps_modules f) by discriminate.
      destruct (projected_ok fm model_init model_apply opt None reg predicate grad Np ts U Wt) as [us [Eu [Ku Wu]]].
      rewrite Eu. inversion Wu as [|? Nu _ _]; subst.
      rewrite (leaf_at_merge us ns k p Nu Nn).
      assert (X1 : leaf_at (k :: p) (PDict us) = None).
      { rewrite <- Eu. rewrite apply_updates_leaf. rewrite leaf_at_cons, Ek, Ec. reflexivity. }
      rewrite leaf_at_cons in X1. destruct (sget k us) as [d|] eqn:Ed; [exact X1|].
      exfalso. apply sget_none in Ed. apply Ed. rewrite Ku. apply sget_in in Ek. apply (in_map fst) in Ek. exact Ek.
  Qed.
End Online2.

Lemma online_sgd {X Aux : Type} fm (model_init : X -> list (string * ptree array))
    (model_apply : ptree array -> list (string * ptree array) -> X -> fl * Aux) upd
    (reg : option (fl -> ptree array -> Aux -> fl)) predicate (sel : string -> bool) grad x0 xs kvs :
  (forall k n v, predicate k n v = sel k) ->
  sget "params" (model_init x0) = Some (PDict kvs) -> well_named (PDict kvs) ->
  exists ys st, foo_calls fm model_init model_apply (memoryless upd) None reg predicate grad foo_start (x0 :: xs)
                  = Some (ys, st) /\
    forall t y P p, nth_error ys t = Some y -> nth_error (PDict kvs :: map foo_params ys) t = Some P ->
      sel (hd ""%string p) = true ->
      leaf_at p (foo_params y) =
        match leaf_at p P with
        | Some v => Some (match leaf_at p (foo_grads y) with Some g => array_add v (upd g) | None => v end)
        | None => None
        end.
Proof.
  intros Hs HP W.
  assert (Hp : forall f : ptree array -> ptree array, @None (ptree array -> ptree array) = Some f -> keeps_modules f) by discriminate.
  assert (Claim : forall kv others os x (y : foo_info Aux) st',
    step_claim fm model_apply (memoryless upd) None reg sel grad kv others os x y st' ->
    forall p, sel (hd ""%string p) = true -> leaf_at p (foo_params y) =
        match leaf_at p (PDict kv) with
        | Some v => Some (match leaf_at p (foo_grads y) with Some g => array_add v (upd g) | None => v end)
        | None => None
        end).
  { intros kv others os x y st' [tp [ntp [A [_ [_ [_ [_ [_ [L _]]]]]]]]] p Sp.
    rewrite L, Sp, apply_updates_leaf, A, Sp. cbn [memoryless nopt_update fst]. rewrite leaf_at_map.
    destruct (leaf_at p (PDict kv)); [|reflexivity]. destruct (leaf_at p (foo_grads y)); reflexivity. }
  destruct (foo_step fm model_init model_apply (memoryless upd) None reg predicate sel grad Hs Hp foo_start x0 kvs HP W)
      as [y [st1 [E C]]]. cbn [foo_start model_vars] in C.
  pose proof C as [tp [ntp [_ [_ [SP [L0 [_ [_ [Lp [HV1 [[kvs1 [EP W1]] _]]]]]]]]]]].
  rewrite EP in HV1.
  destruct (foo_run_from fm model_init model_apply (memoryless upd) None reg predicate sel grad Hs Hp xs st1 kvs1
                (other_collections (model_init x0)) (filter_idem _ _) HV1 W1)
      as [ys [st2 [E2 [L2 [S2 [F2 [P2 V2]]]]]]].
  exists (y :: ys), st2. split.
  - cbn [foo_calls]. rewrite E, E2. reflexivity.
  - intros [|t] y' P p Hy HPt Sp; cbn [nth_error map] in Hy, HPt.
    + injection Hy; intros <-. injection HPt; intros <-. apply (Claim _ _ _ _ _ _ C _ Sp).
    + rewrite EP in HPt.
      assert (Hx : exists x, nth_error xs t = Some x).
      { destruct (nth_error xs t) eqn:Ex; [eauto|]. apply nth_error_None in Ex.
        assert (t < length ys) by (apply nth_error_Some; congruence). lia. }
      destruct Hx as [x Hx].
      destruct (S2 t x y' P Hx Hy HPt) as [kv [os [stt [-> Cl]]]]. apply (Claim _ _ _ _ _ _ Cl _ Sp).
Qed.

Lemma online_slash {X Aux OS : Type} fm (model_apply : ptree array -> list (string * ptree array) -> X -> fl * Aux)
    (opt : nested_optimizer OS) project reg grad a b w v x :
  no_slash a -> no_slash b -> no_slash w ->
  exists y st, foo_call fm (fun _ => [("params"%string, PDict [(join [a; b], PDict [(w, PLeaf v)])])])
                 model_apply opt project reg (fun _ _ _ => true) grad foo_start x = Some (y, st) /\
    (foo_loss y, foo_aux y) = loss_of model_apply reg (PDict [(a, PDict [(b, PDict [(w, PLeaf v)])])]) [] x.
Proof.
  intros Ha Hb Hw. unfold foo_call. cbn [foo_start model_vars sget String.eqb Ascii.eqb Bool.eqb].
  pose proof (slash_split a b w v Ha Hb Hw) as S. cbn [partition_params] in S. rewrite S.
  unfold foo_loss_fn. cbn [shallow_merge dict_update fold_left fst snd sset filter String.eqb Ascii.eqb Bool.eqb negb].
  unfold loss_of. destruct (model_apply _ _ _) as [l au] eqn:El.
  destruct (foptax_call _ _ _ _) as [u os] eqn:Eu. eexists. eexists. split; [reflexivity|].
  cbn [foo_loss foo_aux]. reflexivity.
Qed.
