(** The levels of a hierarchy, and the order in which it is drawn. *)
From Coq Require Import String Ascii List Bool Arith Lia Permutation.
From Verif Require Import Model.FlaxOptim Model.Graph Spec.GraphSpec Proofs.FlaxOptimProofs Proofs.GraphProofs Proofs.GraphProofs2 Proofs.GraphProofs3 Proofs.GraphProofs4.
From Verif Require Model.Debug.
Import ListNotations.
Local Open Scope list_scope.

Section Forest.
  Variable r : string -> nat.
  Variable h : hierarchy.
  Hypothesis F : forest r h.

  Definition kids (x : string) : list string := ids_where (has_parent x) h.
  Fixpoint layer (k : nat) : list string :=
    match k with 0 => roots h | S k => flat_map kids (layer k) end.

  Lemma roots_in x : In x (roots h) <-> is_root h x.
  Proof using.
    unfold roots, is_root. rewrite in_map_iff. split.
    - intros ([y n] & <- & I). apply filter_In in I. destruct I as [I E]. cbn [snd] in E. exists n. split; [exact I|]. destruct (h_parent n); [discriminate|reflexivity].
    - intros (n & I & E). exists (x, n). split; [reflexivity|]. apply filter_In. split; [exact I|]. cbn [snd]. rewrite E. reflexivity.
  Qed.
  Lemma kids_in x c : In c (kids x) <-> parent_in h c x.
  Proof using.
    unfold kids, parent_in. rewrite ids_where_in. split; intros (n & I & E); exists n; (split; [exact I|]); unfold has_parent in *.
    - destruct (h_parent n); [|discriminate]. apply String.eqb_eq in E. congruence.
    - rewrite E. apply String.eqb_refl.
  Qed.
  Lemma layer_depth k : forall x, In x (layer k) <-> depth_in h x k.
  Proof using.
    induction k as [|k IH]; intros x; cbn [layer].
    - rewrite roots_in. split; [apply dep_root|]. intros H. inversion H; subst; assumption.
    - rewrite in_flat_map. split.
      + intros (p & I & K). apply IH in I. apply kids_in in K. exact (dep_child h x p k K I).
      + intros H. inversion H as [|? p ? P D]; subst. exists p. split; [apply IH; exact D|apply kids_in; exact P].
  Qed.
  Lemma parent_unique x p q : parent_in h x p -> parent_in h x q -> p = q.
  Proof using F. intros (n & I & E) (n' & I' & E'). rewrite (nodup_in_eq _ _ _ _ (f_nodup _ _ F) I I') in E. congruence. Qed.
  Lemma root_no_parent x p : is_root h x -> parent_in h x p -> False.
  Proof using F. intros (n & I & E) (n' & I' & E'). rewrite (nodup_in_eq _ _ _ _ (f_nodup _ _ F) I I') in E. congruence. Qed.
  Lemma depth_unique x k : depth_in h x k -> forall k', depth_in h x k' -> k = k'.
  Proof using F.
    intros H. induction H as [x R|x p k P D IH]; intros k' H'; inversion H' as [? R'|? q j P' D']; subst.
    - reflexivity.
    - exfalso. eapply root_no_parent; eassumption.
    - exfalso. eapply root_no_parent; eassumption.
    - f_equal. apply IH. rewrite (parent_unique _ _ _ P P'). exact D'.
  Qed.
  Lemma depth_id x k : depth_in h x k -> In x (map fst h).
  Proof using. intros H. inversion H as [? (n & I & _)|? p ? (n & I & _)]; subst; apply in_map_iff; exists (x, n); auto. Qed.
  Lemma depth_rank x k : depth_in h x k -> k <= r x.
  Proof using F.
    intros H. induction H as [x R|x p k (n & I & E) D IH]; [lia|]. destruct (f_parent _ _ F x n p I E). lia.
  Qed.
  Lemma depth_exists x : In x (map fst h) -> exists k, depth_in h x k.
  Proof using F.
    remember (r x) as m eqn:Em. revert x Em. induction m as [m IH] using lt_wf_ind. intros x -> I.
    apply in_map_iff in I. destruct I as ([y n] & E & I). cbn in E. subst y. destruct (h_parent n) as [p|] eqn:P.
    - destruct (f_parent _ _ F x n p I P) as [J L]. destruct (IH (r p) L p eq_refl J) as (k & D). exists (S k). eapply dep_child; [|exact D]. exists n. auto.
    - exists 0. apply dep_root. exists n. auto.
  Qed.
  Lemma roots_nodup : NoDup (roots h).
  Proof using F.
    replace (roots h) with (ids_where (fun n => match h_parent n with None => true | Some _ => false end) h) by reflexivity.
    apply ids_where_nodup. exact (f_nodup _ _ F).
  Qed.
  Lemma layer_nodup k : NoDup (layer k).
  Proof using F.
    induction k as [|k IH]; cbn [layer]; [exact roots_nodup|]. apply NoDup_flat_map.
    - exact IH.
    - intros p _. apply ids_where_nodup. exact (f_nodup _ _ F).
    - intros p q x _ _ I J. apply kids_in in I. apply kids_in in J. eapply parent_unique; eassumption.
  Qed.
  Lemma layer_ids k x : In x (layer k) -> In x (map fst h).
  Proof using. intros I. apply layer_depth in I. eapply depth_id. exact I. Qed.
  Lemma layer_disjoint x j k : In x (layer j) -> In x (layer k) -> j = k.
  Proof using F. intros I J. apply layer_depth in I. apply layer_depth in J. eapply depth_unique; eassumption. Qed.
  Lemma layer_empty_after k : layer k = [] -> layer (S k) = [].
  Proof using. intros E. cbn [layer]. rewrite E. reflexivity. Qed.
  Lemma layers_finite : exists m, layer m = [] /\ forall k, k < m -> layer k <> [].
  Proof using F.
    assert (E : exists K, layer K = []).
    { exists (S (list_max (map r (map fst h)))). destruct (layer _) as [|x l] eqn:E; [reflexivity|]. exfalso.
      assert (I : In x (layer (S (list_max (map r (map fst h)))))) by (rewrite E; left; reflexivity).
      pose proof (layer_ids _ _ I) as J. apply layer_depth in I. apply depth_rank in I.
      assert (r x <= list_max (map r (map fst h))); [|lia].
      pose proof (proj1 (list_max_le (map r (map fst h)) _) (le_n _)) as A. rewrite Forall_forall in A. apply A. apply in_map. exact J. }
    destruct E as (K & E). revert E. induction K as [|K IH]; intros E.
    - exists 0. split; [exact E|]. intros k Hk. lia.
    - destruct (layer K) as [|x l] eqn:EK; [apply IH; reflexivity|]. exists (S K). split; [exact E|].
      intros k Hk Ek. assert (layer K = []); [|congruence]. clear -Ek Hk. assert (A : forall d, layer (k + d) = []).
      { induction d as [|d IHd]; [rewrite Nat.add_0_r; exact Ek|]. rewrite Nat.add_succ_r. apply layer_empty_after. exact IHd. }
      replace K with (k + (K - k)) by lia. apply A.
  Qed.

  (** ** the traversal *)
  Definition levelled (lv : string -> nat) : hierarchy := remap (fun x n => set_level (lv x) n) h.
  Definition push (l : nat) (xs : list string) (levels : list (nat * list string)) : list (nat * list string) :=
    match xs with [] => levels | _ => nset l (match nget l levels with Some x => x | None => [] end ++ xs) levels end.
  Lemma nget_nset {A} k (v : A) d : nget k (nset k v d) = Some v.
  Proof using.
    clear. unfold nget. induction d as [|[k' v'] d IH]; cbn; [rewrite Nat.eqb_refl; reflexivity|]. destruct (Nat.eqb_spec k' k) as [->|N]; cbn.
    - rewrite Nat.eqb_refl. reflexivity.
    - destruct (Nat.eqb_spec k' k); [contradiction|]. exact IH.
  Qed.
  Lemma nset_nset {A} k (v w : A) d : nset k w (nset k v d) = nset k w d.
  Proof using.
    clear. induction d as [|[k' v'] d IH]; cbn; [rewrite Nat.eqb_refl; reflexivity|]. destruct (Nat.eqb_spec k' k) as [->|N]; cbn.
    - rewrite Nat.eqb_refl. reflexivity.
    - destruct (Nat.eqb_spec k' k); [contradiction|]. rewrite IH. reflexivity.
  Qed.
  Lemma push_cons l x xs levels : push l xs (push l [x] levels) = push l (x :: xs) levels.
  Proof using.
    clear. unfold push. destruct xs as [|y xs]; [reflexivity|]. rewrite nget_nset, nset_nset. rewrite <- app_assoc. reflexivity.
  Qed.
  Lemma chunk xs : forall q lv levels fuel l, (forall x, In x xs -> In x (map fst h)) ->
    level_loop (length xs + fuel) (map (fun x => (x, l)) xs ++ q) (levelled lv) levels
    = level_loop fuel (q ++ map (fun x => (x, l + 1)) (flat_map kids xs)) (levelled (fun x => if existsb (String.eqb x) xs then l else lv x)) (push l xs levels).
  Proof using F.
    induction xs as [|x xs IH]; intros q lv levels fuel l H.
    - cbn [length map app flat_map existsb push plus]. rewrite app_nil_r. reflexivity.
    - cbn [length map app flat_map plus level_loop].
      assert (Ix : In x (map fst h)) by (apply H; left; reflexivity).
      unfold levelled at 1. rewrite sget_remap. destruct (sget x h) as [n|] eqn:Sx; [|exfalso; apply sget_none in Sx; contradiction].
      cbn [option_map]. change (h_children (set_level (lv x) n)) with (h_children n). rewrite (f_children _ _ F x n (sget_in _ _ _ Sx)).
      fold (kids x). rewrite <- app_assoc.
      change (nset l (match nget l levels with Some x0 => x0 | None => [] end ++ [x]) levels) with (push l [x] levels).
      replace (sset x (set_level l (set_level (lv x) n)) (levelled lv)) with (levelled (fun y => if String.eqb y x then l else lv y)).
      + rewrite IH by (intros y I; apply H; right; exact I). rewrite push_cons, <- app_assoc, map_app. f_equal.
        apply remap_ext. intros y m _. cbn [existsb]. destruct (existsb (String.eqb y) xs); [rewrite orb_true_r; reflexivity|]. rewrite orb_false_r. reflexivity.
      + unfold levelled. rewrite sset_remap; [|exact (f_nodup _ _ F)|exact Ix]. apply remap_ext. intros y m I. destruct (String.eqb_spec y x) as [->|]; [|reflexivity].
        rewrite (nodup_in_eq _ _ _ _ (f_nodup _ _ F) I (sget_in _ _ _ Sx)). reflexivity.
  Qed.
  Lemma nset_fresh {A} k (v : A) d : (forall j, In j (map fst d) -> j <> k) -> nset k v d = d ++ [(k, v)].
  Proof using.
    clear. induction d as [|[k' v'] d IH]; cbn; intros H; [reflexivity|]. destruct (Nat.eqb_spec k' k) as [E|E]; [exfalso; apply (H k'); auto|].
    rewrite IH; [reflexivity|]. intros j I. apply H. auto.
  Qed.
  Lemma nget_fresh {A} k (d : list (nat * A)) : (forall j, In j (map fst d) -> j <> k) -> nget k d = None.
  Proof using.
    clear. unfold nget. induction d as [|[k' v'] d IH]; cbn; intros H; [reflexivity|]. destruct (Nat.eqb_spec k' k) as [E|E]; [exfalso; apply (H k'); auto|].
    apply IH. intros j I. apply H. auto.
  Qed.
  Lemma loop_from m : layer m = [] -> (forall k, k < m -> layer k <> []) ->
    forall d k lv levels, k + d = m -> (forall j, In j (map fst levels) -> j < k) ->
    exists N lv', (forall j x, k <= j -> In x (layer j) -> lv' x = j) /\ (forall x, (forall j, k <= j -> ~ In x (layer j)) -> lv' x = lv x) /\
    forall fuel, N <= fuel -> level_loop fuel (map (fun x => (x, k)) (layer k)) (levelled lv) levels
                              = Some (levelled lv', levels ++ map (fun j => (j, layer j)) (seq k d)).
  Proof using F.
    intros Em Nm. induction d as [|d IH]; intros k lv levels Ek Lk.
    - rewrite Nat.add_0_r in Ek. subst k. exists 0, lv. split; [|split].
      + intros j x Lj I. exfalso. assert (A : forall e, layer (m + e) = []).
        { induction e as [|e IHe]; [rewrite Nat.add_0_r; exact Em|]. rewrite Nat.add_succ_r. apply layer_empty_after. exact IHe. }
        replace j with (m + (j - m)) in I by lia. rewrite A in I. exact I.
      + reflexivity.
      + intros fuel _. rewrite Em. cbn [map seq]. rewrite app_nil_r. destruct fuel; reflexivity.
    - destruct (IH (S k) (fun x => if existsb (String.eqb x) (layer k) then k else lv x) (levels ++ [(k, layer k)])) as (N & lv' & A & B & C).
      + lia.
      + intros j I. rewrite map_app in I. apply in_app_or in I. destruct I as [I|[<-|[]]]; [apply Lk in I; lia|cbn; lia].
      + exists (length (layer k) + N), lv'. split; [|split].
        * intros j x Lj I. destruct (Nat.eq_dec k j) as [<-|Nj]; [|apply A; [lia|exact I]].
          rewrite B.
          -- rewrite (proj2 (existsb_eqb_in x (layer k)) I). reflexivity.
          -- intros j' Lj' I'. pose proof (layer_disjoint x k j' I I'). lia.
        * intros x H. rewrite B by (intros j Lj; apply H; lia). destruct (existsb (String.eqb x) (layer k)) eqn:E; [|reflexivity].
          exfalso. apply existsb_eqb_in in E. apply (H k); [lia|exact E].
        * intros fuel Lf. replace fuel with (length (layer k) + (fuel - length (layer k))) by lia.
          rewrite <- (app_nil_r (map _ (layer k))). rewrite chunk by (intros x; apply layer_ids). cbn [app].
          change (flat_map kids (layer k)) with (layer (S k)). rewrite Nat.add_1_r.
          assert (Hk : forall j, In j (map fst levels) -> j <> k) by (intros j I; apply Lk in I; lia).
          replace (push k (layer k) levels) with (levels ++ [(k, layer k)]).
          2:{ unfold push. destruct (layer k) eqn:E; [exfalso; apply (Nm k); [lia|exact E]|]. rewrite nget_fresh, nset_fresh by exact Hk. reflexivity. }
          rewrite C by lia. cbn [seq map]. rewrite <- app_assoc. reflexivity.
  Qed.
  (** the result of the traversal *)
  Lemma assign_levels_spec : exists N m lv, layer m = [] /\ (forall k, k < m -> layer k <> []) /\
    (forall x, In x (map fst h) -> depth_in h x (lv x)) /\
    forall fuel, N <= fuel -> assign_levels fuel h = Some (levelled lv, map (fun j => (j, layer j)) (seq 0 m)).
  Proof using F.
    destruct layers_finite as (m & Em & Nm). destruct (loop_from m Em Nm m 0 (fun _ => 0) []) as (N & lv & A & _ & C).
    - reflexivity.
    - intros j [].
    - exists N, m, lv. split; [exact Em|]. split; [exact Nm|]. split.
      + intros x I. destruct (depth_exists x I) as (k & D). pose proof D as D'. apply layer_depth in D'. rewrite (A k x (Nat.le_0_l k) D'). exact D.
      + intros fuel Lf. unfold assign_levels. change (roots h) with (layer 0). etransitivity; [|exact (C fuel Lf)]. f_equal.
        unfold levelled. rewrite <- (remap_id h) at 1. apply remap_ext. intros x n I. pose proof (f_level _ _ F x n I) as Z. destruct n as [a b l p c]. cbn in *. subst l. reflexivity.
  Qed.
End Forest.

(** ** the hierarchy with its levels, as the user sees it *)
Lemma levelled_in lv h x n : In (x, n) (levelled h lv) <-> exists m, In (x, m) h /\ n = set_level (lv x) m.
Proof. unfold levelled. apply remap_in. Qed.
Lemma levelled_parent lv h x p : parent_in (levelled h lv) x p <-> parent_in h x p.
Proof.
  unfold parent_in. split.
  - intros (n & I & E). apply levelled_in in I. destruct I as (m & I & ->). exists m. auto.
  - intros (n & I & E). exists (set_level (lv x) n). split; [apply levelled_in; exists n; auto|exact E].
Qed.
Lemma levelled_root lv h x : is_root (levelled h lv) x <-> is_root h x.
Proof.
  unfold is_root. split.
  - intros (n & I & E). apply levelled_in in I. destruct I as (m & I & ->). exists m. auto.
  - intros (n & I & E). exists (set_level (lv x) n). split; [apply levelled_in; exists n; auto|exact E].
Qed.
Lemma levelled_depth lv h x k : depth_in (levelled h lv) x k <-> depth_in h x k.
Proof.
  split; intros H.
  - induction H as [x R|x p k P D IH]; [apply dep_root; exact (proj1 (levelled_root lv h x) R)|]. exact (dep_child h x p k (proj1 (levelled_parent lv h x p) P) IH).
  - induction H as [x R|x p k P D IH]; [apply dep_root; exact (proj2 (levelled_root lv h x) R)|]. eapply dep_child; [exact (proj2 (levelled_parent lv h x p) P)|exact IH].
Qed.

(** ** drawing *)
Section Drawn.
  Variable r : string -> nat.
  Variable h0 : hierarchy.
  Variable lv : string -> nat.
  Hypothesis F : forest r h0.
  Hypothesis LV : forall x, In x (map fst h0) -> depth_in h0 x (lv x).
  Let h := levelled h0 lv.

  (** [x] is [p] or one of its descendants *)
  Inductive below (p : string) : string -> Prop :=
  | bl_self : below p p
  | bl_child x y : below p y -> parent_in h0 x y -> below p x.

  Definition select (parent : option string) (level : nat) (kv : string * hnode) : bool :=
    match h_parent (snd kv), parent with
    | None, None => true
    | Some a, Some b => String.eqb a b
    | _, _ => false
    end && Nat.eqb (h_level (snd kv)) level.
  Definition draw_step (f : nat) (level : nat) (acc : option (list string)) (kv : string * hnode) : option (list string) :=
    match acc with
    | None => None
    | Some ids => match h_children (snd kv) with
                  | [] => Some (ids ++ [fst kv])
                  | _ => match drawn f h (Some (fst kv)) (level + 1) with
                         | Some sub => Some (ids ++ fst kv :: sub)
                         | None => None
                         end
                  end
    end.
  Lemma drawn_S f parent level : drawn (S f) h parent level = fold_left (draw_step f level) (filter (select parent level) h) (Some []).
  Proof using. reflexivity. Qed.

  Lemma child_level x p : parent_in h0 x p -> lv x = S (lv p).
  Proof using F LV.
    intros P. pose proof P as (n & I & E). assert (Ix : In x (map fst h0)) by (apply in_map_iff; exists (x, n); auto).
    destruct (f_parent _ _ F x n p I E) as [Ip _]. apply (depth_unique r h0 F x); [apply LV; exact Ix|]. eapply dep_child; [exact P|]. apply LV. exact Ip.
  Qed.
  Lemma below_level p x : below p x -> x = p \/ lv p < lv x.
  Proof using F LV. intros B. induction B as [|x y B IH P]; [left; reflexivity|]. apply child_level in P. destruct IH as [->|IH]; right; lia. Qed.
  Lemma below_id p x : In p (map fst h0) -> below p x -> In x (map fst h0).
  Proof using. intros I B. destruct B as [|x y B (n & J & _)]; [exact I|]. apply in_map_iff. exists (x, n). auto. Qed.
  Lemma below_disjoint p q x : lv p = lv q -> below p x -> below q x -> p = q.
  Proof using F LV.
    intros E B. revert q E. induction B as [|x y B IH P]; intros q E B'.
    - apply below_level in B'. destruct B' as [->|L]; [reflexivity|lia].
    - inversion B' as [|? z B'' P']; subst.
      + apply below_level in B. apply child_level in P. destruct B as [->|L]; lia.
      + apply IH; [exact E|]. rewrite (parent_unique r h0 F x y z P P'). exact B''.
  Qed.

  (** a list of subtrees, one after the other *)
  Lemma draw_fold f level l : (forall x n, In (x, n) l -> In (x, n) h /\ lv x = level) -> NoDup (map fst l) ->
    (forall x n, In (x, n) l -> h_children n <> [] -> exists sub, drawn f h (Some x) (level + 1) = Some sub /\ NoDup (x :: sub) /\ forall y, In y (x :: sub) <-> below x y) ->
    forall acc, NoDup acc -> (forall x n y, In (x, n) l -> below x y -> ~ In y acc) ->
    exists out, fold_left (draw_step f level) l (Some acc) = Some out /\ NoDup out /\
      forall y, In y out <-> In y acc \/ exists x n, In (x, n) l /\ below x y.
  Proof using F LV.
    induction l as [|[x n] l IH]; intros HL ND HS acc NA DA; cbn [fold_left].
    - exists acc. split; [reflexivity|]. split; [exact NA|]. intros y. split; [auto|]. intros [I|(x & n & [] & _)]. exact I.
    - destruct (HL x n) as [Ixn Lx]; [left; reflexivity|].
      assert (SUB : exists sub, draw_step f level (Some acc) (x, n) = Some (acc ++ x :: sub) /\ NoDup (x :: sub) /\ forall y, In y (x :: sub) <-> below x y).
      { unfold draw_step. cbn [fst snd]. destruct (h_children n) as [|c cs] eqn:C.
        - exists []. split; [reflexivity|]. split; [repeat constructor; intros []|]. intros y. split; [intros [<-|[]]; constructor|].
          intros B. assert (K : kids h0 x = []).
          { apply levelled_in in Ixn. destruct Ixn as (m & I & ->). cbn in C. rewrite (f_children _ _ F x m I) in C. exact C. }
          left. induction B as [|y z B IHB P]; [reflexivity|]. subst z. exfalso. apply kids_in in P. rewrite K in P. exact P.
        - destruct (HS x n) as (sub & -> & NS & BS); [left; reflexivity|rewrite C; discriminate|]. exists sub. auto. }
      destruct SUB as (sub & -> & NS & BS). inversion ND as [|? ? ND1 ND2]; subst.
      destruct (IH (fun x n I => HL x n (or_intror I)) ND2 (fun x n I => HS x n (or_intror I)) (acc ++ x :: sub)) as (out & E & NO & BO).
      + apply NoDup_app2; [exact NA|exact NS|]. intros y I J. apply BS in J. exact (DA x n y (or_introl eq_refl) J I).
      + intros x' n' y I' B J. apply in_app_or in J. destruct J as [J|J]; [exact (DA x' n' y (or_intror I') B J)|].
        apply BS in J. destruct (HL x' n' (or_intror I')) as [_ Lx']. assert (x = x') by (apply (below_disjoint x x' y); congruence). subst x'.
        apply ND1. apply in_map_iff. exists (x, n'). auto.
      + exists out. split; [exact E|]. split; [exact NO|]. intros y. rewrite BO, in_app_iff, BS. split.
        * intros [[I|B]|(x' & n' & I & B)]; [left; exact I|right; exists x, n; split; [left; reflexivity|exact B]|right; exists x', n'; split; [right; exact I|exact B]].
        * intros [I|(x' & n' & [I|I] & B)]; [left; left; exact I|injection I as <- <-; left; right; exact B|right; exists x', n'; auto].
  Qed.
  Lemma drawn_below m : (forall x, In x (map fst h0) -> lv x < m) -> forall d f x, In x (map fst h0) -> lv x + d = m -> d <= f -> 
    exists sub, drawn f h (Some x) (lv x + 1) = Some sub /\ NoDup (x :: sub) /\ forall y, In y (x :: sub) <-> below x y.
  Proof using F LV.
    intros Lm d. induction d as [|d IH]; intros f x Ix Ed Lf.
    - exfalso. apply Lm in Ix. lia.
    - destruct f as [|f]; [lia|]. rewrite drawn_S.
      destruct (draw_fold f (lv x + 1) (filter (select (Some x) (lv x + 1)) h)) with (acc := @nil string) as (out & E & NO & BO).
      + intros y n I. apply filter_In in I. destruct I as [I S]. split; [exact I|]. unfold select in S. cbn [snd] in S. apply andb_true_iff in S. destruct S as [_ S].
        apply Nat.eqb_eq in S. apply levelled_in in I. destruct I as (m' & I & ->). exact S.
      + assert (NH : NoDup (map fst h)) by (unfold h, levelled; rewrite remap_ids; exact (f_nodup _ _ F)).
        apply (ids_where_nodup (fun n => select (Some x) (lv x + 1) (x, n)) h NH).
      + intros y n I C. apply filter_In in I. destruct I as [I S]. unfold select in S. cbn [snd] in S. apply andb_true_iff in S. destruct S as [_ S]. apply Nat.eqb_eq in S.
        apply levelled_in in I. destruct I as (m' & I & ->). cbn [set_level h_level] in S. rewrite <- S.
        assert (Iy : In y (map fst h0)) by (apply in_map_iff; exists (y, m'); auto). apply (IH f y Iy); [lia|lia].
      + constructor.
      + intros ? ? ? _ _ [].
      + exists out. split; [exact E|].
        assert (BX : forall y, In y out <-> exists c, parent_in h0 c x /\ below c y).
        { intros y. rewrite BO. split.
          - intros [[]|(c & n & I & B)]. exists c. split; [|exact B]. apply filter_In in I. destruct I as [I S]. apply levelled_in in I. destruct I as (m' & I & ->).
            unfold select in S. cbn [snd set_level h_parent] in S. exists m'. split; [exact I|]. destruct (h_parent m') as [q|]; [|discriminate S].
            apply andb_true_iff in S. destruct S as [S _]. apply String.eqb_eq in S. congruence.
          - intros (c & P & B). right. pose proof (child_level _ _ P) as Lc. destruct P as (m' & I & P). exists c, (set_level (lv c) m'). split; [|exact B]. apply filter_In. split.
            + apply levelled_in. exists m'. auto.
            + unfold select. cbn [snd set_level h_parent h_level]. rewrite P, String.eqb_refl. apply Nat.eqb_eq. lia. }
        split.
        * constructor; [|exact NO]. intros I. apply BX in I. destruct I as (c & P & B). apply child_level in P. apply below_level in B. destruct B as [->|L]; lia.
        * intros y. cbn [In]. rewrite BX. split.
          -- intros [<-|(c & P & B)]; [constructor|]. clear -P B. induction B as [|z w B IHB Q]; [eapply bl_child; [constructor|exact P]|eapply bl_child; [exact IHB|exact Q]].
          -- intros B. induction B as [|z w B IHB Q]; [left; reflexivity|]. right. destruct IHB as [<-|(c & P & B')]; [exists z; split; [exact Q|constructor]|].
             exists c. split; [exact P|]. eapply bl_child; [exact B'|exact Q].
  Qed.
  Lemma drawn_all : exists N, forall fuel, N <= fuel -> exists out, drawn fuel h None 0 = Some out /\ Permutation out (map fst h).
  Proof using F LV.
    set (m := S (list_max (map lv (map fst h0)))).
    assert (Lm : forall x, In x (map fst h0) -> lv x < m).
    { intros x I. pose proof (proj1 (list_max_le (map lv (map fst h0)) _) (le_n _)) as A. rewrite Forall_forall in A.
      assert (lv x <= list_max (map lv (map fst h0))) by (apply A; apply in_map; exact I). unfold m. lia. }
    exists (S m). intros fuel Lf. destruct fuel as [|f]; [lia|]. rewrite drawn_S.
    assert (NH : NoDup (map fst h)) by (unfold h, levelled; rewrite remap_ids; exact (f_nodup _ _ F)).
    assert (LR : forall x, is_root h0 x -> lv x = 0).
    { intros x (n & I & E). symmetry. apply (depth_unique r h0 F x); [apply dep_root; exists n; auto|apply LV; apply in_map_iff; exists (x, n); auto]. }
    destruct (draw_fold f 0 (filter (select None 0) h)) with (acc := @nil string) as (out & E & NO & BO).
    - intros y n I. apply filter_In in I. destruct I as [I S]. split; [exact I|]. unfold select in S. cbn [snd] in S. apply andb_true_iff in S. destruct S as [_ S].
      apply Nat.eqb_eq in S. apply levelled_in in I. destruct I as (m' & I & ->). exact S.
    - apply (ids_where_nodup (fun n => select None 0 (""%string, n)) h NH).
    - intros y n I C. apply filter_In in I. destruct I as [I S]. unfold select in S. cbn [snd] in S. apply andb_true_iff in S. destruct S as [_ S]. apply Nat.eqb_eq in S.
      apply levelled_in in I. destruct I as (m' & I & ->). cbn [set_level h_level] in S. replace (0 + 1) with (lv y + 1) by lia.
      assert (Iy : In y (map fst h0)) by (apply in_map_iff; exists (y, m'); auto). apply (drawn_below m Lm (m - lv y) f y Iy); [apply Lm in Iy; lia|lia].
    - constructor.
    - intros ? ? ? _ _ [].
    - exists out. split; [exact E|]. apply NoDup_Permutation; [exact NO|exact NH|]. intros y. rewrite BO. unfold h, levelled. rewrite remap_ids. fold (levelled h0 lv). fold h. split.
      + intros [[]|(x & n & I & B)]. apply filter_In in I. destruct I as [I _]. apply levelled_in in I. destruct I as (m' & I & _).
        apply (below_id x y); [apply in_map_iff; exists (x, m'); auto|exact B].
      + intros I. right. pose proof (LV y I) as D. revert D. generalize (lv y) as k. intros k D.
        assert (R : exists x, is_root h0 x /\ below x y).
        { clear -D. induction D as [y R|y p k P D (x & R & B)]; [exists y; split; [exact R|constructor]|]. exists x. split; [exact R|]. eapply bl_child; eassumption. }
        destruct R as (x & R & B). pose proof (LR x R) as L0. destruct R as (n & J & P). exists x, (set_level (lv x) n). split; [|exact B]. apply filter_In. split.
        * apply levelled_in. exists n. auto.
        * unfold select. cbn [snd set_level h_parent h_level]. rewrite P, L0. reflexivity.
  Qed.
End Drawn.
