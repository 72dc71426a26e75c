(** C142: merged streams in any order. *)
From Coq Require Import ZArith List Bool Lia Arith.
From Verif Require Import Model.Stream Spec.StreamSpec Spec.AnyOrderSpec Proofs.ListFacts Proofs.StreamProofs.
Import ListNotations.

Section Any.
  Context {V : Type}.
  Notation obs := (@obs V).

  Lemma takeW_delivered T (g : list obs) : delivered T g (takeW T g).
  Proof.
    exists (dropW T g). split; [symmetry; apply take_drop|]. split.
    - apply Forall_forall. intros o H. eapply takeW_before; exact H.
    - induction g as [|o g IH]; cbn; [exact I|]. destruct (Z.ltb_spec (fst o) T); [exact IH|exact H].
  Qed.
  Lemma takeW_less a b (g : list obs) : (b <= a)%Z -> takeW b (dropW a g) = [] /\ dropW b (dropW a g) = dropW a g.
  Proof.
    intros H. induction g as [|o g IH]; cbn; [auto|]. destruct (Z.ltb_spec (fst o) a) as [L|L]; [exact IH|].
    cbn. destruct (Z.ltb_spec (fst o) b); [lia|auto].
  Qed.
  Lemma con_max e (l : list obs) (g : list obs) : l <> [] ->
    exists T, furthest e l T /\ con e (map fst l) g = (takeW T g, dropW T g).
  Proof.
    induction l as [|x l IH] using rev_ind; [congruence|]. intros _. rewrite map_app. cbn [map]. rewrite con_snoc.
    assert (Hl : l = [] \/ l <> []) by (destruct l; [left; reflexivity|right; discriminate]).
    destruct Hl as [->|Hl].
    - exists (e (fst x)). split; [|reflexivity]. split; [cbn; auto|]. cbn [app]. constructor; [lia|constructor].
    - destruct (IH Hl) as (T & [HT HF] & E).
      match goal with |- context [fst ?c ++ _] => replace c with (takeW T g, dropW T g) by (symmetry; exact E) end.
      cbn [fst snd].
      destruct (Z_le_gt_dec T (e (fst x))) as [L|L].
      + exists (e (fst x)). destruct (takeW_takeW T (e (fst x)) g L) as [-> ->]. split; [|reflexivity]. split.
        * rewrite map_app, in_app_iff. right. left. reflexivity.
        * apply Forall_app. split; [|constructor; [lia|constructor]]. eapply Forall_impl; [|exact HF]. cbn. intros; lia.
      + exists T. destruct (takeW_less T (e (fst x)) g ltac:(lia)) as [-> ->]. rewrite app_nil_r. split; [|reflexivity]. split.
        * rewrite map_app, in_app_iff. left. exact HT.
        * apply Forall_app. split; [exact HF|]. constructor; [lia|constructor].
  Qed.
  Lemma out_shown cfg (l : list obs) : out_of cfg l = shown cfg l.
  Proof. reflexivity. Qed.

  Lemma any_order (local : list obs) secs items j o outs i cfg g : merge local secs = Some items ->
    nth_error items j = Some (o, outs) -> nth_error secs i = Some (cfg, g) ->
    exists T rd, furthest (embed cfg) (firstn (S j) (tl local)) T /\ delivered T g rd /\
      (ffill cfg = true -> nth_error outs i = Some (shown cfg rd)) /\
      (ffill cfg = false -> exists old new, rd = old ++ new /\
         match j with
         | 0 => old = []
         | S k => exists T', furthest (embed cfg) (firstn (S k) (tl local)) T' /\ delivered T' g old
         end /\
         nth_error outs i = Some (shown cfg (match new with [] => [] | _ => rd end))).
  Proof.
    intros H Hj Hi. destruct (merge_lane _ _ _ _ _ _ _ _ _ H Hj Hi) as [Ho Hr].
    set (e := embed cfg) in *. set (c := con e (map fst (firstn j (tl local))) g) in *.
    assert (Hs : firstn (S j) (tl local) = firstn j (tl local) ++ [o]) by (apply firstn_snoc; exact Ho).
    destruct (con_max e (firstn (S j) (tl local)) g) as (T & HT & E).
    { rewrite Hs. destruct (firstn j (tl local)); discriminate. }
    rewrite Hs, map_app in E. cbn [map] in E. rewrite con_snoc in E.
    exists T, (takeW T g). split; [exact HT|]. split; [apply takeW_delivered|].
    assert (E1 : fst c ++ takeW (e (fst o)) (snd c) = takeW T g) by (exact (f_equal fst E)).
    split; intros Hf; rewrite Hr; unfold result; rewrite Hf.
    - rewrite E1. reflexivity.
    - exists (fst c), (takeW (e (fst o)) (snd c)). split; [symmetry; exact E1|]. split.
      + destruct j as [|k]; [reflexivity|].
        destruct (con_max e (firstn (S k) (tl local)) g) as (T' & HT' & E').
        { destruct (tl local); [destruct k; discriminate Ho|discriminate]. }
        exists T'. split; [exact HT'|]. unfold c. rewrite E'. apply takeW_delivered.
      + destruct (takeW (e (fst o)) (snd c)) eqn:En; [reflexivity|]. rewrite <- E1. reflexivity.
  Qed.

  Lemma delivered_prefix T (a : list obs) b c rd : delivered T (a ++ b :: c) rd -> (T <= fst b)%Z ->
    exists a', a = rd ++ a'.
  Proof.
    intros (rest & E & HF & _) Hb. revert rd E HF. induction a as [|x a IH]; intros [|y rd] E HF; cbn in *.
    - exists []. reflexivity.
    - injection E as -> E. apply Forall_inv in HF. lia.
    - exists (x :: a). reflexivity.
    - injection E as -> E. destruct (IH rd E (Forall_inv_tail HF)) as [a' ->]. exists a'. reflexivity.
  Qed.
  Lemma blocked (local : list obs) secs items j o outs i cfg a b c out t v : merge local secs = Some items ->
    nth_error items j = Some (o, outs) -> nth_error secs i = Some (cfg, a ++ b :: c) ->
    (forall x, In x (firstn (S j) (tl local)) -> (embed cfg (fst x) <= fst b)%Z) ->
    nth_error outs i = Some out -> In (Some t, v) (cells out) -> In (t, v) a.
  Proof.
    intros H Hj Hi Hb Ho Hin. destruct (any_order _ _ _ _ _ _ _ _ _ H Hj Hi) as (T & rd & [HT _] & Hd & Ht & Hf).
    assert (HTb : (T <= fst b)%Z). { apply in_map_iff in HT as (x & <- & Hx). apply Hb. exact Hx. }
    destruct (delivered_prefix T a b c rd Hd HTb) as [a' ->]. apply in_or_app. left.
    destruct (ffill cfg).
    - rewrite (Ht eq_refl) in Ho. assert (out = shown cfg rd) by congruence. subst out. rewrite <- out_shown in Hin.
      apply out_cells in Hin. exact Hin.
    - destruct (Hf eq_refl) as (old & new & E & _ & En). rewrite En in Ho.
      assert (Eo : out = shown cfg (match new with [] => [] | _ => rd end)) by congruence. rewrite Eo, <- out_shown in Hin.
      apply out_cells in Hin. destruct new; [destruct Hin|exact Hin].
  Qed.
End Any.

Lemma hidden_example :
  exists items, merge [(0, 0); (10, 1); (20, 2); (30, 3)]%Z
    [(SecCfg (fun t => t) true None (-1)%Z, [(1, 100); (25, 200); (5, 300); (26, 400)]%Z)] = Some items /\
  map snd items = [[One (Some 1, 100)]; [One (Some 1, 100)]; [One (Some 26, 400)]]%Z /\
  strictly_before 20%Z [(1, 100); (25, 200); (5, 300); (26, 400)]%Z = [(1, 100); (5, 300)]%Z.
Proof. eexists. split; [reflexivity|split; reflexivity]. Qed.
Lemma backwards_example :
  exists items, merge [(0, 0); (10, 1); (20, 2)]%Z
    [(SecCfg (fun t => t) true None (-1)%Z, [(8, 100); (12, 150); (5, 300)]%Z)] = Some items /\
  map snd items = [[One (Some 8, 100)]; [One (Some 5, 300)]]%Z.
Proof. eexists. split; reflexivity. Qed.
