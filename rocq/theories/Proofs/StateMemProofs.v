(** The breakdown of the memory of a state. *)
From Coq Require Import String Ascii List Bool Arith Reals Lia Lra.
From Verif Require Import Model.FlaxOptim Spec.DebugSpec Spec.GraphSpec Spec.StateMemSpec Proofs.FlaxOptimProofs Proofs.GraphProofs2 Proofs.DebugProofs5.
From Verif Require Import Model.Debug.
Import ListNotations.
Local Open Scope list_scope.

Lemma lower_small c : lower_ascii c = small c.
Proof. destruct c as [[|] [|] [|] [|] [|] [|] [|] [|]]; reflexivity. Qed.
Lemma lower_folded s : lower s = folded s.
Proof. induction s as [|c s IH]; [reflexivity|]. cbn [lower folded]. rewrite IH, lower_small. reflexivity. Qed.
Lemma prefix_split p : forall s, String.prefix p s = true <-> exists b, s = String.append p b.
Proof.
  induction p as [|a p IH]; intros s; [split; [exists s; reflexivity|intros; destruct s; reflexivity]|].
  destruct s as [|c s]; [split; [discriminate|intros (b & E); discriminate]|].
  change (String.prefix (String a p) (String c s)) with (if ascii_dec a c then String.prefix p s else false).
  destruct (ascii_dec a c) as [->|N]; [rewrite IH; split; intros (b & E); exists b; cbn [String.append] in *; congruence|].
  split; [discriminate|intros (b & E); cbn [String.append] in E; congruence].
Qed.
Lemma names_buffer_spec s : names_buffer s = contains "buffer" (lower s).
Proof.
  apply eq_true_iff_eq. rewrite lower_folded, contains_iff. induction s as [|c s IH].
  - cbn. split; [discriminate|]. intros (a & b & E). destruct a; discriminate.
  - change (names_buffer (String c s)) with (String.prefix "buffer" (folded (String c s)) || names_buffer s)%bool. rewrite orb_true_iff, prefix_split, IH. split.
    + intros [(b & E)|(a & b & E)]; [exists EmptyString, b; exact E|]. exists (String (small c) a), b. cbn [folded String.append]. rewrite E. reflexivity.
    + intros ([|x a] & b & E); [left; exists b; exact E|right]. cbn [folded String.append] in E. injection E as _ E. exists a, b. exact E.
Qed.
Lemma mb_megabytes n : mb n = megabytes n.
Proof. unfold mb, megabytes. lra. Qed.
Lemma filter_flat_map {A B} (f : B -> bool) (g : A -> list B) l : filter f (flat_map g l) = flat_map (fun x => filter f (g x)) l.
Proof. induction l as [|x l IH]; [reflexivity|]. cbn [flat_map]. rewrite filter_app, IH. reflexivity. Qed.
Lemma filter_map' {A B} (f : B -> bool) (g : A -> B) l : filter f (map g l) = map g (filter (fun x => f (g x)) l).
Proof. induction l as [|x l IH]; [reflexivity|]. cbn [map filter]. rewrite IH. destruct (f (g x)); reflexivity. Qed.
Lemma list_sum_flat {A} (g : A -> list nat) l : list_sum (flat_map g l) = list_sum (map (fun x => list_sum (g x)) l).
Proof. induction l as [|x l IH]; [reflexivity|]. cbn [flat_map map]. rewrite list_sum_app, IH. reflexivity. Qed.
Lemma map_flat_map {A B C} (f : B -> C) (g : A -> list B) l : map f (flat_map g l) = flat_map (fun x => map f (g x)) l.
Proof. induction l as [|x l IH]; [reflexivity|]. cbn [flat_map]. rewrite map_app, IH. reflexivity. Qed.
Lemma bytes_where_dict f kvs : bytes_where f (PDict kvs) = list_sum (map (fun kv => bytes_where (fun p => f (fst kv :: p)) (snd kv)) kvs).
Proof.
  unfold bytes_where. cbn [held]. rewrite filter_flat_map, map_flat_map, list_sum_flat. f_equal. apply map_ext. intros [k t]. cbn [fst snd].
  rewrite filter_map', map_map. cbn [fst snd]. reflexivity.
Qed.
Lemma bytes_where_ext f g t : (forall p, f p = g p) -> bytes_where f t = bytes_where g t.
Proof. intros H. unfold bytes_where. do 2 f_equal. apply filter_ext. intros l. apply H. Qed.
Lemma bytes_none t : bytes_where (fun _ => false) t = 0.
Proof. unfold bytes_where. induction (held t) as [|x l IH]; [reflexivity|exact IH]. Qed.
Lemma bytes_all t : bytes_where (fun _ => true) t = tree_bytes t.
Proof.
  induction t as [n|kvs IH] using ptree_ind'; [unfold bytes_where; cbn; lia|]. rewrite bytes_where_dict. cbn [tree_bytes]. f_equal.
  apply map_ext_in. intros kv I. rewrite Forall_forall in IH. apply (IH kv I).
Qed.
Lemma bytes_if b t : bytes_where (fun _ => b) t = if b then tree_bytes t else 0.
Proof. destruct b; [apply bytes_all|apply bytes_none]. Qed.
Lemma sum_if {A} (f : A -> bool) (g : A -> nat) l : list_sum (map (fun x => if f x then g x else 0) l) = list_sum (map g (filter f l)).
Proof. induction l as [|x l IH]; [reflexivity|]. cbn [map filter]. destruct (f x); cbn [map list_sum fold_right] in *; unfold list_sum in *; lia. Qed.
Lemma sum_key {A} (k : string) (g : A -> nat) (d : list (string * A)) : NoDup (map fst d) ->
  list_sum (map (fun kv => if String.eqb (fst kv) k then g (snd kv) else 0) d) = match sget k d with Some t => g t | None => 0 end.
Proof.
  induction d as [|[k' t] d IH]; intros N; [reflexivity|]. inversion N; subst. cbn [map list_sum fold_right fst snd sget].
  fold (list_sum (map (fun kv => if String.eqb (fst kv) k then g (snd kv) else 0) d)). rewrite IH by assumption. rewrite (String.eqb_sym k k').
  destruct (String.eqb_spec k' k) as [->|]; [|lia]. rewrite (proj2 (sget_none k d)) by assumption. lia.
Qed.
Lemma params_bytes kvs : NoDup (map fst kvs) ->
  bytes_where under_params (PDict kvs) = match sget "params"%string kvs with Some t => tree_bytes t | None => 0 end.
Proof.
  intros N. rewrite bytes_where_dict. rewrite <- (sum_key "params" tree_bytes kvs N). f_equal. apply map_ext. intros kv. cbn [under_params]. apply bytes_if.
Qed.
Lemma other_bytes kvs : bytes_where under_params (PDict kvs) + bytes_where not_params (PDict kvs) = tree_bytes (PDict kvs).
Proof.
  rewrite <- bytes_all. unfold bytes_where, not_params. induction (held (PDict kvs)) as [|x l IH]; [reflexivity|]. cbn [filter]. destruct (under_params (fst x)); cbn [negb map list_sum fold_right] in *; unfold list_sum in *; lia.
Qed.
Lemma buffer_bytes kvs : NoDup (map fst kvs) ->
  bytes_where in_buffer (PDict kvs) =
  match sget "state"%string kvs with
  | Some (PDict vars) => list_sum (map (fun kv => tree_bytes (snd kv)) (filter (fun kv => contains "buffer" (lower (fst kv))) vars))
  | _ => 0
  end.
Proof.
  intros N. rewrite bytes_where_dict.
  transitivity (match sget "state"%string kvs with Some t => bytes_where (fun p => match p with k :: _ => names_buffer k | [] => false end) t | None => 0 end).
  - rewrite <- (sum_key "state" _ kvs N). f_equal. apply map_ext. intros kv. destruct (String.eqb_spec (fst kv) "state") as [->|D].
    + apply bytes_where_ext. intros [|k p]; reflexivity.
    + rewrite <- (bytes_none (snd kv)). apply bytes_where_ext. intros [|k p]; cbn [in_buffer]; [reflexivity|].
      destruct (String.eqb_spec (fst kv) "state") as [E|]; [contradiction|reflexivity].
  - destruct (sget "state"%string kvs) as [[n|vars]|]; [reflexivity| |reflexivity]. rewrite bytes_where_dict.
    rewrite <- (sum_if (fun kv : string * ptree nat => contains "buffer" (lower (fst kv)))). f_equal. apply map_ext. intros kv. rewrite bytes_if, names_buffer_spec. reflexivity.
Qed.

Lemma breakdown kvs : NoDup (map fst kvs) -> (forall n, sget "state"%string kvs <> Some (PLeaf n)) ->
  analyze_state_memory (Some (PDict kvs)) =
  (megabytes (bytes_where not_params (PDict kvs)), megabytes (bytes_where under_params (PDict kvs)), megabytes (bytes_where in_buffer (PDict kvs))).
Proof.
  intros N HL. pose proof (state_memory kvs N HL) as S.
  assert (B : snd (analyze_state_memory (Some (PDict kvs))) = mb (bytes_where in_buffer (PDict kvs))).
  { rewrite buffer_bytes by exact N. assert (Z0 : mb 0 = 0%R) by (unfold mb; cbn; lra).
    unfold analyze_state_memory. destruct (sget "state"%string kvs) as [[n|vars]|] eqn:E; [exfalso; apply (HL n); reflexivity| |exact (eq_sym Z0)].
    cbn [snd]. rewrite sum_mb. reflexivity. }
  destruct (analyze_state_memory (Some (PDict kvs))) as [[sv pv] bv]. cbn [snd] in B. destruct S as (S1 & S2 & _).
  rewrite <- !mb_megabytes. rewrite <- (params_bytes kvs N) in S2.
  assert (S3 : sv = mb (bytes_where not_params (PDict kvs))).
  { pose proof (other_bytes kvs) as O. cbn [tree_bytes] in O. unfold dict_bytes in S1. rewrite <- O, mb_add, S2 in S1. lra. }
  subst. reflexivity.
Qed.
Lemma breakdown_leaf n : analyze_state_memory (Some (PLeaf n)) = (megabytes n, 0%R, 0%R).
Proof. cbn [analyze_state_memory tree_bytes]. rewrite mb_megabytes. reflexivity. Qed.
Lemma breakdown_lost kvs n : NoDup (map fst kvs) -> sget "state"%string kvs = Some (PLeaf n) ->
  analyze_state_memory (Some (PDict kvs)) = (megabytes n, megabytes (bytes_where under_params (PDict kvs)), 0%R).
Proof.
  intros N E. rewrite params_bytes by exact N. cbn [analyze_state_memory]. rewrite E, <- !mb_megabytes.
  destruct (sget "params"%string kvs); [reflexivity|]. unfold mb. cbn [INR]. do 2 f_equal. lra.
Qed.
