(** Proofs for C101 (dashboard). *)
From Coq Require Import String Ascii List Bool Arith ZArith Lia Reals Lra.
From Verif Require Import Model.FlaxOptim Model.Viz Spec.StreamSpec Spec.VizSpec Proofs.FlaxOptimProofs Proofs.StreamProofs Proofs.VizProofs.
From Verif Require Proofs.DebugProofs.
From Verif Require Model.Debug.
Import ListNotations.
Local Open Scope list_scope.

Lemma fold_dq {A} n (l acc : list A) : fold_left (Debug.dq_append n) l (lastn n acc) = lastn n (acc ++ l).
Proof.
  revert acc. induction l as [|x l IH]; intros acc; [rewrite app_nil_r; reflexivity|]. cbn [fold_left].
  rewrite DebugProofs.dq_append_lastn, IH, <- app_assoc. reflexivity.
Qed.

(** ** keys of the metrics *)
Lemma los_app a b : list_ascii_of_string (String.append a b) = list_ascii_of_string a ++ list_ascii_of_string b.
Proof. induction a; cbn; congruence. Qed.
Lemma los_inj a b : list_ascii_of_string a = list_ascii_of_string b -> a = b.
Proof. intros H. rewrite <- (string_of_list_ascii_of_string a), H. apply string_of_list_ascii_of_string. Qed.
Lemma append_inj p q s : String.append p s = String.append q s -> p = q.
Proof. intros H. apply los_inj. apply (f_equal list_ascii_of_string) in H. rewrite !los_app in H. exact (app_inv_tail _ _ _ H). Qed.
Lemma append_eqb p q s : String.eqb (String.append p s) (String.append q s) = String.eqb p q.
Proof.
  destruct (String.eqb_spec p q) as [->|N]; [apply String.eqb_refl|]. apply String.eqb_neq. intros H. apply N. exact (append_inj _ _ _ H).
Qed.
Lemma rev_los p s : rev (list_ascii_of_string (String.append p s)) = rev (list_ascii_of_string s) ++ rev (list_ascii_of_string p).
Proof. rewrite los_app. apply rev_app_distr. Qed.
Lemma exec_mem p q : String.append p "_execution_time" <> String.append q "_memory_usage".
Proof. intros H. apply (f_equal (fun s => rev (list_ascii_of_string s))) in H. rewrite !rev_los in H. cbn in H. discriminate. Qed.
Lemma exec_thr p : String.append p "_execution_time" <> "global_throughput"%string.
Proof. intros H. apply (f_equal (fun s => rev (list_ascii_of_string s))) in H. rewrite rev_los in H. cbn in H. discriminate. Qed.
Lemma mem_thr p : String.append p "_memory_usage" <> "global_throughput"%string.
Proof. intros H. apply (f_equal (fun s => rev (list_ascii_of_string s))) in H. rewrite rev_los in H. cbn in H. discriminate. Qed.

Lemma metric_add n k x m : metric n (add_metric k x m) = if String.eqb n k then Debug.dq_append metric_max (metric k m) x else metric n m.
Proof. unfold metric at 1, add_metric. rewrite sget_sset. destruct (String.eqb n k); reflexivity. Qed.

(** ** one half of the update *)
Definition raised (c : dash_config) (kind : alert_kind) (key : string) (limit now : R) (id : string) (md : meta) : list alert :=
  if dc_alerts c then map (Alert now kind id) (above limit (sget key md)) else [].
Lemma metric_alert_eq c kind suffix key limit now id md d :
  metric_alert c kind suffix key limit now id md d =
  Dash (ds_calls d) (ds_trackers d)
       (match sget key md with Some x => add_metric (String.append id suffix) x (ds_metrics d) | None => ds_metrics d end)
       (fold_left (Debug.dq_append alert_max) (raised c kind key limit now id md) (ds_alerts d)) (ds_clients d)
       (ds_sent d ++ (if dc_socket c then map MAlert (raised c kind key limit now id md) else [])).
Proof.
  unfold metric_alert, raised. destruct (sget key md) as [x|]; cbn [above].
  - destruct (dc_alerts c); cbn [andb].
    + destruct (Rlt_dec limit x); destruct (dc_socket c); cbn [map fold_left]; rewrite ?app_nil_r; reflexivity.
    + destruct (dc_socket c); cbn [map fold_left]; rewrite app_nil_r; reflexivity.
  - destruct d as [a b e f g h], (dc_alerts c), (dc_socket c); cbn; rewrite app_nil_r; reflexivity.
Qed.

Lemma record_eq c id name ty v md now d k : sget id (ds_trackers d) = Some k ->
  let d' := record_pipeline c id name ty v md now d in
  ds_calls d' = ds_calls d /\ ds_trackers d' = sset id (record_data now name ty v md k) (ds_trackers d) /\
  ds_metrics d' = add_metric "global_throughput" now
     (match sget "memory_usage_mb" md with Some x => add_metric (String.append id "_memory_usage") x | None => fun m => m end
     (match sget "execution_time_ms" md with Some x => add_metric (String.append id "_execution_time") x | None => fun m => m end (ds_metrics d))) /\
  ds_alerts d' = fold_left (Debug.dq_append alert_max) (alerts_of c (id, md, now)) (ds_alerts d) /\
  ds_clients d' = ds_clients d /\
  ds_sent d' = ds_sent d ++ (if dc_socket c then map MAlert (alerts_of c (id, md, now)) ++
                               (match ds_clients d with [] => [] | _ => [MData id name ty (tk_steps k)] end) else []).
Proof.
  intros E. cbv zeta. unfold record_pipeline, update_metrics. rewrite E, !metric_alert_eq.
  cbn [ds_calls ds_trackers ds_metrics ds_alerts ds_clients ds_sent].
  assert (A : alerts_of c (id, md, now) = raised c Performance "execution_time_ms" (dc_slow_ms c) now id md ++ raised c Memory "memory_usage_mb" (dc_memory_mb c) now id md).
  { unfold alerts_of, raised. destruct (dc_alerts c); reflexivity. }
  rewrite A. set (a1 := raised c Performance _ _ _ _ _). set (a2 := raised c Memory _ _ _ _ _).
  assert (M : match sget "memory_usage_mb" md with Some x => add_metric (String.append id "_memory_usage") x (match sget "execution_time_ms" md with Some x => add_metric (String.append id "_execution_time") x (ds_metrics d) | None => ds_metrics d end)
             | None => match sget "execution_time_ms" md with Some x => add_metric (String.append id "_execution_time") x (ds_metrics d) | None => ds_metrics d end end =
             match sget "memory_usage_mb" md with Some x => add_metric (String.append id "_memory_usage") x | None => fun m => m end
     (match sget "execution_time_ms" md with Some x => add_metric (String.append id "_execution_time") x | None => fun m => m end (ds_metrics d))).
  { destruct (sget "memory_usage_mb" md), (sget "execution_time_ms" md); reflexivity. }
  rewrite M. clear M.
  destruct (dc_socket c), (ds_clients d) as [|s r]; cbn [andb negb ds_calls ds_trackers ds_metrics ds_alerts ds_clients ds_sent];
    rewrite ?fold_left_app, ?map_app, ?app_nil_r, <- ?app_assoc; repeat split; reflexivity.
Qed.

(** ** trackers and calls *)
Lemma dash_step c p o d : (forall now, o <> DRegister p now) ->
  sget p (ds_trackers (dash_do c d o)) = option_map (fun k => tracker_run k (calls_on p [o])) (sget p (ds_trackers d)) /\
  sget p (ds_calls (dash_do c d o)) = option_map (fun n => n + count_steps p [o]) (sget p (ds_calls d)).
Proof.
  intros N. unfold count_steps.
  assert (T : forall x, option_map (fun k => tracker_run k []) x = x) by (intros []; reflexivity).
  assert (C : forall x : option nat, option_map (fun n => n + 0) x = x) by (intros []; cbn; rewrite ?Nat.add_0_r; reflexivity).
  destruct o as [i now|i name ty v md now|i|sid|sid]; cbn [dash_do calls_on flat_map filter].
  - assert (F : String.eqb p i = false) by (apply String.eqb_neq; intros ->; exact (N now eq_refl)).
    cbn [register_pipeline ds_trackers ds_calls length]. rewrite !sget_sset, F, T, C. split; reflexivity.
  - cbn [length]. rewrite C. destruct (sget i (ds_trackers d)) as [k|] eqn:E.
    + destruct (record_eq c i name ty v md now d k E) as (A & B & _). rewrite A, B, sget_sset. split; [|reflexivity].
      destruct (String.eqb_spec p i) as [->|_]; [rewrite E; reflexivity|rewrite T; reflexivity].
    + unfold record_pipeline. rewrite E. split; [|reflexivity].
      destruct (String.eqb_spec p i) as [->|_]; [rewrite E; reflexivity|rewrite T; reflexivity].
  - cbn [step_pipeline ds_trackers ds_calls]. destruct (String.eqb_spec p i) as [->|Ne]; split.
    + destruct (sget i (ds_trackers d)) as [k|] eqn:E; [rewrite sget_sset, String.eqb_refl; reflexivity|rewrite E; reflexivity].
    + destruct (sget i (ds_calls d)) as [n|] eqn:E; [rewrite sget_sset, String.eqb_refl; reflexivity|rewrite E; reflexivity].
    + cbn [app]. rewrite T. destruct (sget i (ds_trackers d)) as [k|] eqn:E; [|reflexivity]. rewrite sget_sset. apply String.eqb_neq in Ne. rewrite Ne. reflexivity.
    + cbn [length]. rewrite C. destruct (sget i (ds_calls d)) as [k|] eqn:E; [|reflexivity]. rewrite sget_sset. apply String.eqb_neq in Ne. rewrite Ne. reflexivity.
  - cbn [connect ds_trackers ds_calls length]. rewrite T, C. split; reflexivity.
  - cbn [disconnect ds_trackers ds_calls length]. rewrite T, C. split; reflexivity.
Qed.
Lemma dash_tracks c p after : never_registered p after -> forall d,
  sget p (ds_trackers (fold_left (dash_do c) after d)) = option_map (fun k => tracker_run k (calls_on p after)) (sget p (ds_trackers d)) /\
  sget p (ds_calls (fold_left (dash_do c) after d)) = option_map (fun n => n + count_steps p after) (sget p (ds_calls d)).
Proof.
  induction after as [|o r IH]; intros N d; [cbn; destruct (sget p (ds_trackers d)), (sget p (ds_calls d)); cbn; rewrite ?Nat.add_0_r; split; reflexivity|].
  cbn [fold_left]. destruct (IH (fun now H => N now (or_intror H)) (dash_do c d o)) as [A B].
  destruct (dash_step c p o d) as [A' B']; [intros now ->; apply (N now); left; reflexivity|].
  rewrite A, B, A', B'. split.
  - destruct (sget p (ds_trackers d)); [|reflexivity]. cbn [option_map]. f_equal. unfold tracker_run. rewrite <- fold_left_app. change (o :: r) with ([o] ++ r). unfold calls_on. rewrite flat_map_app. reflexivity.
  - destruct (sget p (ds_calls d)); [|reflexivity]. cbn [option_map]. f_equal. unfold count_steps. cbn [filter].
    destruct o; cbn [filter length]; try lia. destruct (String.eqb p id); cbn [length]; lia.
Qed.
Lemma dash_registered c p now before after : never_registered p after ->
  sget p (ds_trackers (dash_run c (before ++ DRegister p now :: after))) = Some (tracker_run (new_tracker (dc_max c) true true true now) (calls_on p after)) /\
  sget p (ds_calls (dash_run c (before ++ DRegister p now :: after))) = Some (count_steps p after).
Proof.
  intros N. unfold dash_run. rewrite fold_left_app. cbn [fold_left]. destruct (dash_tracks c p after N (dash_do c (fold_left (dash_do c) before new_dash) (DRegister p now))) as [A B].
  rewrite A, B. cbn [dash_do register_pipeline ds_trackers ds_calls]. rewrite !sget_sset, String.eqb_refl. split; reflexivity.
Qed.
Lemma dash_unregistered c p ops : never_registered p ops ->
  sget p (ds_trackers (dash_run c ops)) = None /\ sget p (ds_calls (dash_run c ops)) = None.
Proof. intros N. destruct (dash_tracks c p ops N new_dash) as [A B]. unfold dash_run. rewrite A, B. split; reflexivity. Qed.
Lemma last_registration p ops : never_registered p ops \/ exists before now after, ops = before ++ DRegister p now :: after /\ never_registered p after.
Proof.
  induction ops as [|o ops IH] using rev_ind; [left; intros now []|].
  assert (D : (exists now, o = DRegister p now) \/ (forall now, o <> DRegister p now)).
  { destruct o as [i now| | | |]; try (right; discriminate). destruct (String.eqb_spec i p) as [->|Ne]; [left; eauto|right; intros t H; congruence]. }
  destruct D as [(now & ->)|D]; [right; exists ops, now, []; split; [reflexivity|intros t []]|].
  destruct IH as [IH|(b & now & a & -> & N)].
  - left. intros now H. apply in_app_or in H. destruct H as [H|[H|[]]]; [exact (IH now H)|exact (D now H)].
  - right. exists b, now, (a ++ [o]). split; [rewrite <- app_assoc; reflexivity|].
    intros t H. apply in_app_or in H. destruct H as [H|[H|[]]]; [exact (N t H)|exact (D t H)].
Qed.
Lemma tracked_iff c p ops : (exists k, sget p (ds_trackers (dash_run c ops)) = Some k) <-> exists now, In (DRegister p now) ops.
Proof.
  destruct (last_registration p ops) as [N|(b & now & a & -> & N)].
  - rewrite (proj1 (dash_unregistered c p ops N)). split; [intros (k & H); discriminate|intros (now & H); destruct (N now H)].
  - rewrite (proj1 (dash_registered c p now b a N)). split; [intros _; exists now; apply in_or_app; right; left; reflexivity|eauto].
Qed.

(** ** accepted records *)
Definition knows (p : string) (ops : list dash_op) : bool := existsb (fun o => match o with DRegister i _ => String.eqb p i | _ => false end) ops.
Lemma knows_iff p ops : knows p ops = true <-> exists now, In (DRegister p now) ops.
Proof.
  unfold knows. rewrite existsb_exists. split.
  - intros (o & I & H). destruct o as [i now| | | |]; try discriminate. apply String.eqb_eq in H. subst i. eauto.
  - intros (now & I). exists (DRegister p now). split; [exact I|apply String.eqb_refl].
Qed.
Lemma accepted_snoc ops : forall known o, accepted known (ops ++ [o]) = accepted known ops ++
  match o with DRecord id _ _ _ md now => if existsb (String.eqb id) known || knows id ops then [(id, md, now)] else [] | _ => [] end.
Proof.
  induction ops as [|a r IH]; intros known o.
  - cbn [app accepted]. unfold knows. cbn [existsb]. destruct o; try reflexivity. rewrite app_nil_r, orb_false_r. reflexivity.
  - assert (K : forall id, knows id (a :: r) = match a with DRegister i _ => String.eqb id i | _ => false end || knows id r) by reflexivity.
    destruct a; cbn [app accepted]; rewrite IH; rewrite <- ?app_assoc; destruct o; try reflexivity; rewrite K; cbn [orb existsb]; try reflexivity.
    rewrite (orb_comm (String.eqb _ _) (existsb _ known)), <- orb_assoc. reflexivity.
Qed.
Lemma flat_map_snoc {A B} (f : A -> list B) l x : flat_map f (l ++ [x]) = flat_map f l ++ f x.
Proof. rewrite flat_map_app. cbn. rewrite app_nil_r. reflexivity. Qed.

Definition time_of (e : string * meta * R) : R := snd e.
Lemma dash_metrics c ops :
  let d := dash_run c ops in let acc := accepted [] ops in
  (forall p, metric (String.append p "_execution_time") (ds_metrics d) = lastn metric_max (reported p "execution_time_ms" acc)) /\
  (forall p, metric (String.append p "_memory_usage") (ds_metrics d) = lastn metric_max (reported p "memory_usage_mb" acc)) /\
  metric "global_throughput" (ds_metrics d) = lastn metric_max (map time_of acc) /\
  ds_alerts d = lastn alert_max (flat_map (alerts_of c) acc) /\
  NoDup (map fst (ds_metrics d)).
Proof.
  cbv zeta. induction ops as [|o ops IH] using rev_ind; [cbn; repeat split; constructor|].
  unfold dash_run in *. rewrite fold_left_app, accepted_snoc. cbn [fold_left]. set (d := fold_left (dash_do c) ops new_dash) in *.
  destruct o as [i now|i name ty v md now|i|sid|sid]; try (rewrite app_nil_r; exact IH).
  cbn [existsb orb]. cbn [dash_do].
  destruct (knows i ops) eqn:K.
  2:{ rewrite app_nil_r. unfold record_pipeline. destruct (sget i (ds_trackers d)) as [k|] eqn:E; [|exact IH].
      assert (X : knows i ops = true) by (apply knows_iff, (tracked_iff c); exists k; exact E). congruence. }
  apply knows_iff, (tracked_iff c) in K. destruct K as (k & E). unfold dash_run in E. fold d in E.
  destruct (record_eq c i name ty v md now d k E) as (_ & _ & M & A & _ & _). rewrite M, A.
  destruct IH as (I1 & I2 & I3 & I4 & I5). split; [|split; [|split; [|split]]].
  - intros p. rewrite metric_add, (proj2 (String.eqb_neq _ _) (exec_thr p)).
    assert (X : forall m, metric (String.append p "_execution_time") (match sget "memory_usage_mb" md with Some x => add_metric (String.append i "_memory_usage") x | None => fun m => m end m) = metric (String.append p "_execution_time") m).
    { intros m. destruct (sget "memory_usage_mb" md); [|reflexivity]. rewrite metric_add, (proj2 (String.eqb_neq _ _) (exec_mem p i)). reflexivity. }
    rewrite X. unfold reported. rewrite flat_map_snoc. fold (reported p "execution_time_ms" (accepted [] ops)).
    destruct (sget "execution_time_ms" md) as [x|]; [|destruct (String.eqb p i); rewrite app_nil_r; apply I1].
    rewrite metric_add, append_eqb. destruct (String.eqb_spec p i) as [<-|_]; [|rewrite app_nil_r; apply I1].
    rewrite I1. apply DebugProofs.dq_append_lastn.
  - intros p. rewrite metric_add, (proj2 (String.eqb_neq _ _) (mem_thr p)).
    assert (X : forall m, metric (String.append p "_memory_usage") (match sget "execution_time_ms" md with Some x => add_metric (String.append i "_execution_time") x | None => fun m => m end m) = metric (String.append p "_memory_usage") m).
    { intros m. destruct (sget "execution_time_ms" md); [|reflexivity]. rewrite metric_add, (proj2 (String.eqb_neq _ _) (not_eq_sym (exec_mem i p))). reflexivity. }
    unfold reported. rewrite flat_map_snoc. fold (reported p "memory_usage_mb" (accepted [] ops)).
    destruct (sget "memory_usage_mb" md) as [x|]; [|rewrite X; destruct (String.eqb p i); rewrite app_nil_r; apply I2].
    rewrite metric_add, append_eqb. destruct (String.eqb_spec p i) as [<-|_]; [|rewrite X, app_nil_r; apply I2].
    rewrite X, I2. apply DebugProofs.dq_append_lastn.
  - rewrite metric_add, String.eqb_refl, map_app. cbn [map time_of snd].
    assert (X : forall s y m, s <> "global_throughput"%string -> metric "global_throughput" (match y with Some x => add_metric s x | None => fun m => m end m) = metric "global_throughput" m).
    { intros s y m Ne. destruct y; [|reflexivity]. rewrite metric_add, (proj2 (String.eqb_neq _ _) (not_eq_sym Ne)). reflexivity. }
    rewrite X by apply mem_thr. rewrite X by apply exec_thr. rewrite I3. apply DebugProofs.dq_append_lastn.
  - rewrite I4, flat_map_snoc. apply fold_dq.
  - unfold add_metric at 1. apply sset_nodup. destruct (sget "memory_usage_mb" md), (sget "execution_time_ms" md); repeat apply sset_nodup; exact I5.
Qed.

(** ** the routes *)
Lemma dash_clients c ops sid : In sid (ds_clients (dash_run c ops)) <-> connected sid ops.
Proof.
  unfold connected. induction ops as [|o ops IH] using rev_ind; [split; [intros []|intros ([|] & a & H & _); discriminate]|].
  unfold dash_run in *. rewrite fold_left_app. cbn [fold_left]. set (d := fold_left (dash_do c) ops new_dash) in *.
  assert (S : (forall s, o <> DConnect s) -> (forall s, o <> DDisconnect s) -> ds_clients (dash_do c d o) = ds_clients d).
  { intros N1 N2. destruct o as [i now|i name ty v md now|i|s|s]; try reflexivity; [|destruct (N1 s eq_refl)|destruct (N2 s eq_refl)].
    cbn [dash_do]. destruct (sget i (ds_trackers d)) as [k|] eqn:E; [apply (record_eq c i name ty v md now d k E)|unfold record_pipeline; rewrite E; reflexivity]. }
  assert (G : o <> DConnect sid -> o <> DDisconnect sid -> ((exists before after, ops ++ [o] = before ++ DConnect sid :: after /\ ~ In (DDisconnect sid) after) <-> (exists before after, ops = before ++ DConnect sid :: after /\ ~ In (DDisconnect sid) after))).
  { intros N1 N2. split.
    - intros (b & a & H & N). destruct (@exists_last _ (DConnect sid :: a)) as (a' & x & E); [discriminate|]. rewrite E, app_assoc in H. apply app_inj_tail in H. destruct H as [H <-].
      destruct a' as [|y a']; [cbn in E; injection E as E1 E2; congruence|]. injection E as <- ->. exists b, a'. split; [exact H|]. intros I. apply N, in_or_app. auto.
    - intros (b & a & -> & N). exists b, (a ++ [o]). split; [rewrite <- app_assoc; reflexivity|]. intros I. apply in_app_or in I. destruct I as [I|[I|[]]]; [exact (N I)|exact (N2 I)]. }
  destruct o as [i now|i name ty v md now|i|s|s].
  - rewrite S, IH, G by discriminate. reflexivity.
  - rewrite S, IH, G by discriminate. reflexivity.
  - rewrite S, IH, G by discriminate. reflexivity.
  - cbn [dash_do connect ds_clients].
    assert (A : In sid (if existsb (Nat.eqb s) (ds_clients d) then ds_clients d else ds_clients d ++ [s]) <-> s = sid \/ In sid (ds_clients d)).
    { destruct (existsb (Nat.eqb s) (ds_clients d)) eqn:E.
      - split; [auto|]. intros [->|H]; [|exact H]. apply existsb_exists in E. destruct E as (y & I & E). apply Nat.eqb_eq in E. subst y. exact I.
      - rewrite in_app_iff. cbn. tauto. }
    rewrite A. destruct (Nat.eq_dec s sid) as [->|Ne].
    + split; [|auto]. intros _. exists ops, []. split; [reflexivity|intros []].
    + rewrite G by congruence. rewrite <- IH. tauto.
  - cbn [dash_do disconnect ds_clients]. rewrite filter_In. destruct (Nat.eqb_spec s sid) as [->|Ne]; cbn [negb].
    + split; [intros [_ H]; discriminate|]. intros (b & a & H & N). exfalso.
      destruct (@exists_last _ (DConnect sid :: a)) as (a' & x & E); [discriminate|]. rewrite E, app_assoc in H. apply app_inj_tail in H. destruct H as [_ <-].
      destruct a' as [|y a']; [discriminate|]. injection E as <- ->. apply N, in_or_app. right. left. reflexivity.
    + rewrite G by congruence. rewrite <- IH. tauto.
Qed.

Lemma api_data_spec c id now before after : never_registered id after ->
  api_data id (dash_run c (before ++ DRegister id now :: after)) =
  Some (lastn (Nat.min (Z.to_nat 100) (dc_max c)) (recorded now 0 (calls_on id after)), count_steps id after).
Proof.
  intros N. unfold api_data. rewrite (proj1 (dash_registered c id now before after N)).
  assert (NC : no_clear (calls_on id after)).
  { intros t H. unfold calls_on in H. apply in_flat_map in H. destruct H as (o & _ & H). destruct o; try (destruct H; fail); destruct (String.eqb id id0); cbn in H; intuition discriminate. }
  rewrite recent_spec by (try exact NC; lia). rewrite (proj2 (history_spec _ _ _ _ _ _ NC)). do 2 f_equal.
  unfold count_steps, calls_on. clear. induction after as [|o r IH]; [reflexivity|]. cbn [flat_map filter]. rewrite filter_app, app_length, IH.
  destruct o; try reflexivity; destruct (String.eqb id id0); reflexivity.
Qed.
Lemma api_unknown c id ops : never_registered id ops -> api_data id (dash_run c ops) = None.
Proof. intros N. unfold api_data. rewrite (proj1 (dash_unregistered c id ops N)). reflexivity. Qed.

Lemma lastn_nil_iff {A} n (l : list A) : 0 < n -> lastn n l = [] -> l = [].
Proof. intros P H. apply (f_equal (@length _)) in H. rewrite DebugProofs.lastn_length in H. cbn in H. destruct l; [reflexivity|cbn in H; lia]. Qed.
Lemma perf_sget d n : NoDup (map fst (ds_metrics d)) ->
  sget n (api_performance d) = summary (lastn 50 (metric n (ds_metrics d))).
Proof.
  unfold api_performance. induction (ds_metrics d) as [|[k l] r IH]; intros ND; [reflexivity|].
  cbn [map fst] in ND. inversion ND as [|? ? NI ND']; subst. specialize (IH ND'). cbn [flat_map fst snd].
  unfold metric. cbn [sget]. fold (metric n r).
  destruct l as [|x l].
  - cbn [app]. rewrite IH. destruct (String.eqb_spec n k) as [->|Ne]; [|reflexivity].
    unfold metric. apply sget_none in NI. rewrite NI. reflexivity.
  - cbv zeta. rewrite from_end_pos by lia. change (Z.to_nat 50) with 50. cbn [app sget]. destruct (String.eqb_spec n k) as [->|Ne]; [|exact IH].
    unfold summary. destruct (lastn 50 (x :: l)) as [|y q] eqn:E; [|reflexivity]. apply lastn_nil_iff in E; [discriminate|lia].
Qed.
Lemma lastn_50 {A} (l : list A) : lastn 50 (lastn metric_max l) = lastn 50 l.
Proof. rewrite lastn_lastn, Nat.min_l; [reflexivity|unfold metric_max; lia]. Qed.
Lemma performance_spec c ops :
  (forall p, sget (String.append p "_execution_time") (api_performance (dash_run c ops)) = summary (lastn 50 (reported p "execution_time_ms" (accepted [] ops)))) /\
  (forall p, sget (String.append p "_memory_usage") (api_performance (dash_run c ops)) = summary (lastn 50 (reported p "memory_usage_mb" (accepted [] ops)))) /\
  sget "global_throughput" (api_performance (dash_run c ops)) = summary (lastn 50 (map snd (accepted [] ops))).
Proof.
  destruct (dash_metrics c ops) as (A & B & C & _ & ND). cbv zeta in *. split; [|split]; intros; rewrite perf_sget by exact ND.
  - rewrite A, lastn_50. reflexivity.
  - rewrite B, lastn_50. reflexivity.
  - rewrite C, lastn_50. reflexivity.
Qed.
Lemma alerts_spec c ops : ds_alerts (dash_run c ops) = lastn (Z.to_nat 100) (flat_map (alerts_of c) (accepted [] ops)).
Proof. exact (proj1 (proj2 (proj2 (proj2 (dash_metrics c ops))))). Qed.
Lemma alerts_displaced c ops a b p : accepted [] ops = a ++ b -> (forall e, In e b -> fst (fst e) <> p) ->
  Z.to_nat 100 <= length (flat_map (alerts_of c) b) -> forall x, In x (ds_alerts (dash_run c ops)) -> al_pipeline x <> p.
Proof.
  intros E N L x I. rewrite alerts_spec, E, flat_map_app, lastn_app in I by exact L. apply in_lastn, in_flat_map in I.
  destruct I as ([[id md] now] & I & J). specialize (N _ I). cbn in N. cbn [alerts_of] in J. destruct (dc_alerts c); [|destruct J].
  apply in_app_or in J. destruct J as [J|J]; apply in_map_iff in J; destruct J as (y & <- & _); exact N.
Qed.
Lemma broadcast_spec c ops id name ty v md now data n : api_data id (dash_run c ops) = Some (data, n) ->
  ds_sent (dash_run c (ops ++ [DRecord id name ty v md now])) = ds_sent (dash_run c ops) ++
    (if dc_socket c then map MAlert (alerts_of c (id, md, now)) ++ (match ds_clients (dash_run c ops) with [] => [] | _ => [MData id name ty n] end) else []).
Proof.
  intros H. unfold api_data in H. destruct (sget id (ds_trackers (dash_run c ops))) as [k|] eqn:E; [|discriminate]. injection H as _ <-.
  unfold dash_run. rewrite fold_left_app. cbn [fold_left dash_do]. apply (record_eq c id name ty v md now _ k E).
Qed.
Lemma silent_spec c ops o : (forall id name ty v md now, o <> DRecord id name ty v md now) -> ds_sent (dash_run c (ops ++ [o])) = ds_sent (dash_run c ops).
Proof. intros N. unfold dash_run. rewrite fold_left_app. cbn [fold_left]. destruct o; try reflexivity. destruct (N id name ty v md now eq_refl). Qed.
Lemma unknown_record c ops id name ty v md now : never_registered id ops ->
  dash_run c (ops ++ [DRecord id name ty v md now]) = dash_run c ops.
Proof.
  intros N. unfold dash_run. rewrite fold_left_app. cbn [fold_left dash_do]. unfold record_pipeline.
  pose proof (proj1 (dash_unregistered c id ops N)) as E. unfold dash_run in E. rewrite E. reflexivity.
Qed.
