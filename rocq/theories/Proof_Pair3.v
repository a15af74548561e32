(** Two servers, one of which follows the other one: steps of the abstract
    remote and of the client. *)
From Coq Require Import String Bool ZArith Arith Lia Sorted Permutation List.
From Verif Require Import Base Kv Model_Types Model_Codec Keys Spec_Order Proof_Order Model_Lmdb Model_LmdbSys Spec_Lmdb Spec_LmdbContent Spec_LmdbQuery
  Proof_Lmdb3 Proof_Lmdb8 Proof_Lmdb9 Proof_Lmdb10 Proof_Lmdb12 Proof_Lmdb13 Proof_Lmdb14 Proof_Lmdb15 Model_LmdbFlush Spec_LmdbFlush Proof_LmdbFlush Proof_LmdbFlush4
  Model_Sync Spec_Sync Proof_Sync Proof_Sync2 Proof_Sync3 Proof_Sync4 Proof_Sync5 Proof_Sync6 Model_Replica Spec_Replica Proof_Replica Proof_Replica2 Proof_Replica3 Proof_Replica4 Proof_Replica5
  Model_Pair Spec_Pair Proof_Pair Proof_Pair2.
Import ListNotations.
Open Scope list_scope.
Open Scope nat_scope.

(** ** Steps without effect on the local backend *)

Definition quiet_sync (x : rstep) : Prop := exists o l, x = RSync (o, l) [] /\ told [(o, l)] = [].

Lemma told_add : forall a b, told (a ++ b) = told a ++ told b.
Proof.
  intros a b. induction b as [|[o l] b IH] using rev_ind; [now rewrite !app_nil_r|]. rewrite app_assoc, !told_snoc, IH, app_assoc. reflexivity.
Qed.

Lemma quiet_parts : forall tr2 tr1, Forall quiet_sync tr2 ->
    local_part (tr1 ++ tr2) = local_part tr1 /\ told (sync_part (current (tr1 ++ tr2))) = told (sync_part (current tr1)) /\
    (restarts_safe tr1 -> restarts_safe (tr1 ++ tr2)).
Proof.
  induction tr2 as [|x tr2 IH] using rev_ind; intros tr1 H; [rewrite app_nil_r; auto|].
  apply Forall_app in H as [H1 H2]. inversion H2 as [|? ? (o & l & -> & T) _]; subst. destruct (IH tr1 H1) as (A & B & C). rewrite app_assoc. split; [|split].
  - rewrite local_part_snoc, app_nil_r. exact A.
  - rewrite current_snoc. cbn [again]. rewrite sync_part_snoc, told_add, B. rewrite <- (app_nil_r (told (sync_part (current tr1)))) at 2. f_equal. exact T.
  - intros S a b E. apply app_snoc_split in E as [(-> & _ & [=])|(b' & -> & E)]. exact (C S a b' E).
Qed.

Lemma restarts_snoc : forall tr x, x <> RRestart -> restarts_safe tr -> restarts_safe (tr ++ [x]).
Proof. intros tr x Hx S a b E. apply app_snoc_split in E as [(-> & _ & E)|(b' & -> & E)]; [congruence|]. exact (S a b' E). Qed.

(** ** Commits *)

Definition do_commits (bs : list (list (event * bool))) : list rstep := map (fun b => RSync (RCommit b, []) []) bs.
Definition do_cleans (is : list event_id) : list rstep := map (fun i => RSync (RClean i, []) []) is.

Definition store (y : ystate) (st : list event) (tp : event_id) (lg : list (list event)) : ystate :=
  y_remote y st tp lg (r_up y) (r_req y) (r_resp y) (r_chan y).

Lemma growing_app : forall sv a b i, growing sv i (a ++ b) = growing sv i a && growing sv (last_id i a) b.
Proof.
  intros sv. induction a as [|e a IH]; intros b i; [reflexivity|]. cbn [app growing]. rewrite IH. change (e :: a) with ([e] ++ a).
  rewrite last_id_app. cbn [last_id rev app]. rewrite !andb_assoc. reflexivity.
Qed.

Lemma commit_all : forall O cf sv bs tr y s, replica O cf sv tr y s -> y_phase y <> PEnd -> growing sv (r_top y) (concat (map batch bs)) = true ->
    replica O cf sv (tr ++ do_commits bs) (store y (r_stored y ++ map fst (filter snd (concat bs))) (last_id (r_top y) (concat (map batch bs))) (r_lag y ++ map batch bs)) s.
Proof.
  intros O cf sv. induction bs as [|b bs IH]; intros tr y s H Hp Hg.
  - cbn [do_commits map concat filter]. rewrite !app_nil_r, last_id_nil. destruct y. exact H.
  - cbn [do_commits map concat] in *. rewrite growing_app in Hg. apply andb_prop in Hg as [G1 G2].
    change (RSync (RCommit b, []) [] :: map (fun b0 => RSync (RCommit b0, []) []) bs) with ([RSync (RCommit b, []) []] ++ do_commits bs). rewrite app_assoc.
    assert (H' : replica O cf sv (tr ++ [RSync (RCommit b, []) []]) (store y (r_stored y ++ map fst (filter snd b)) (last_id (r_top y) (batch b)) (r_lag y ++ [batch b])) s).
    { eapply replica_sync; [exact H| |constructor|reflexivity]. unfold yexec. unfold batch in G1. rewrite G1. destruct (y_phase y) eqn:E; try reflexivity. congruence. }
    specialize (IH _ _ _ H'). cbn [store y_remote r_top r_stored r_lag y_phase r_up r_req r_resp r_chan] in IH. specialize (IH Hp G2).
    rewrite filter_app, map_app, app_assoc, last_id_app. change (batch b :: map batch bs) with ([batch b] ++ map batch bs). rewrite (app_assoc (r_lag y)). exact IH.
Qed.

Lemma clean_all : forall O cf sv is tr y s, replica O cf sv tr y s -> y_phase y <> PEnd ->
    replica O cf sv (tr ++ do_cleans is) (store y (filter (fun e => negb (existsb (fun i => eid_eqb i (ev_id e)) is)) (r_stored y)) (r_top y) (r_lag y)) s.
Proof.
  intros O cf sv. induction is as [|i is IH]; intros tr y s H Hp.
  - cbn [do_cleans map existsb negb]. rewrite app_nil_r. replace (filter _ (r_stored y)) with (r_stored y); [destruct y; exact H|].
    symmetry. induction (r_stored y) as [|e l IHl]; cbn; congruence.
  - cbn [do_cleans map] in *.
    change (RSync (RClean i, []) [] :: map (fun i0 => RSync (RClean i0, []) []) is) with ([RSync (RClean i, []) []] ++ do_cleans is). rewrite app_assoc.
    assert (H' : replica O cf sv (tr ++ [RSync (RClean i, []) []]) (store y (filter (fun e => negb (eid_eqb i (ev_id e))) (r_stored y)) (r_top y) (r_lag y)) s).
    { eapply replica_sync; [exact H| |constructor|reflexivity]. unfold yexec. destruct (y_phase y) eqn:E; try reflexivity. congruence. }
    specialize (IH _ _ _ H' Hp). clear H'. unfold store, y_remote in *. cbn [store y_remote r_top r_stored r_lag y_phase r_up r_req r_resp r_chan existsb] in *.
    match type of IH with replica _ _ _ _ ?a _ => match goal with |- replica _ _ _ _ ?b _ => replace b with a; [exact IH|] end end.
    f_equal. clear. induction (r_stored y) as [|e l IHl]; [reflexivity|]. cbn [filter]. destruct (eid_eqb i (ev_id e)) eqn:E; cbn [negb orb filter]; [exact IHl|].
    destruct (existsb _ is); cbn [negb]; [exact IHl|f_equal; exact IHl].
Qed.

Lemma commits_quiet : forall bs, Forall quiet_sync (do_commits bs).
Proof. intros bs. apply Forall_forall. intros x Hx. apply in_map_iff in Hx as (b & <- & _). exists (RCommit b), []. split; reflexivity. Qed.
Lemma cleans_quiet : forall is, Forall quiet_sync (do_cleans is).
Proof. intros is. apply Forall_forall. intros x Hx. apply in_map_iff in Hx as (b & <- & _). exists (RClean b), []. split; reflexivity. Qed.

Lemma so_far_app : forall a b, stored_so_far (a ++ b) = stored_so_far a ++ stored_so_far b.
Proof. intros. apply flat_map_app. Qed.
Lemma remote_events_app : forall a b, remote_events (a ++ b) = remote_events a ++ remote_events b.
Proof. intros. unfold remote_events, sync_part, commits. now rewrite !flat_map_app, map_app, concat_app. Qed.
Lemma sync_part_app : forall a b, sync_part (a ++ b) = sync_part a ++ sync_part b.
Proof. intros. apply flat_map_app. Qed.

Lemma so_far_commits : forall bs, stored_so_far (do_commits bs) = map fst (filter snd (concat bs)).
Proof. induction bs as [|b bs IH]; [reflexivity|]. cbn [do_commits map stored_so_far flat_map concat]. rewrite filter_app, map_app. f_equal. exact IH. Qed.
Lemma so_far_cleans : forall is, stored_so_far (do_cleans is) = [].
Proof. induction is as [|i is IH]; [reflexivity|exact IH]. Qed.
Lemma events_commits : forall bs, remote_events (do_commits bs) = concat (map batch bs).
Proof. intros bs. unfold remote_events. f_equal. f_equal. induction bs as [|b bs IH]; [reflexivity|]. cbn. f_equal. exact IH. Qed.
Lemma events_cleans : forall is, remote_events (do_cleans is) = [].
Proof. induction is as [|i is IH]; [reflexivity|exact IH]. Qed.
Lemma cleans_of_commits : forall bs i l, ~ In (RClean i, l) (sync_part (do_commits bs)).
Proof. intros bs i l H. unfold sync_part in H. apply in_flat_map in H as (x & Hx & H). apply in_map_iff in Hx as (b & <- & _). destruct H as [[=]|[]]. Qed.
Lemma cleans_of_cleans : forall is i l, In (RClean i, l) (sync_part (do_cleans is)) -> In i is.
Proof. intros is i l H. unfold sync_part in H. apply in_flat_map in H as (x & Hx & H). apply in_map_iff in Hx as (b & <- & Hb). destruct H as [[= <- _]|[]]. exact Hb. Qed.

(** ** Steps of the client *)

(** The client [c], the remote of [y]. *)
Definition put (c y : ystate) (rq : option event_id) (rs : option query_result) : ystate :=
  YState (r_stored y) (r_top y) (r_lag y) (r_up c) rq rs (r_chan c) (y_phase c) (y_ev c) (y_last c) (y_more c) (y_count c) (y_queue c) (y_busy c).

Ltac puts H :=
  repeat match type of H with
         | None = Some _ => discriminate H
         | (if ?b then _ else _) = Some _ => destruct b eqn:?; try discriminate H
         | match ?x with _ => _ end = Some _ => destruct x eqn:?; try discriminate H
         end.

Lemma put_drain : forall c y c' l, drain c = (c', l) -> drain (put c y (r_req c) (r_resp c)) = (put c' y (r_req c') (r_resp c'), l).
Proof.
  intros c y c' l. unfold drain. cbn [put y_last y_queue y_count]. destruct (next_queued _ _) as [[es q]|]; intros [= <- <-]; reflexivity.
Qed.
Lemma put_next : forall c y c' l, next c = (c', l) -> next (put c y (r_req c) (r_resp c)) = (put c' y (r_req c') (r_resp c'), l).
Proof.
  intros c y c' l. unfold next. cbn [put y_more y_ev]. destruct (y_more c); [intros [= <- <-]; reflexivity|].
  destruct (y_ev c); [apply put_drain|intros [= <- <-]; reflexivity].
Qed.
Lemma put_sessions : forall c y c' l, Model_Sync.sessions c = (c', l) -> Model_Sync.sessions (put c y (r_req c) (r_resp c)) = (put c' y (r_req c') (r_resp c'), l).
Proof.
  intros c y c' l. unfold Model_Sync.sessions. cbn [put y_ev]. destruct (y_ev c) as [|e ev] eqn:E; [apply put_next|]. cbv zeta.
  destruct (Z.eqb _ _); [apply put_next|]. intros [= <- <-]. reflexivity.
Qed.
Lemma put_advance : forall c y c' l, advance c = (c', l) -> advance (put c y (r_req c) (r_resp c)) = (put c' y (r_req c') (r_resp c'), l).
Proof. intros c y c' l. unfold advance. intros H. exact (put_sessions (y_set c (y_phase c) (y_ev c) (last_id (y_last c) (y_ev c)) (y_queue c)) y c' l H). Qed.

Lemma put_yexec : forall sv L c y o c' l, client_op o = true -> yexec sv L c o = Some (c', l) ->
    yexec sv L (put c y (r_req c) (r_resp c)) o = Some (put c' y (r_req c') (r_resp c'), l).
Proof.
  intros sv L c y o c' l Ho. unfold yexec. cbn [put y_phase]. destruct (y_phase c) eqn:EP; try discriminate; destruct o; try discriminate Ho; intros H;
    cbn [put r_up r_req r_resp r_chan y_busy y_queue y_count y_ev y_last] in *;
    try discriminate H;
    repeat match type of H with
         | (if ?b then _ else _) = Some _ => destruct b eqn:?; try discriminate H
         | match ?x with _ => _ end = Some _ => destruct x eqn:?; try discriminate H
         end;
    try (injection H as <- <-; cbn; rewrite ?EP; reflexivity);
    try (match type of H with Some ?p = Some _ => destruct p as [c2 l2] eqn:Ep end; injection H as <- <-; f_equal;
         first [exact (put_drain _ y _ _ Ep)|exact (put_next _ y _ _ Ep)|exact (put_sessions _ y _ _ Ep)|exact (put_advance _ y _ _ Ep)
               |rewrite <- EP; cbn; exact (put_advance _ y _ _ Ep)]).
Qed.

Definition mild_op (o : yop) : bool := match o with RConnect | YRecv | YDone => true | _ => false end.
Lemma put_keep : forall sv L c y o c' l rq rs, mild_op o = true -> yexec sv L c o = Some (c', l) ->
    yexec sv L (put c y rq rs) o = Some (put c' y rq rs, l) /\ r_req c' = r_req c /\ r_resp c' = r_resp c.
Proof.
  intros sv L c y o c' l rq rs Ho. unfold yexec. cbn [put y_phase]. destruct (y_phase c) eqn:EP; try discriminate; destruct o; try discriminate Ho; intros H;
    cbn [put r_up r_req r_resp r_chan y_busy y_queue y_count y_ev y_last] in *;
    try discriminate H;
    repeat match type of H with
         | (if ?b then _ else _) = Some _ => destruct b eqn:?; try discriminate H
         | match ?x with _ => _ end = Some _ => destruct x eqn:?; try discriminate H
         end;
    injection H as <- <-; cbn; rewrite ?EP; auto.
Qed.
