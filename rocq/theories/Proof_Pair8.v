(** Two servers, one of which follows the other one: what C74 says. *)
From Coq Require Import String Bool ZArith Arith Lia Sorted List.
From Verif Require Import Base Kv Model_Types Model_Codec Keys Spec_Order Proof_Order Model_Lmdb Model_LmdbSys Spec_Lmdb Spec_LmdbContent Spec_LmdbQuery
  Proof_Lmdb8 Proof_Lmdb15 Model_LmdbFlush Spec_LmdbFlush Proof_LmdbFlush Proof_LmdbFlush4
  Model_Sync Spec_Sync Proof_Sync Model_Replica Spec_Replica Proof_Replica2 Proof_Replica5
  Model_Pair Spec_Pair Proof_Pair Proof_Pair3 Proof_Pair4 Proof_Pair5 Proof_Pair6 Proof_Pair7.
Import ListNotations.
Open Scope list_scope.
Open Scope nat_scope.

(** The two servers seen as a server that follows a remote (C73). *)
Record as_replica (OB : oracle) (cfA cfB : conf) (sv : Z) (tr : list dstep) (st : pstate) (tr' : list rstep) (y : ystate) : Prop := {
  ar_rep : replicated OB cfB sv tr' y (d_local st);
  ar_safe : restarts_safe tr';
  ar_timely : clock_ok sv tr -> timely (remote_events tr');
  ar_loc : local_part tr' = near_part tr;
  ar_told : told (sync_part (current tr')) = told (client_part (since tr));
  ar_end : remote_events tr' = own sv (flushed_events (remote_part tr));
  ar_st : forall e, eid_server (ev_id e) = sv -> stored_event (remote_db st) e -> persisted (sync_part tr') e /\ ~ removed (sync_part tr') e;
  ar_wait : forall e, waiting y e -> coming st e }.

Lemma pair_replica : forall OA OB cfA cfB sv tr st, paired OA OB cfA cfB sv tr st -> restarts_ok cfA sv tr -> exists tr' y, as_replica OB cfA cfB sv tr st tr' y.
Proof.
  intros * (HP & PO & CA & EA & KA & CB & EB) RO. destruct (pair_joint _ _ _ _ _ _ _ HP PO CA EA KA CB EB RO) as (tr' & y & J). exists tr', y.
  pose proof (pair_far _ _ _ _ _ _ _ HP CA EA) as HF. destruct J as [J1 J2 J3 J4 J5 J6 J7 J8 J9 J10 J11 J12 J13 J14]. constructor; auto.
  - split; [exact J1|]. rewrite J12. auto.
  - unfold clock_ok. rewrite J10. intros T. eapply sorted_subseq; [|exact T]. apply subseq_filter. eapply subseq_left. apply (fa_sub _ _ _ _ HF).
  - intros e Hs He. split.
    + assert (X : In e (stored_so_far tr')).
      { rewrite J9. apply own_In. split; [|exact Hs]. eapply stored_map; [exact (execution_inv _ _ _ _ (fa_exec _ _ _ _ HF))|exact He]. }
      rewrite stored_commits in X. apply in_map_iff in X as ([e' ok] & <- & X). apply filter_In in X as [X Ok]. cbn [snd fst] in *. subst ok.
      apply in_concat in X as (b & B1 & B2). exists b. split; [exact B1|exact B2].
    + intros [l Hl]. destruct (J11 _ _ Hl) as [_ B]. exact (B e He eq_refl).
  - intros e (b & He & [Hb|Hb]).
    + left. rewrite J6 in Hb. unfold projs in Hb. apply in_flat_map in Hb as (b0 & B1 & B2). exists b0.
      assert (B3 : b = own sv b0) by (destruct (own sv b0); [destruct B2|destruct B2 as [<-|[]]; reflexivity]). subst b. apply own_In in He as [He _]. split; [|exact He].
      unfold note_list, to_notify in *. destruct (f_loop (d_remote st)); try exact B1. destruct (w_going (remote_part tr)); [exact B1|destruct B1].
    + right. exists b. split; [|exact He]. rewrite J2 in Hb. exact Hb.
Qed.

Lemma final_C74_all : forall OA OB cfA cfB sv tr st, paired OA OB cfA cfB sv tr st -> restarts_ok cfA sv tr -> clock_ok sv tr -> finished (client_part (since tr)) ->
    forall e, eid_server (ev_id e) = sv -> stored_event (remote_db st) e -> takes cfB tr e -> ~ coming st e -> got cfB tr e.
Proof.
  intros * HP RO CO FI e Hs He Ht Hc. destruct (pair_replica _ _ _ _ _ _ _ HP RO) as (tr' & y & [R S T L K E D W]).
  destruct (D e Hs He) as [D1 D2]. unfold got. rewrite <- L. apply (final_C73_all _ _ _ _ _ _ R S (T CO)); auto.
  - unfold finished in *. rewrite K. exact FI.
  - unfold taken. rewrite L. exact Ht.
Qed.

Lemma final_C74_behind : forall OA OB cfA cfB sv tr st, paired OA OB cfA cfB sv tr st -> restarts_ok cfA sv tr -> clock_ok sv tr ->
    forall e, eid_server (ev_id e) = sv -> stored_event (remote_db st) e -> takes cfB tr e ->
    eid_leb (ev_id e) (get_last_event_id (m_sys (s_mem (d_local st))) sv) = true -> got cfB tr e.
Proof.
  intros * HP RO CO e Hs He Ht Hc. destruct (pair_replica _ _ _ _ _ _ _ HP RO) as (tr' & y & [R S T L K E D W]).
  destruct (D e Hs He) as [D1 D2]. unfold got. rewrite <- L. apply (final_C73_behind _ _ _ _ _ _ R S (T CO)); auto.
  unfold taken. rewrite L. exact Ht.
Qed.

Lemma final_C74_disk : forall OA OB cfA cfB sv tr st, paired OA OB cfA cfB sv tr st -> restarts_ok cfA sv tr -> clock_ok sv tr ->
    forall e en, eid_server (ev_id e) = sv -> stored_event (remote_db st) e -> takes cfB tr e ->
    In en (w_disk (watch_run cfB (near_part tr))) -> eid_server (ev_id (en_ev en)) = sv -> eid_leb (ev_id e) (ev_id (en_ev en)) = true ->
    exists en', In en' (w_disk (watch_run cfB (near_part tr))) /\ en_ev en' = e.
Proof.
  intros * HP RO CO e en Hs He Ht Hn Hv Hc. destruct (pair_replica _ _ _ _ _ _ _ HP RO) as (tr' & y & [R S T L K E D W]).
  destruct (D e Hs He) as [D1 D2]. rewrite <- L in *. apply (final_C73_disk _ _ _ _ _ _ R S (T CO) e en); auto.
  unfold taken. rewrite L. exact Ht.
Qed.

Lemma final_C74_only : forall OA OB cfA cfB sv tr st, paired OA OB cfA cfB sv tr st -> restarts_ok cfA sv tr ->
    increasing (got_list cfB sv tr) /\ increasing (own sv (flushed_events (remote_part tr))) /\
    forall e, In e (got_list cfB sv tr) -> In e (flushed_events (remote_part tr)).
Proof.
  intros * HP RO. destruct (pair_replica _ _ _ _ _ _ _ HP RO) as (tr' & y & [R S T L K E D W]).
  destruct (final_C73_only _ _ _ _ _ _ R S) as (A & B & C). unfold copy in *. rewrite L in *. split; [exact A|]. rewrite <- E. split; [exact B|].
  intros e He. apply C in He. rewrite E in He. now apply own_In in He.
Qed.
