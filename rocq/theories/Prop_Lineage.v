(** C82: databases after any number of conversions, server processes and copies. *)
From Coq Require Import String Bool ZArith Lia List.
From Verif Require Import Base Kv Model_Types Model_Subscription Model_Codec Keys Model_Lmdb Model_LmdbSys Spec_Order Spec_Lmdb Spec_LmdbContent Model_Copy Spec_Copy
  Model_Convert Spec_Convert Spec_Resume Ex_Lmdb Ex_Convert Proof_Resume4 Ex_Resume Spec_Lineage Ex_Lineage Proof_Lineage.
Import ListNotations.
Open Scope string_scope.
Open Scope list_scope.
Open Scope Z_scope.

(** C82, partial: provided that no configuration stops accepting what was accepted
    before.  Whatever copies and servers make of a database that a server has
    created or that was converted is consistent, so that a server can go on from it
    as stated by C81. *)
Theorem C82_consistent_partial : forall d l c, origin d -> descends d l c -> consistent c.
Proof. exact final_C82_origin. Qed.
Print Assumptions C82_consistent_partial.

(** C82.  A copy of a consistent database is consistent, whatever is skipped. *)
Theorem C82_copy : forall sl st d c, consistent d -> copy sl st d None = (true, Some c) -> consistent c.
Proof. exact copy_consistent. Qed.
Print Assumptions C82_copy.

(** C82.  A server can be started on a copy if, and only if, it can be started on
    the original. *)
Theorem C82_starts : forall O cf sl st d c, consistent d -> copy sl st d None = (true, Some c) ->
  ((exists s, resumed O cf c [] s) <-> (exists s, resumed O cf d [] s)).
Proof. exact final_C82_starts. Qed.
Print Assumptions C82_starts.

(** C82, partial in the same way.  Last ids never decrease, and ids are never used
    again: what is stored was stored in [d], or has a greater id than the last one
    that [d] has recorded for its server, also if that event was removed or
    skipped. *)
Theorem C82_ids_partial : forall d l c, consistent d -> descends d l c ->
  (forall sv i, In (sv, i) (db_ids d) -> exists i', In (sv, i') (db_ids c) /\ eid_le i i') /\
  (forall e, stored_event c e -> stored_event d e \/ forall i, In (server_of e, i) (db_ids d) -> eid_lt i (ev_id e)).
Proof. exact final_C82_ids. Qed.
Print Assumptions C82_ids_partial.

(** C82, partial in the same way.  Entries of partitions stay unless a copy skips
    them or a cleanup removes them. *)
Theorem C82_kept_partial : forall d l c k e, consistent d -> descends d l c -> In (k, e) (db_ts d) ->
  In (k, e) (db_ts c) \/ (exists sl, In (Copied sl true) l) \/ exists tr ks, In (Served tr) l /\ In (OWork, Cleaned ks) tr /\ In k ks.
Proof. exact final_C82_kept. Qed.
Print Assumptions C82_kept_partial.

(** C82, partial in the same way.  Types that have a latest event keep one, which
    never becomes older, unless a copy skips latest events. *)
Theorem C82_latest_partial : forall d l c e, consistent d -> descends d l c -> (forall st, ~ In (Copied true st) l) -> In e (vals (db_latest d)) ->
  exists e', In e' (vals (db_latest c)) /\ ev_type e' = ev_type e /\ ts_le (ev_ts e) (ev_ts e').
Proof. exact final_C82_latest. Qed.
Print Assumptions C82_latest_partial.

(** C82 is false for configurations that stop accepting an event: the latest event
    of its type is replaced by an older one, and the index of events still lists the
    former place of the event, which holds another one. *)
Theorem C82_stricter_refuted : exists O cf c tr s e e' r, consistent c /\ resumed O cf c tr s /\
  In e (vals (db_latest c)) /\ cf_cond cf e = false /\
  In e' (vals (db_latest (s_disk s))) /\ ev_type e' = ev_type e /\ ts_lt (ev_ts e') (ev_ts e) /\
  listed (s_disk s) (ev_id e) r /\ at_ref (s_disk s) r (ev_id e') /\ ~ at_ref (s_disk s) r (ev_id e) /\ ~ consistent (s_disk s).
Proof.
  assert (R : resumed ex_oracle ln_strict rs_db (run_tr ln_strict rs_db ln_ops2) (run_end ln_strict rs_db ln_ops2)).
  { apply (run_resumed ln_strict rs_db ln_ops2 ln_strict_ok); vm_compute; reflexivity. }
  exists ex_oracle, ln_strict, rs_db, (run_tr ln_strict rs_db ln_ops2), (run_end ln_strict rs_db ln_ops2), (ev 2 1 1 ["b"] 5 None), ln_older, (LatestRef 2).
  split; [apply (final_C81_v07 rs7); [exact rs7_sound|vm_compute; reflexivity]|]. split; [exact R|].
  split; [vm_compute; auto|]. split; [reflexivity|]. split; [vm_compute; auto|]. split; [reflexivity|]. split; [left; cbn; lia|].
  assert (L : listed (s_disk (run_end ln_strict rs_db ln_ops2)) (Eid 2 1 1) (LatestRef 2)).
  { exists [LatestRef 2; TimeseriesRef (7, Ts 5 0, Eid 2 1 1)]. vm_compute. auto 6. }
  assert (N : ~ at_ref (s_disk (run_end ln_strict rs_db ln_ops2)) (LatestRef 2) (Eid 2 1 1)).
  { intros (e & H & E). assert (X : In e [ln_older]) by (revert H; vm_compute; intros [H|[H|[]]]; [discriminate|left; congruence]). destruct X as [<-|[]]. discriminate E. }
  split; [exact L|]. split; [exists ln_older; vm_compute; auto|]. split; [exact N|]. intros [G C]. apply N. now apply (cs_refs _ _ C).
Qed.
Print Assumptions C82_stricter_refuted.

(** A converted database; a server stores an event; its database is copied without
    timeseries; a server on the copy refuses the event with the id of an event of
    server 3 that was removed before the conversion, and stores another one. *)
Example C82_example : origin rs_db /\ descends rs_db ln_deeds (s_disk ln_end) /\
  db_ts ln_copy = [] /\ db_ts (s_disk rs_end) <> [] /\
  nth_error ln_tr 3 = Some (OLatest (QLatest None), Answer (Some (QRes [rs_new; ln_new] false))) /\
  map fst (db_ts (s_disk ln_end)) = [(1, Ts 20 0, Eid 1 2 2)] /\
  (exists st, In (Copied false st) ln_deeds) /\ (forall st, ~ In (Copied true st) ln_deeds).
Proof.
  split; [apply (converted7 rs7); [exact rs7_sound|vm_compute; reflexivity]|]. split; [exact ln_descends|]. split; [vm_compute; reflexivity|]. split; [vm_compute; discriminate|].
  split; [vm_compute; reflexivity|]. split; [vm_compute; reflexivity|]. split; [exists true; right; now left|]. intros st [H|[H|[H|[]]]]; discriminate.
Qed.

(** The database of a server that created it meets the hypotheses as well. *)
Example C82_created_example : origin (s_disk ex_s) /\ (exists c, copy true false (s_disk ex_s) None = (true, Some c) /\ db_ref c <> db_ref (s_disk ex_s)).
Proof.
  split.
  - apply (created _ _ _ _ ex_run). replace (confs_of ex_tr) with (@nil conf) by (vm_compute; reflexivity). constructor; [constructor|constructor].
  - eexists. split; [reflexivity|]. vm_compute. discriminate.
Qed.
