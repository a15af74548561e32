(** C81: going on from a converted database. *)
From Coq Require Import String Bool ZArith Lia List.
From Verif Require Import Base Kv Model_Types Model_Subscription Model_Codec Keys Model_Lmdb Model_LmdbSys Spec_Order Spec_Lmdb Spec_LmdbContent Spec_Copy
  Model_Convert Spec_Convert Spec_Resume Proof_Resume Proof_Resume2 Proof_Resume3 Proof_Resume4 Ex_Lmdb Ex_Convert Ex_Resume.
Import ListNotations.
Open Scope string_scope.
Open Scope list_scope.
Open Scope Z_scope.

(** C81, partial: provided that the database of version 0.6 has events of the
    server itself only, the converted database is consistent, and a server with
    any configuration of the present version can be started on it.  Events that the
    former server removed, among them the last ones of a server, may be missing
    from the database of version 0.7. *)
Theorem C81_starts_partial : forall O cf c, conf_ok cf -> cf_version cf = "0.9" ->
  ((exists d, sound7 d /\ convert (V07 d) = Some c) \/ (exists d s, sound6 d s /\ convert (V06 d) = Some c)) ->
  consistent c /\ exists s, resumed O cf c [] s.
Proof. exact final_C81_starts. Qed.
Print Assumptions C81_starts_partial.

(** C81.  The first latest queries are answered by the former latest events, as
    far as the configuration shows them. *)
Theorem C81_latest : forall O cf c p a s, consistent c -> resumed O cf c [(OLatest p, a)] s -> valid_latest p ->
  exists es, a = Answer (Some (QRes es false)) /\ NoDup (map ev_type es) /\
    forall e, In e es <-> In e (vals (db_latest c)) /\ covers cf (ev_type e) = true /\ cf_cond cf e = true /\ asked p (ev_type e).
Proof. exact final_C81_latest. Qed.
Print Assumptions C81_latest.

(** C81.  Entries of former partitions stay until a cleanup removes them. *)
Theorem C81_kept : forall O cf c tr s k e, consistent c -> resumed O cf c tr s -> In (k, e) (db_ts c) ->
  In (k, e) (db_ts (s_disk s)) \/ exists ks, In (OWork, Cleaned ks) tr /\ In k ks.
Proof. exact final_C81_kept. Qed.
Print Assumptions C81_kept.

(** C81.  New events have greater ids than all former events of their server, and
    timestamps that are not smaller, also if the former events were removed and only
    the records of last ids and timestamps tell of them; the reported last id is not
    smaller than a former one. *)
Theorem C81_ids : forall O cf c tr s, consistent c -> resumed O cf c tr s ->
  (forall e, stored_event (s_disk s) e -> stored_event c e \/
     (forall i, In (server_of e, i) (db_ids c) -> eid_lt i (ev_id e)) /\ (forall t, In (server_of e, t) (db_tss c) -> ts_le t (ev_ts e)) /\
     forall x, stored_event c x -> server_of x = server_of e -> eid_lt (ev_id x) (ev_id e) /\ ts_le (ev_ts x) (ev_ts e)) /\
  (forall sv i, In (sv, i) (db_ids c) -> eid_le i (get_last_event_id (m_sys (s_mem s)) sv)) /\
  (forall x, stored_event c x -> eid_le (ev_id x) (get_last_event_id (m_sys (s_mem s)) (server_of x))).
Proof. exact final_C81_ids. Qed.
Print Assumptions C81_ids.

(** C81.  Everything later is as if the database had been made by accepting its
    events one after another: what is stored, the order of events, the last ids and
    the answers to latest queries, over restarts and cleanups. *)
Theorem C81_history : forall c, consistent c -> exists H, stands_for H c /\ forall O cf tr s, resumed O cf c tr s ->
  let w := watch_from H cf tr in
  content (s_disk s) (w_disk w) (w_gone w) /\ server_order (w_all w) /\
  (forall srv, last_id (w_all w) srv (get_last_event_id (m_sys (s_mem s)) srv)) /\
  (forall p a s', resumed O cf c (tr ++ [(OLatest p, a)]) s' -> valid_latest p ->
     exists es, a = Answer (Some (QRes es false)) /\ NoDup (map ev_type es) /\
       forall e, In e es <-> visible (w_conf w) (w_all w) (ev_type e) = Some e /\ asked p (ev_type e)).
Proof. exact final_C81_history. Qed.
Print Assumptions C81_history.

(** Databases that meet the hypotheses. *)
Example C81_starts_example : sound7 rs7 /\ convert (V07 rs7) = Some rs_db /\ sound6 ex6 1 /\ convert (V06 ex6) <> None /\ conf_ok rs_conf /\ cf_version rs_conf = "0.9".
Proof.
  split; [exact rs7_sound|]. split; [vm_compute; reflexivity|]. split; [exact rs6_sound|]. split; [vm_compute; discriminate|]. split; [exact rs_conf_ok|reflexivity].
Qed.

(** A server goes on from the first: the event with an old id is refused, the new
    one becomes the latest one of its type, the other stays.  Of server 3 only the
    last id was left. *)
Example C81_example : consistent rs_db /\ resumed ex_oracle rs_conf rs_db rs_tr rs_end /\
  nth_error rs_tr 3 = Some (OLatest (QLatest None), Answer (Some (QRes [rs_new; Ev (Eid 2 1 1) ["b"] (Ts 5 0) None None] false))) /\
  map fst (db_ts (s_disk rs_end)) = [(7, Ts 1 0, Eid 1 1 1); (7, Ts 2 0, Eid 1 1 2); (7, Ts 5 0, Eid 2 1 1); (7, Ts 9 0, Eid 1 2 1)] /\
  get_last_event_id (m_sys (s_mem rs_end)) 1 = Eid 1 2 1 /\ get_last_event_id (m_sys (s_mem rs_end)) 3 = Eid 3 1 4.
Proof.
  split; [apply (final_C81_v07 rs7); [exact rs7_sound|vm_compute; reflexivity]|]. split; [exact rs_run|]. vm_compute. auto.
Qed.
