(** C85: a server on the bytes of its file is seen to do what it does on decoded
    entries. *)
From Coq Require Import String Bool ZArith QArith Lia List.
From Verif Require Import Base Kv Model_Types Model_Subscription Model_Codec Spec_Codec Keys Model_Sbs Model_Lmdb Model_LmdbSys Model_Convert Model_ConvertBytes Spec_ConvertBytes
  Model_ConvertCut Model_CopyBytes Spec_CopyBytes Model_LmdbBytes Spec_LmdbBytes Model_LmdbFile Spec_Lmdb Spec_LmdbFile Proof_LmdbFile Proof_LmdbFile4 Proof_LmdbFile5 Ex_ConvertBytes Ex_CopyBytes Ex_Lmdb Ex_LmdbBytes Ex_LmdbFile.
Import ListNotations.
Open Scope string_scope.
Open Scope list_scope.
Open Scope Z_scope.

(** C85.  Each execution of the backend on decoded entries, about which other
    claims are made (C14, C18, C27, C28 and others), is one on the bytes of a file that
    was created by the first start: with the same answers, the same state in
    memory, and a file from which the same entries are read.  Missing: numbers
    that do not fit the encodings.  The condition [trace_fits] speaks only about
    events, configurations, queries and times of cleanups: JSON payloads are given
    back by the JSON library, (events + 1) * (partitions + 2) fits in 64 bits,
    numbers in queries fit, and the times of duration limits fit. *)
Theorem C85_execution_partial : forall C F, codecs_ok C F -> decode_event C [] = None -> forall O size,
    (forall s e d, read9 C e = Some d -> size s e = or_size O s d) -> (forall l r, or_pick O l = Some r -> In r l) ->
    forall cf tr s, execution O cf tr s -> trace_fits F cf tr ->
    exists s0 e0 s' e, file_start C cf = Some (s0, e0) /\ file_runs C O size s0 e0 tr s' e /\
      in_memory s' = in_memory s /\ file_ok e /\ read9 C e = Some (s_disk s).
Proof. exact final_C85_execution_obs. Qed.
Print Assumptions C85_execution_partial.

(** C85.  Under the same condition no number in any transaction of the server is
    too large for its encoding: numbers of latest events and partitions, counters,
    ids and timestamps. *)
Theorem C85_fits : forall F O cf tr s, execution O cf tr s -> trace_fits F cf tr -> execution_fits F O cf tr.
Proof. exact final_C85_fits. Qed.
Print Assumptions C85_fits.

(** C85.  There is nothing else that could be seen: with the same operations on a
    file, the answers are those of the execution on decoded entries. *)
Theorem C85_seen_partial : forall C F, codecs_ok C F -> decode_event C [] = None -> forall O size,
    (forall s e d, read9 C e = Some d -> size s e = or_size O s d) -> (forall l r, or_pick O l = Some r -> In r l) ->
    forall cf tr s, execution O cf tr s -> trace_fits F cf tr ->
    forall s0 e0 tr' s' e, file_start C cf = Some (s0, e0) -> file_runs C O size s0 e0 tr' s' e -> map fst tr' = map fst tr ->
      tr' = tr /\ in_memory s' = in_memory s /\ file_ok e /\ read9 C e = Some (s_disk s).
Proof. exact final_C85_seen_obs. Qed.
Print Assumptions C85_seen_partial.

(** C85.  The same for a server that goes on from a file that exists: one that was
    converted (C80), copied (C83), or written by another server.  Numbers of
    latest events in it are at most [N], of partitions at most [P]. *)
Theorem C85_from_partial : forall C F, codecs_ok C F -> decode_event C [] = None -> forall O size,
    (forall s e d, read9 C e = Some d -> size s e = or_size O s d) -> (forall l r, or_pick O l = Some r -> In r l) ->
    forall e d N P cf db m tr s, file_ok e -> read9 C e = Some d -> content_fits F N P d ->
      open_db cf d = Some (db, m) -> runs O (Sys cf db m [] no_changes [] []) tr s -> trace_fits_from F N P cf tr ->
    exists s0 e0 s' e', file_open C cf e = Some (s0, e0) /\ file_runs C O size s0 e0 tr s' e' /\
      in_memory s' = in_memory s /\ file_ok e' /\ read9 C e' = Some (s_disk s).
Proof. exact final_C85_from. Qed.
Print Assumptions C85_from_partial.

(** Example: flushes, a cleanup, a server query, a restart, a timeseries query. *)
Example C85_ex_execution : execution ex_oracle ex_conf lf_tr lf_s.
Proof.
  apply played'; [vm_compute; reflexivity| |vm_compute; reflexivity].
  apply Forall_cons; [apply ex_conf_ok|]. apply Forall_cons; [apply ex_conf_ok|apply Forall_nil].
Qed.
Example C85_ex_fits : trace_fits anyfloat ex_conf lf_tr.
Proof. apply trace_b. vm_compute. reflexivity. Qed.
Example C85_ex_pick : forall l r, or_pick ex_oracle l = Some r -> In r l.
Proof. intros [|a l] r H; [discriminate|]. injection H as ->. now left. Qed.
Example C85_ex_event : decode_event xc [] = None.
Proof. vm_compute. reflexivity. Qed.
Example C85_ex_seen :
  nth_error lf_tr 15 = Some (ODeliver 0, Answer (Some (QRes [ex_e2; ex_e5] false))) /\
  nth_error lf_tr 19 = Some (ODeliver 1, Answer (Some (QRes [ex_e6; ex_e5] false))).
Proof. split; vm_compute; reflexivity. Qed.
(** A server on a converted file: an event of it, and a new one. *)
Example C85_ex_from :
  file_ok env9 /\ read9 xc env9 = Some lg_db /\ content_fits anyfloat 1 2 lg_db /\
  open_db lg_conf lg_db = Some (opened lg_conf lg_db) /\ runs ex_oracle lg_start lg_tr lg_s /\ trace_fits_from anyfloat 1 2 lg_conf lg_tr.
Proof.
  split; [exact env9_ok|]. split; [vm_compute; reflexivity|]. split; [apply content_b; vm_compute; reflexivity|]. split; [vm_compute; reflexivity|].
  split.
  - destruct (play ex_oracle lg_start lg_ops) as [[tr s]|] eqn:E; [|vm_compute in E; discriminate].
    assert (A : lg_tr = tr) by (unfold lg_tr; now rewrite E). assert (B : lg_s = s) by (unfold lg_s; now rewrite E). rewrite A, B. exact (proj1 (play_runs _ _ _ _ _ E)).
  - split.
    + apply Forall_forall. intros x Hx. apply event_okb_ok. revert x Hx. apply forallb_forall. vm_compute. reflexivity.
    + apply Forall_forall. intros x Hx. apply pay_b. revert x Hx. apply forallb_forall. vm_compute. reflexivity.
    + vm_compute. reflexivity.
    + apply Forall_forall. intros x Hx. apply op_b. revert x Hx. apply forallb_forall. vm_compute. reflexivity.
Qed.
Example C85_ex_from_seen : map (fun x => match snd x with Answer (Some r) => map ev_id (qr_events r) | _ => [] end) (skipn 7 lg_tr) = [[Eid 1 2 3; Eid 1 2 4; Eid 1 3 1; Eid 1 3 2]].
Proof. vm_compute. reflexivity. Qed.
