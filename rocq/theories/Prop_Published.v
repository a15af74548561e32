(** C70: what the server tells about itself. *)
From Coq Require Import String Bool ZArith DecimalString List.
From Verif Require Import Base Model_Types Model_Subscription Model_Schema Model_Monitor Model_Remote Model_Conf Spec_Conf Model_Engine Spec_Engine
  Model_Eventer Spec_Published Model_Sync Model_Published Proof_Published Ex_Engine Ex_Eventer Ex_Conf.
Import ListNotations.
Open Scope string_scope.
Open Scope list_scope.
Open Scope Z_scope.

(** C70.  All events that an engine hands to its backend, whatever happens, were
    asked for by a caller of [register] or by a module, or tell of the state of the
    engine in the documented way. *)
Theorem C70_engine : forall ms size last tr s es e, engine_run ms size last tr s -> In es (handed tr) -> In e es ->
  asked tr (reg_of e) \/ reports events_engine ["event"; NilZero.string_of_int (Z.to_int (eid_server last)); "engine"] (reg_of e).
Proof. exact final_C70_engine. Qed.
Print Assumptions C70_engine.

(** C70.  All that an eventer server registers with its engine was asked for by a
    client, or tells of a client in the documented way. *)
Theorem C70_eventer : forall server token tr s o l k rs, vruns server token vstart tr s -> In (o, l) tr -> In (EngineCall k rs) l ->
  (exists conv last, o = VRegister k conv last rs) \/
  (exists name r, rs = [r] /\ reports events_eventer ["event"; NilZero.string_of_int (Z.to_int server); "eventer"; name] r).
Proof. exact final_C70_eventer. Qed.
Print Assumptions C70_eventer.

(** C70.  So do events that tell of synchronization. *)
Theorem C70_synced : forall server remote st count,
  reports events_synced ["event"; NilZero.string_of_int (Z.to_int server); "synced"; NilZero.string_of_int (Z.to_int remote)]
          (synced_event server remote st count).
Proof. exact final_C70_synced. Qed.
Print Assumptions C70_synced.

(** C70.  Data published by the monitor are of the documented form if the
    configuration was accepted. *)
Theorem C70_monitor_data : forall log_ok j c es, validates log_ok server_yaml j = true -> read_server j = Some c -> member j "eventer_server" es ->
  validates log_ok monitor_data_yaml (monitor_data c es) = true.
Proof. exact final_C70_monitor_data. Qed.
Print Assumptions C70_monitor_data.

(** C70.  Other servers of the group that know the token take from them exactly
    the id and address of the configuration, if these are not written as floats;
    others take nothing. *)
Theorem C70_peers_partial : forall log_ok j c es group mine own i, validates log_ok server_yaml j = true -> read_server j = Some c ->
  member j "eventer_server" es -> publishes c es group own i -> forall d,
  server_of group mine own i = Some d <->
  sv_id c = JInt (sd_id d) /\ sv_host c = sd_host d /\ sv_port c = JInt (sd_port d) /\ same_token mine c.
Proof. exact final_C70_peers. Qed.
Print Assumptions C70_peers_partial.

(** That all servers of a group use what is published is false: server id 1.0. *)
Theorem C70_refuted : forall log_ok, exists j c es i group,
  validates log_ok server_yaml j = true /\ read_server j = Some c /\ member j "eventer_server" es /\ publishes c es group None i /\
  same_token None c /\ validates log_ok monitor_data_yaml (mi_data i) = true /\ server_of group None None i = None.
Proof. exact final_C70_refuted. Qed.
Print Assumptions C70_refuted.

(** An engine that was closed: its first and its last event are its own. *)
Definition ex_ops : list eop := en_ops1 ++ [EClose; ECancel (Ts 99 0); ELast].
Example C70_engine_example :
  engine_run en_ms 3 en_last (etrace en_ms 3 en_last ex_ops) (eend en_ms 3 en_last ex_ops) /\
  map (map reg_of) (handed (etrace en_ms 3 en_last ex_ops)) = [[status_reg_event 1 "STARTED"]; [status_reg_event 1 "STOPPED"]] /\
  asked (etrace en_ms 3 en_last ex_ops) (rg ["c"]) /\ ~ asked (etrace en_ms 3 en_last ex_ops) (status_reg_event 1 "STARTED") /\
  validates ex_log events_engine (JStr "STARTED") = true /\ validates ex_log events_engine (JStr "CONNECTED") = false.
Proof.
  assert (O : ops_of (etrace en_ms 3 en_last ex_ops) = ex_ops) by reflexivity. unfold asked. rewrite O.
  split; [apply eplayed; reflexivity|]. split; [reflexivity|]. split.
  - left. exists en_req1. split; [left; reflexivity|]. right. now left.
  - split; [|split; reflexivity]. intros H.
    assert (G : In (status_reg_event 1 "STARTED") (flat_map (fun o => match o with ERegister q => rq_events q | EProcessed rs => rs | _ => [] end) ex_ops)).
    { apply in_flat_map. destruct H as [(rq & I & J)|(rs & I & J)]; eexists; (split; [exact I|exact J]). }
    change (In (status_reg_event 1 "STARTED") [rg ["a"; "x"]; rg ["c"]]) in G. destruct G as [G|[G|[]]]; discriminate G.
Qed.

(** A client of a server with an engine comes, registers and goes. *)
Definition ex_vops : list vop :=
  [VSetStatus 0 OPERATIONAL true; VAccept; VInit 1 0 vreq1 true; VHello 1 true; VRegister 1 1 true [rg ["x"]]; VRegistered 1 None; VLost 1; VEnd 1; VBye 1 true].
Example C70_eventer_example :
  vruns 1 (Some "secret") vstart (vtrace ex_vops) (vend ex_vops) /\
  flat_map (fun x => match x with EngineCall k rs => [(k, rs)] | _ => [] end) (flat_map snd (vtrace ex_vops)) =
  [(1%nat, [RegEv ["event"; "1"; "eventer"; "one"] None (Some (PJson (JStr "CONNECTED")))]);
   (1%nat, [rg ["x"]]);
   (1%nat, [RegEv ["event"; "1"; "eventer"; "one"] None (Some (PJson (JStr "DISCONNECTED")))])] /\
  validates ex_log events_eventer (JStr "CONNECTED") = true /\ validates ex_log events_eventer (JStr "STARTED") = false.
Proof. split; [apply vplayed; reflexivity|]. repeat split; reflexivity. Qed.

(** Events of synchronization; other data do not conform. *)
Example C70_synced_example :
  re_payload (synced_event 1 2 SYNCED (Some 3%nat)) = Some (PJson (JObj [("state", JStr "SYNCED"); ("count", JInt 3)])) /\
  re_payload (synced_event 1 2 SYNCING None) = Some (PJson (JObj [("state", JStr "SYNCING")])) /\
  re_type (synced_event 1 2 SYNCED None) = ["event"; "1"; "synced"; "2"] /\
  validates ex_log events_synced (JObj [("state", JStr "SYNCED")]) = false /\
  validates ex_log events_synced (JObj [("state", JStr "SYNCED"); ("count", JStr "3")]) = false.
Proof. repeat split; reflexivity. Qed.

(** A server that is found by another one of its group, if that knows its token. *)
Definition ex_info (c : server_conf) (es : json) : minfo := Minfo 2 0 (Some "event") (Some "g") (monitor_data c es) 1 None None.
Example C70_peers_example : exists c es,
  read_server ex_server = Some c /\ member ex_server "eventer_server" es /\ publishes c es "g" None (ex_info c es) /\
  same_token (Some "token") c /\ server_of "g" (Some "token") None (ex_info c es) = Some (Sdata 7 "127.0.0.1" 23012) /\
  server_of "g" (Some "guess") None (ex_info c es) = None /\ server_of "h" None None (ex_info c es) = None.
Proof.
  eexists. eexists. split; [reflexivity|]. split; [eexists; split; reflexivity|]. split; [repeat split; reflexivity|].
  split; [intros t H; exact H|]. repeat split; reflexivity.
Qed.
