(** Events by which the server reports about itself, and data it publishes by
    the monitor.  (For events of the engine see [status_reg_event] in
    Model_Engine.v, for those of connections [eventer_event] in
    Model_Eventer.v, for data of the monitor [monitor_data] in Model_Conf.v.) *)
From Coq Require Import String Bool ZArith DecimalString List.
From Verif Require Import Base Model_Types Model_Sync.
Import ListNotations.
Open Scope string_scope.
Open Scope list_scope.

(** src_py/hat/event/server/eventer_client.py:18-22 [SyncedState]: names *)
Definition synced_name (st : synced) : string :=
  match st with CONNECTED => "CONNECTED" | SYNCING => "SYNCING" | SYNCED => "SYNCED" end.

(** src_py/hat/event/server/engine_runner.py:42-60 [set_synced]: the event that
    is registered. *)
Definition synced_event (server remote : Z) (st : synced) (count : option nat) : reg_event :=
  let data := ("state", JStr (synced_name st)) ::
              match st with
              | SYNCED => [("count", match count with Some n => JInt (Z.of_nat n) | None => JNull end)]
              | _ => []
              end in
  RegEv ["event"; NilZero.string_of_int (Z.to_int server); "synced"; NilZero.string_of_int (Z.to_int remote)] None (Some (PJson (JObj data))).
