(** C61: printing a database. *)
From Coq Require Import String Bool ZArith List Permutation.
From Verif Require Import Base Kv Model_Types Model_Subscription Model_Codec Keys Model_Lmdb Model_LmdbSys Spec_Subscription
  Spec_LmdbContent Spec_Copy Model_DbTool Spec_DbTool Proof_DbTool Proof_Lmdb10 Ex_Lmdb Prop_Copy.
Import ListNotations.
Open Scope string_scope.
Open Scope list_scope.
Open Scope Z_scope.

(** C61.  All settings are printed, *)
Theorem C61_settings : forall it d, (forall k v, In (k, v) (db_settings d) -> k = 0 \/ k = 1) ->
  exists ls, tool_run it d TSettings = (ls, None) /\
    Forall2 (fun kv j => exists name, setting_name (fst kv) name /\ j = JObj [("settings_id", JStr name); ("data", JStr (snd kv))])
      (db_settings d) ls.
Proof. exact final_C61_settings. Qed.
Print Assumptions C61_settings.

(** the last ids and last timestamps of the wanted servers, *)
Theorem C61_last_ids : forall it d server, exists r,
  picked (fun kv => wanted server (fst kv)) (db_ids d) r /\
  tool_run it d (TLastId server) = (map (fun kv => event_id_to_json (snd kv)) r, None).
Proof. exact final_C61_last_id. Qed.
Print Assumptions C61_last_ids.

Theorem C61_last_timestamps : forall it d server, exists r,
  picked (fun kv => wanted server (fst kv)) (db_tss d) r /\
  tool_run it d (TLastTs server) = (map (fun kv => timestamp_to_json (snd kv)) r, None).
Proof. exact final_C61_last_ts. Qed.
Print Assumptions C61_last_timestamps.

(** the wanted partitions, *)
Theorem C61_partitions : forall it d part, exists r,
  picked (fun kv => wanted part (fst kv)) (db_parts d) r /\
  tool_run it d (TPartition part) =
    (map (fun kv => JObj [("partition_id", JInt (fst kv)); ("data", part_to_json (snd kv))]) r, None).
Proof. exact final_C61_partition. Qed.
Print Assumptions C61_partitions.

(** and the events of partitions, of the wanted partition, server and types. *)
Theorem C61_timeseries : forall it d part server types, types_ok types -> exists r,
  picked (fun kv => wanted part (fst (fst (fst kv))) /\ wanted server (eid_server (snd (fst kv))) /\
                    wanted_type types (ev_type (snd kv))) (db_ts d) r /\
  tool_run it d (TTimeseries part server types) = (map (fun kv => event_to_json (snd kv)) r, None).
Proof. exact final_C61_timeseries. Qed.
Print Assumptions C61_timeseries.

(** C61.  Texts of types are split at every '/', *)
Theorem C61_names : forall s t, names s t <-> t = split_slash s.
Proof. exact final_C61_names. Qed.
Print Assumptions C61_names.

(** and what is printed determines the event. *)
Theorem C61_json : forall a b, bytes_ok a -> bytes_ok b -> event_to_json a = event_to_json b -> a = b.
Proof. exact final_C61_json. Qed.
Print Assumptions C61_json.

(** C61 fails for references: printing them always raises; *)
Theorem C61_ref_refuted : forall it d server, tool_run it d (TRef server) = ([], Some TypeError).
Proof. exact final_C61_ref. Qed.
Print Assumptions C61_ref_refuted.

(** and for latest events: with types nothing is ever printed, without types
    printing raises as soon as there is some latest event. *)
Theorem C61_latest_refuted :
  (forall it d types, tool_run it d (TLatest (Some types)) = ([], None)) /\
  (forall it d, (forall l, Permutation (it l) l) ->
     (forall i r, listed d i r <-> at_ref d r i) -> db_latest d <> [] ->
     snd (tool_run it d (TLatest None)) = Some AttributeError).
Proof. split; [exact final_C61_latest_types|exact final_C61_latest_all]. Qed.
Print Assumptions C61_latest_refuted.

(** A database that meets the hypotheses. *)
Example C61_example :
  (forall i r, listed (s_disk ex_s) i r <-> at_ref (s_disk ex_s) r i) /\ db_latest (s_disk ex_s) <> [] /\
  (forall k v, In (k, v) (db_settings (s_disk ex_s)) -> k = 0 \/ k = 1) /\ db_ref (s_disk ex_s) <> [] /\
  types_ok (Some ["a/*"; "b"]) /\
  tool_run (fun l => l) (s_disk ex_s) (TTimeseries (Some 1) None (Some ["a/y"])) = ([event_to_json ex_e5], None) /\
  tool_run (fun l => l) (s_disk ex_s) (TLastId (Some 2)) = ([event_id_to_json (Eid 2 1 1)], None) /\
  event_to_json (Ev (Eid 1 2 3) ["a"] (Ts 5 6) None (Some (PBinary "t" [10; 255]))) =
    JObj [("id", JObj [("server", JInt 1); ("session", JInt 2); ("instance", JInt 3)]); ("type", JArr [JStr "a"]);
          ("timestamp", JObj [("s", JInt 5); ("us", JInt 6)]); ("source_timestamp", JNull);
          ("payload", JObj [("type", JStr "BINARY"); ("subtype", JStr "t"); ("data", JStr "0aff")])].
Proof.
  split; [apply C47_example|]. split; [vm_compute; discriminate|]. split; [|split; [vm_compute; discriminate|split]].
  - intros k v H. vm_compute in H. destruct H as [H|[H|[]]]; injection H as <- _; auto.
  - intros l s q [= <-] I N. apply final_C61_names in N. subst q. destruct I as [<-|[<-|[]]]; vm_compute.
    + intros p r E. destruct p as [|x [|y [|z p]]]; cbn in E; try discriminate. congruence.
    + intros p r E. destruct p as [|x [|y p]]; cbn in E; discriminate.
  - repeat split; vm_compute; reflexivity.
Qed.
