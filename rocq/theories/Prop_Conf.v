(** C69: configurations. *)
From Coq Require Import String Bool ZArith QArith List.
From Verif Require Import Base Model_Types Model_Subscription Model_Codec Model_Conditions Model_Lmdb Model_Schema Model_Conf Spec_Conf
  Proof_Conf3 Proof_Conf4 Proof_Conf5 Proof_Conf6 Ex_Conf.
Import ListNotations.
Open Scope string_scope.
Open Scope list_scope.
Open Scope Z_scope.

(** C69.  Validation of a configuration of the server, whatever it is, comes to
    an end, and accepts those of the documented form; *)
Theorem C69_server_form : forall log_ok j,
  (exists b, validation log_ok server_yaml j = Some b) /\ (validates log_ok server_yaml j = true <-> server_form log_ok j).
Proof. exact final_C69_server_form. Qed.
Print Assumptions C69_server_form.

(** and so does that of the LMDB backend, however deep its conditions are. *)
Theorem C69_lmdb_form : forall log_ok j,
  (exists b, validation log_ok lmdb_yaml j = Some b) /\ (validates log_ok lmdb_yaml j = true <-> lmdb_form j).
Proof. exact final_C69_lmdb_form. Qed.
Print Assumptions C69_lmdb_form.

(** C69.  All that the server takes from an accepted configuration is there, and
    is what is written there. *)
Theorem C69_server : forall log_ok j, validates log_ok server_yaml j = true -> exists c, read_server j = Some c /\ server_read j c.
Proof. exact final_C69_server. Qed.
Print Assumptions C69_server.

(** C69.  An accepted configuration of the LMDB backend can be used iff
    subscriptions can be created from its lists of types and the size of the cache
    is not written as a float; then what is used is what is written there. *)
Theorem C69_lmdb_partial : forall log_ok j, validates log_ok lmdb_yaml j = true ->
  ((exists c, read_lmdb j = Some c) <-> usable j) /\
  (forall c, read_lmdb j = Some c -> lmdb_read j c /\ forall jget version, exists cf, conf_of jget version c = Some cf).
Proof. exact final_C69_lmdb. Qed.
Print Assumptions C69_lmdb_partial.

(** C69.  The server is run iff its configuration, that of its backend and those
    of its modules are accepted, and logging can be set up. *)
Theorem C69_main : forall log_ok dict_ok backends modules j,
  sync_main log_ok dict_ok backends modules j = true <->
  validates log_ok server_yaml j = true /\ exists c, read_server j = Some c /\
    info_ok (backends (sv_module c)) (sv_backend c) = true /\
    Forall (fun m => info_ok (modules (fst m)) (snd m) = true) (sv_modules c) /\
    (forall x, sv_log c = Some x -> truthy x = true -> dict_ok x = true).
Proof. exact final_C69_main. Qed.
Print Assumptions C69_main.

(** C69.  With an accepted configuration, ids of events can be stored iff the
    server id is a 64 bit number not written as a float. *)
Theorem C69_server_id_partial : forall log_ok j c session instance, validates log_ok server_yaml j = true -> read_server j = Some c ->
  0 <= session < 2 ^ 64 -> 0 <= instance < 2 ^ 64 ->
  (exists b, encode_id (sv_id c) session instance = Some b) <-> (exists z, sv_id c = JInt z /\ 0 <= z < 2 ^ 64).
Proof. exact final_C69_server_id. Qed.
Print Assumptions C69_server_id_partial.

(** That all accepted configurations can be used is false: a server is run
    though its backend can't be created (a subscription with "*" in front, a size
    of 4096.0), *)
Theorem C69_refuted : forall log_ok dict_ok modules, exists j1 j2, forall j, j = j1 \/ j = j2 ->
  sync_main log_ok dict_ok (lmdb_only log_ok) modules j = true /\ exists c, read_server j = Some c /\ read_lmdb (sv_backend c) = None.
Proof. exact final_C69_refuted. Qed.
Print Assumptions C69_refuted.

(** or though no event it registers can be stored (server id -1, server id 1.0). *)
Theorem C69_server_id_refuted : forall log_ok dict_ok modules, exists j1 j2, forall j, j = j1 \/ j = j2 ->
  sync_main log_ok dict_ok (lmdb_only log_ok) modules j = true /\
  exists c b, read_server j = Some c /\ read_lmdb (sv_backend c) = Some b /\ forall session instance, encode_id (sv_id c) session instance = None.
Proof. exact final_C69_server_id_refuted. Qed.
Print Assumptions C69_server_id_refuted.

(** A configuration that is accepted, and some that are not. *)
Example C69_form_example : server_form ex_log ex_server /\ lmdb_form ex_backend /\
  ~ server_form (fun _ => false) ex_server /\ ~ lmdb_form ex_server /\
  validates ex_log server_yaml (JObj [("name", JStr "event")]) = false /\
  validates ex_log server_yaml (server_with (JStr "1") ex_backend) = false /\
  validates ex_log server_yaml (server_with (JBool true) ex_backend) = false /\
  validates ex_log server_yaml (server_with (JFloat 3 (-1)) ex_backend) = false /\
  validates ex_log server_yaml (server_with (JFloat 1 1) ex_backend) = true.
Proof.
  split; [apply (proj2 (C69_server_form ex_log ex_server)); reflexivity|].
  split; [apply (proj2 (C69_lmdb_form ex_log ex_backend)); reflexivity|].
  split; [intros H; apply (proj2 (C69_server_form (fun _ => false) ex_server)) in H; discriminate|].
  split; [intros H; apply (proj2 (C69_lmdb_form ex_log ex_server)) in H; discriminate|].
  repeat split; reflexivity.
Qed.

(** What is read from it. *)
Example C69_read_example :
  option_map (fun c => (sv_name c, sv_id c, sv_token c, map fst (sv_modules c), sv_port c, sv_adminer c)) (read_server ex_server) =
    Some ("event", JInt 7, Some "token", ["m1"; "m2"], JInt 23012, None) /\
  (do c <- read_server ex_server; sv_monitor c) = Some ("127.0.0.1", JFloat 23010 0, "g") /\
  option_map (fun c => (lc_conds c, map pt_order (lc_parts c), map pt_limit (lc_parts c), lc_max c, lc_cache c, lc_flush c)) (read_lmdb ex_backend) =
    Some ([([["a"; "*"]], CAny [CJson (Some (JArr [JStr "x"; JInt 0])) (Some "number") None; CAll [CJson None None (Some (JBool true))]])],
          [TIMESTAMP; SOURCE_TIMESTAMP], [None; Some (Limit None (Some 10) (Some (3 # 4)%Q) None)], 8, 262144, (5 # 2)%Q) /\
  usable ex_backend.
Proof.
  split; [reflexivity|]. split; [reflexivity|]. split; [reflexivity|].
  apply (proj1 (C69_lmdb_partial ex_log ex_backend eq_refl)). eexists. reflexivity.
Qed.

(** A server that is run; it isn't if a module doesn't accept its configuration,
    if logging can't be set up, or if the backend is another one. *)
Example C69_main_example :
  sync_main ex_log (fun _ => true) (lmdb_only ex_log) ex_modules ex_server = true /\
  sync_main ex_log (fun _ => true) (lmdb_only ex_log) (fun m => Some (Some (fun j => match getitem "x" j with Some _ => true | _ => false end))) ex_server = false /\
  sync_main ex_log (fun _ => false) (lmdb_only ex_log) ex_modules ex_server = false /\
  sync_main ex_log (fun _ => true) (fun _ => None) ex_modules ex_server = false /\
  exists b, encode_id (JInt 7) 1 2 = Some b.
Proof. repeat apply conj; try reflexivity. eexists. reflexivity. Qed.
