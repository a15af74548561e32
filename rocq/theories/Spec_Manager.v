(** What is expected of the event manager tool. *)
From Coq Require Import String Ascii ZArith QArith List.
From Verif Require Import Base Model_Types Model_Time Model_Manager Spec_DbTool.
Import ListNotations.
Open Scope string_scope.
Open Scope list_scope.
Open Scope Z_scope.

(** Meaning of the texts of options. *)
Definition means_ts (w : world) (opt s : string) (t : timestamp) : Prop :=
  (s = "now" /\ t = w_now w opt) \/
  (s <> "now" /\ exists q, w_float w s = Some (FNum q) /\ t = timestamp_from_float q).
Definition means_int (w : world) (s : string) (n : Z) : Prop := w_int w s = Some n.
Definition means_order (s : string) (o : order) : Prop :=
  (s = "DESCENDING" /\ o = DESCENDING) \/ (s = "ASCENDING" /\ o = ASCENDING).
Definition means_order_by (s : string) (o : order_by) : Prop :=
  (s = "TIMESTAMP" /\ o = TIMESTAMP) \/ (s = "SOURCE_TIMESTAMP" /\ o = SOURCE_TIMESTAMP).
Definition means_id (w : world) (s : string) (i : event_id) : Prop :=
  exists a b c, s = (a ++ "," ++ b ++ "," ++ c)%string /\
    means_int w a (eid_server i) /\ means_int w b (eid_session i) /\ means_int w c (eid_instance i).

(** An option that may be missing. *)
Definition maybe {A : Type} (R : string -> A -> Prop) (o : option string) (v : option A) : Prop :=
  match o, v with None, None => True | Some s, Some a => R s a | _, _ => False end.
Definition default {A : Type} (R : string -> A -> Prop) (d : A) (o : option string) (v : A) : Prop :=
  match o with None => v = d | Some s => R s v end.
Definition maybe_types (o : option (list string)) (v : option (list etype)) : Prop :=
  match o, v with None, None => True | Some l, Some ts => Forall2 names l ts | _, _ => False end.

(** The query that a command line asks for. *)
Inductive asks (w : world) : action -> query_params -> Prop :=
| asks_latest : forall l ts, maybe_types l ts -> asks w (DoLatest l) (QPLatest (QLatest ts))
| asks_timeseries : forall l a b c d o ob m i ts ta tb tc td qo qob qm qi,
    maybe_types l ts -> maybe (means_ts w "t-from") a ta -> maybe (means_ts w "t-to") b tb ->
    maybe (means_ts w "source-t-from") c tc -> maybe (means_ts w "source-t-to") d td ->
    default means_order DESCENDING o qo -> default means_order_by TIMESTAMP ob qob ->
    maybe (means_int w) m qm -> maybe (means_id w) i qi ->
    asks w (DoTimeseries l a b c d o ob m i) (QPTimeseries (QTimeseries ts ta tb tc td qo qob qm qi))
| asks_server : forall p m i s n qm qi,
    maybe (means_int w) m qm -> maybe (means_id w) i qi -> means_int w s n ->
    asks w (DoServerQuery p m i s) (QPServer (QServer n p qm qi)).

(** Command lines with options that do not work. *)
Definition plain (a : action) : Prop :=
  match a with
  | DoTimeseries _ _ _ _ _ o ob _ i => o = None /\ ob = None /\ i = None
  | DoServerQuery _ _ _ _ => False
  | _ => True
  end.

(** The payload that a registration asks for. *)
Definition format_name (s : string) (f : format) : Prop :=
  (s = "json" /\ f = FJson) \/ (s = "yaml" /\ f = FYaml) \/ (s = "toml" /\ f = FToml).
Inductive asks_payload (w : world) (btype : option string) : option string -> option string -> option payload -> Prop :=
| ap_none : forall path, asks_payload w btype (Some "none") path None
(* of the standard input *)
| ap_stdin_json : forall path j, (path = None \/ path = Some "-") -> w_stdin w FJson = Some j ->
    asks_payload w btype None path (Some (PJson j))
| ap_stdin : forall pt f path j, (path = None \/ path = Some "-") -> format_name pt f -> w_stdin w f = Some j ->
    asks_payload w btype (Some pt) path (Some (PJson j))
| ap_stdin_binary : forall path, (path = None \/ path = Some "-") ->
    asks_payload w btype (Some "binary") path (Some (PBinary (text_or "" btype) (w_stdin_bytes w)))
(* of a file *)
| ap_file_auto : forall path f j, path <> "-" -> w_format w path = Some f -> w_file w path f = Some j ->
    asks_payload w btype None (Some path) (Some (PJson j))
| ap_file_other : forall path b, path <> "-" -> w_format w path = None -> w_file_bytes w path = Some b ->
    asks_payload w btype None (Some path) (Some (PBinary (text_or "" btype) b))
| ap_file : forall pt f path j, path <> "-" -> format_name pt f -> w_file w path f = Some j ->
    asks_payload w btype (Some pt) (Some path) (Some (PJson j))
| ap_file_binary : forall path b, path <> "-" -> w_file_bytes w path = Some b ->
    asks_payload w btype (Some "binary") (Some path) (Some (PBinary (text_or "" btype) b)).

(** The event that a registration asks for. *)
Inductive asks_register (w : world) : action -> reg_event -> Prop :=
| ar : forall src pt btype path type qt qsrc qp,
    names type qt -> maybe (means_ts w "source-timestamp") src qsrc -> asks_payload w btype pt path qp ->
    asks_register w (DoRegister src pt btype path type) (RegEv qt qsrc qp).

(** Bytes of the results. *)
Definition results_ok (r : query_result) : Prop := Forall bytes_ok (qr_events r).
