(** C11: transfer form.  The JSON text codec of hat-json is a parameter: it is
    only assumed to decode what it encoded, for the data of the payload. *)
From Coq Require Import String Bool ZArith List.
From Verif Require Import Base Model_Types Model_Codec Model_Sbs Proof_Sbs.
Import ListNotations.
Open Scope string_scope.
Open Scope list_scope.

Theorem C11_status : forall s, status_from_sbs (status_to_sbs s) = Some s.
Proof. exact status_rt. Qed.
Print Assumptions C11_status.

Theorem C11_query_params : forall p, query_params_from_sbs (query_params_to_sbs p) = Some p.
Proof. exact query_params_rt. Qed.
Print Assumptions C11_query_params.

Theorem C11_event : forall (json_encode : json -> string) (json_decode : string -> option json) (json_ok : json -> Prop),
    (forall j, json_ok j -> json_decode (json_encode j) = Some j) ->
    forall e, (forall j, ev_payload e = Some (PJson j) -> json_ok j) ->
      event_from_sbs json_decode (event_to_sbs json_encode e) = Some e.
Proof.
  intros enc dec ok H e He. apply (event_rt enc dec ok H).
  unfold payload_ok. destruct (ev_payload e) as [[|j]|]; auto.
Qed.
Print Assumptions C11_event.

Theorem C11_register_event : forall (json_encode : json -> string) (json_decode : string -> option json) (json_ok : json -> Prop),
    (forall j, json_ok j -> json_decode (json_encode j) = Some j) ->
    forall e, (forall j, re_payload e = Some (PJson j) -> json_ok j) ->
      register_event_from_sbs json_decode (register_event_to_sbs json_encode e) = Some e.
Proof.
  intros enc dec ok H e He. apply (register_event_rt enc dec ok H).
  unfold payload_ok. destruct (re_payload e) as [[|j]|]; auto.
Qed.
Print Assumptions C11_register_event.

Theorem C11_query_result : forall (json_encode : json -> string) (json_decode : string -> option json) (json_ok : json -> Prop),
    (forall j, json_ok j -> json_decode (json_encode j) = Some j) ->
    forall r, (forall e j, In e (qr_events r) -> ev_payload e = Some (PJson j) -> json_ok j) ->
      query_result_from_sbs json_decode (query_result_to_sbs json_encode r) = Some r.
Proof.
  intros enc dec ok H r Hr. apply (query_result_rt enc dec ok H).
  intros e He. unfold payload_ok. destruct (ev_payload e) as [[|j]|] eqn:E; eauto.
Qed.
Print Assumptions C11_query_result.

(** C11.  What is sent is of the type the schema (eventer.sbs) declares. *)
Theorem C11_schema : forall (json_encode : json -> string),
    (forall s, conforms T_Status (status_to_sbs s)) /\
    (forall e, conforms T_Event (event_to_sbs json_encode e)) /\
    (forall e, conforms T_RegisterEvent (register_event_to_sbs json_encode e)) /\
    (forall p, conforms T_QueryParams (query_params_to_sbs p)) /\
    (forall r, conforms T_QueryResult (query_result_to_sbs json_encode r)).
Proof.
  intros enc. split; [exact cf_status|]. split; [exact (cf_event enc)|]. split; [exact (cf_register_event enc)|].
  split; [exact cf_query_params|exact (cf_query_result enc)].
Qed.
Print Assumptions C11_schema.

(** An event with every optional field and a JSON payload, under a codec that
    handles strings only. *)
Definition enc1 (j : json) : string := match j with JStr s => s | _ => "" end.
Example C11_example :
  let e := Ev (Eid 1 2 3) ["a"; ""] (Ts (-4) 5) (Some (Ts 6 7)) (Some (PJson (JStr "x"))) in
  (forall j, (exists s, j = JStr s) -> (fun s => Some (JStr s)) (enc1 j) = Some j) /\
  event_from_sbs (fun s => Some (JStr s)) (event_to_sbs enc1 e) = Some e /\
  query_params_from_sbs (query_params_to_sbs (QPTimeseries (QTimeseries (Some [["a"]]) None (Some (Ts 1 2)) None None
     ASCENDING SOURCE_TIMESTAMP (Some 5%Z) None))) =
  Some (QPTimeseries (QTimeseries (Some [["a"]]) None (Some (Ts 1 2)) None None ASCENDING SOURCE_TIMESTAMP (Some 5%Z) None)).
Proof. split; [|split]; [intros j [s ->]; reflexivity|reflexivity|reflexivity]. Qed.
