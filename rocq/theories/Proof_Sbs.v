From Coq Require Import String Bool ZArith List.
From Verif Require Import Base Model_Types Model_Codec Model_Sbs.
Import ListNotations.
Open Scope string_scope.
Open Scope list_scope.

Lemma traverse_map : forall (A B : Type) (f : A -> B) (g : B -> option A) l,
    (forall x, In x l -> g (f x) = Some x) -> traverse g (map f l) = Some l.
Proof.
  induction l as [|a l IH]; intros H; cbn [map traverse]; auto.
  rewrite H by (left; auto). cbn [obind]. rewrite IH by (intros; apply H; right; auto). reflexivity.
Qed.

Lemma optional_rt : forall (A : Type) (f : A -> sbs) g o, (forall x, g (f x) = Some x) ->
    optional_from_sbs g (optional_to_sbs f o) = Some o.
Proof.
  intros A f g [x|] H; unfold optional_from_sbs, optional_to_sbs; cbn [as_choice obind fst snd]; cbn.
  - now rewrite H. - reflexivity.
Qed.

Lemma timestamp_rt : forall t, timestamp_from_sbs (timestamp_to_sbs t) = Some t.
Proof. intros [s u]. reflexivity. Qed.
Lemma event_id_rt : forall t, event_id_from_sbs (event_id_to_sbs t) = Some t.
Proof. intros [s u i]. reflexivity. Qed.
Lemma status_rt : forall s, status_from_sbs (status_to_sbs s) = Some s.
Proof. intros []; reflexivity. Qed.
Lemma etype_rt : forall t, etype_from_sbs (etype_to_sbs t) = Some t.
Proof. intros t. unfold etype_from_sbs, etype_to_sbs. cbn [as_list obind]. apply traverse_map. reflexivity. Qed.
Lemma etypes_rt : forall t, etypes_from_sbs (etypes_to_sbs t) = Some t.
Proof. intros t. unfold etypes_from_sbs, etypes_to_sbs. cbn [as_list obind]. apply traverse_map. intros; apply etype_rt. Qed.
Lemma order_rt : forall o, order_of_value (order_value o) = Some o.
Proof. intros []; reflexivity. Qed.
Lemma order_by_rt : forall o, order_by_of_value (order_by_value o) = Some o.
Proof. intros []; reflexivity. Qed.

Ltac fields := repeat (cbn [sfield dget String.eqb Ascii.eqb Bool.eqb obind as_choice fst snd as_int as_bool as_str as_list]).

Lemma query_params_rt : forall p, query_params_from_sbs (query_params_to_sbs p) = Some p.
Proof.
  intros [[ts]|[ts tf tt sf st o ob m l]|[s p m l]]; unfold query_params_from_sbs, query_params_to_sbs;
    cbn [ql_types qt_types qt_from qt_to qt_sfrom qt_sto qt_order qt_order_by qt_max qt_last
         qs_server qs_persisted qs_max qs_last]; fields; cbv zeta; fields;
    rewrite ?(optional_rt _ _ _ _ etypes_rt); fields;
    rewrite ?(optional_rt _ _ _ _ timestamp_rt); fields;
    rewrite ?(optional_rt _ _ _ _ timestamp_rt); fields;
    rewrite ?(optional_rt _ _ _ _ timestamp_rt); fields;
    rewrite ?(optional_rt _ _ _ _ timestamp_rt); fields;
    rewrite ?order_rt; fields; rewrite ?order_by_rt; fields;
    rewrite ?(optional_rt _ SInt as_int _ (fun x => eq_refl)); fields;
    rewrite ?(optional_rt _ _ _ _ event_id_rt); fields; reflexivity.
Qed.

Section Json.
  Variable json_encode : json -> string.
  Variable json_decode : string -> option json.
  Variable json_ok : json -> Prop.
  Hypothesis json_rt : forall j, json_ok j -> json_decode (json_encode j) = Some j.

  Definition payload_ok (p : option payload) : Prop :=
    match p with Some (PJson j) => json_ok j | _ => True end.

  Lemma payload_rt : forall p, payload_ok p ->
      optional_from_sbs (payload_from_sbs json_decode) (optional_to_sbs (payload_to_sbs json_encode) p) = Some p.
  Proof.
    intros [[ty d|j]|] H; unfold optional_from_sbs, optional_to_sbs, payload_to_sbs, payload_from_sbs; fields; auto.
    rewrite json_rt by exact H. reflexivity.
  Qed.

  Lemma event_rt : forall e, payload_ok (ev_payload e) ->
      event_from_sbs json_decode (event_to_sbs json_encode e) = Some e.
  Proof.
    intros [i t ts src p] H. unfold event_from_sbs, event_to_sbs. cbn [ev_id ev_type ev_ts ev_src ev_payload] in *.
    fields. rewrite event_id_rt; fields. rewrite etype_rt; fields. rewrite timestamp_rt; fields.
    rewrite (optional_rt _ _ _ _ timestamp_rt); fields. rewrite payload_rt by auto. reflexivity.
  Qed.

  Lemma register_event_rt : forall e, payload_ok (re_payload e) ->
      register_event_from_sbs json_decode (register_event_to_sbs json_encode e) = Some e.
  Proof.
    intros [t src p] H. unfold register_event_from_sbs, register_event_to_sbs. cbn [re_type re_src re_payload] in *.
    fields. rewrite etype_rt; fields.
    rewrite (optional_rt _ _ _ _ timestamp_rt); fields. rewrite payload_rt by auto. reflexivity.
  Qed.

  Lemma query_result_rt : forall r, (forall e, In e (qr_events r) -> payload_ok (ev_payload e)) ->
      query_result_from_sbs json_decode (query_result_to_sbs json_encode r) = Some r.
  Proof.
    intros [es m] H. unfold query_result_from_sbs, query_result_to_sbs. cbn [qr_events qr_more] in *. fields.
    rewrite traverse_map by (intros; apply event_rt; auto). reflexivity.
  Qed.
End Json.

(** Schema conformance. *)
Ltac conf := repeat match goal with
  | |- conforms (TRec _) (SRec _) => constructor
  | |- Forall2 _ [] [] => constructor
  | |- Forall2 _ (_ :: _) (_ :: _) => constructor; [split; [reflexivity|cbn [fst snd]]|]
  | |- conforms TNone _ => constructor
  | |- conforms TBool _ => constructor
  | |- conforms TInt _ => constructor
  | |- conforms TStr _ => constructor
  | |- conforms TBytes _ => constructor
  end.

Lemma cf_opt : forall (A : Type) (f : A -> sbs) t o, (forall x, conforms t (f x)) -> conforms (TOpt t) (optional_to_sbs f o).
Proof.
  intros A f t [x|] H; unfold optional_to_sbs, TOpt.
  - apply cf_choice with t; [cbn; auto|apply H]. - apply cf_choice with TNone; [cbn; auto|constructor].
Qed.
Lemma cf_map : forall (A : Type) (f : A -> sbs) t l, (forall x, conforms t (f x)) -> conforms (TArr t) (SArr (map f l)).
Proof. intros. constructor. apply Forall_forall. intros x Hx. apply in_map_iff in Hx as (y & <- & _). auto. Qed.
Lemma cf_timestamp : forall t, conforms T_Timestamp (timestamp_to_sbs t).
Proof. intros. unfold T_Timestamp, timestamp_to_sbs. conf. Qed.
Lemma cf_event_id : forall t, conforms T_EventId (event_id_to_sbs t).
Proof. intros. unfold T_EventId, event_id_to_sbs. conf. Qed.
Lemma cf_status : forall t, conforms T_Status (status_to_sbs t).
Proof. intros []; (apply cf_choice with TNone; [cbn; auto 6|constructor]). Qed.
Lemma cf_etype : forall t, conforms T_EventType (etype_to_sbs t).
Proof. intros. apply cf_map. intros; constructor. Qed.
Lemma cf_etypes : forall t, conforms (TArr T_EventType) (etypes_to_sbs t).
Proof. intros. apply cf_map. apply cf_etype. Qed.

Section JsonConf.
  Variable json_encode : json -> string.
  Lemma cf_payload : forall p, conforms T_EventPayload (payload_to_sbs json_encode p).
  Proof.
    intros [ty d|j]; unfold T_EventPayload, payload_to_sbs; (eapply cf_choice; [cbn; eauto|]); conf.
  Qed.
  Lemma cf_event : forall e, conforms T_Event (event_to_sbs json_encode e).
  Proof.
    intros. unfold T_Event, event_to_sbs. conf; auto using cf_timestamp, cf_event_id, cf_etype, cf_opt, cf_payload.
  Qed.
  Lemma cf_register_event : forall e, conforms T_RegisterEvent (register_event_to_sbs json_encode e).
  Proof.
    intros. unfold T_RegisterEvent, register_event_to_sbs. conf; auto using cf_timestamp, cf_event_id, cf_etype, cf_opt, cf_payload.
  Qed.
  Lemma cf_query_result : forall e, conforms T_QueryResult (query_result_to_sbs json_encode e).
  Proof. intros. unfold T_QueryResult, query_result_to_sbs. conf. apply cf_map. apply cf_event. Qed.
End JsonConf.

Lemma cf_query_params : forall p, conforms T_QueryParams (query_params_to_sbs p).
Proof.
  intros [p|p|p]; unfold T_QueryParams, query_params_to_sbs; (eapply cf_choice; [cbn; auto|]);
    unfold T_QueryLatestParams, T_QueryTimeseriesParams, T_QueryServerParams; conf;
    auto using cf_timestamp, cf_event_id, cf_etypes, cf_opt, cf_int.
  - destruct (qt_order p); (apply cf_choice with TNone; [cbn; auto|constructor]).
  - destruct (qt_order_by p); (apply cf_choice with TNone; [cbn; auto|constructor]).
Qed.
