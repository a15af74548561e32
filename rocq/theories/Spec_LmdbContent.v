(** What is expected of the content of the LMDB database and of latest
    queries. *)
From Coq Require Import String Bool ZArith Permutation List.
From Verif Require Import Base Model_Types Model_Subscription Model_Codec Spec_Subscription
  Model_Lmdb Model_LmdbSys Spec_Lmdb.
Import ListNotations.
Open Scope list_scope.
Open Scope Z_scope.

(** The database holds an event. *)
Definition stored_event (d : ldb) (e : event) : Prop := In e (vals (db_latest d)) \/ In e (vals (db_ts d)).

(** Events of a history of one server are in order. *)
Definition server_order (H : history) : Prop :=
  forall H1 a H2 b H3, H = H1 ++ a :: H2 ++ b :: H3 -> eid_server (ev_id (en_ev a)) = eid_server (ev_id (en_ev b)) ->
    eid_ltb (ev_id (en_ev a)) (ev_id (en_ev b)) = true /\ ts_leb (ev_ts (en_ev a)) (ev_ts (en_ev b)) = true.

(** The id of the last event of a server in a history. *)
Definition last_id (H : history) (s : Z) (i : event_id) : Prop :=
  (exists H1 en H2, H = H1 ++ en :: H2 /\ ev_id (en_ev en) = i /\ eid_server i = s /\
     forall x, In x H2 -> eid_server (ev_id (en_ev x)) <> s) \/
  ((forall x, In x H -> eid_server (ev_id (en_ev x)) <> s) /\ i = Eid s 0 0).

(** The newest event of a type: the last one of those with the greatest
    timestamp. *)
Definition newest (H : history) (t : etype) (e : event) : Prop :=
  exists H1 en H2, H = H1 ++ en :: H2 /\ en_ev en = e /\ ev_type e = t /\
    (forall x, In x H1 -> ev_type (en_ev x) = t -> ts_leb (ev_ts (en_ev x)) (ev_ts e) = true) /\
    (forall x, In x H2 -> ev_type (en_ev x) = t -> ts_ltb (ev_ts (en_ev x)) (ev_ts e) = true).

(** Types asked for. *)
Definition asked (p : query_latest) (t : etype) : Prop :=
  match ql_types p with None => True | Some qs => selects qs t end.
Definition valid_latest (p : query_latest) : Prop :=
  match ql_types p with None => True | Some qs => Forall valid_query qs end.

(** The content of the database that belongs to a history, from which [K] was
    removed. *)
Record content (d : ldb) (H : history) (K : list ts_key) : Prop := {
  ct_latest : forall e, In e (vals (db_latest d)) <-> latest_of H (ev_type e) = Some e;
  ct_once : NoDup (map ev_type (vals (db_latest d)));
  ct_ts : forall k e, In (k, e) (db_ts d) <->
      (exists cf pt, In (Entry cf e) H /\ In pt (cf_parts cf) /\
         In (fst (fst k), part_data_of pt) (db_parts d) /\
         place pt e = Some (snd (fst k)) /\ snd k = ev_id e) /\ ~ In k K;
  ct_keys : NoDup (keys (db_ts d));
  ct_ids : forall s i, In (s, i) (db_ids d) <-> last_id H s i /\ exists en, In en H /\ eid_server (ev_id (en_ev en)) = s }.

(** Conditions that were met stay met when the configuration changes. *)
Definition conditions_kept (cfs : list conf) : Prop :=
  ForallOrdPairs (fun a b => forall e, cf_cond a e = true -> cf_cond b e = true) cfs.

(** A place in the database holds an event with an id. *)
Definition at_ref (d : ldb) (r : event_ref) (i : event_id) : Prop :=
  match r with
  | LatestRef k => exists e, In (k, e) (db_latest d) /\ ev_id e = i
  | TimeseriesRef k => exists e, In (k, e) (db_ts d) /\ ev_id e = i
  end.

Definition entries_in (d : ldb) (p : Z) : Z :=
  Z.of_nat (List.length (filter (fun kv => fst (fst (fst kv)) =? p) (db_ts d))).

(** The stored counter of a partition; nothing stored counts as zero. *)
Definition counter (d : ldb) (p n : Z) : Prop :=
  In (p, n) (db_counts d) \/ (n = 0 /\ ~ In p (keys (db_counts d))).

Definition no_reopen (tr : list (op * out)) : Prop := forall cf x, ~ In (OReopen cf, x) tr.

(** Equal answers, apart from the order of events. *)
Definition same_answer (a b : out) : Prop :=
  exists x y, a = Answer (Some (QRes x false)) /\ b = Answer (Some (QRes y false)) /\ Permutation x y.

Definition no_register (tr : list (op * out)) : Prop := forall es x, ~ In (ORegister es, x) tr.

(** A flush was started after [tr1] (or nothing happened before). *)
Definition flush_point (tr1 tr2 : list (op * out)) : Prop :=
  tr1 = [] \/ exists x tr3, tr2 = (OFlush, x) :: tr3.

(** Stored settings: 0 is the version, 1 the identifier. *)
Definition setting (d : ldb) (k : Z) : option string := dget Z.eqb k (db_settings d).

(** The first identifier given. *)
Fixpoint first_ident (cfs : list conf) : option string :=
  match cfs with
  | [] => None
  | c :: cfs' => match cf_ident c with Some i => Some i | None => first_ident cfs' end
  end.
