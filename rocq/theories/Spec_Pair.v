(** What is expected of two servers, one of which follows the other one. *)
From Coq Require Import String Bool ZArith Arith Sorted List.
From Verif Require Import Base Model_Types Model_Codec Model_Lmdb Model_LmdbSys Spec_Lmdb Spec_LmdbContent Spec_LmdbQuery Model_LmdbFlush Model_Sync Spec_Sync
  Model_Replica Spec_Replica Model_Pair.
Import ListNotations.
Open Scope list_scope.
Open Scope nat_scope.

(** What happened to the two backends, and to the client of the current
    connection. *)
Definition remote_part (tr : list dstep) : list (op * out) :=
  flat_map (fun x => match x with
                     | DRemote (_, xs, _) => xs
                     | DAsk q p => [(OServer q p, Quiet)]
                     | DRestart cf => [(OReopen cf, Quiet)]
                     | _ => [] end) tr.
Definition near_part (tr : list dstep) : list (op * out) :=
  flat_map (fun x => match x with DClient _ xs => xs | DLocal x => [x] | _ => [] end) tr.
Definition client_part (tr : list dstep) : list yitem :=
  flat_map (fun x => match x with DClient i _ => [i] | _ => [] end) tr.
Definition lost (x : dstep) : bool := match x with DAgain | DRestart _ => true | _ => false end.
Fixpoint since (tr : list dstep) : list dstep :=
  match tr with
  | [] => []
  | x :: tr' => if existsb lost tr then since tr' else tr
  end.

(** Configurations and events are as they can be (see [execution]); conditions
    of the remote are not made stricter (see C19). *)
Definition paired (OA OB : oracle) (cfA cfB : conf) (sv : Z) (tr : list dstep) (st : pstate) : Prop :=
  pair OA OB cfA cfB sv tr st /\ pick_ok OA /\
  Forall conf_ok (cfA :: confs_of (remote_part tr)) /\ Forall event_ok (events_of (remote_part tr)) /\ conditions_kept (cfA :: confs_of (remote_part tr)) /\
  Forall conf_ok (cfB :: confs_of (near_part tr)) /\ Forall event_ok (events_of (near_part tr)).

(** Registered events of which the write transaction has ended, stored or not,
    with those given to a write transaction and those that wait. *)
Definition writes := (list event * list (list event) * list event)%type.
Definition write_step (w : writes) (x : op * out) : writes :=
  match w with (ended, going, waits) =>
  match x with
  | (ORegister es, _) => (ended, going, waits ++ es)
  | (OFlush, _) => (ended, going ++ [waits], [])
  | (OWork, Wrote) => (ended ++ hd [] going, tl going, waits)
  | (OReopen _, _) => (ended, [], [])
  | _ => w
  end
  end.
Definition write_run (tr : list (op * out)) : writes := fold_left write_step tr ([], [], []).
Definition flushed_events (tr : list (op * out)) : list event := fst (fst (write_run tr)).

(** When the remote is restarted, it has stored the last one of its events that
    were flushed. *)
Definition restarts_ok (cfA : conf) (sv : Z) (tr : list dstep) : Prop :=
  forall a cf b, tr = a ++ DRestart cf :: b -> forall l e, own sv (flushed_events (remote_part a)) = l ++ [e] ->
    In e (map en_ev (w_disk (watch_run cfA (remote_part a)))).

(** The clock of the remote does not go back. *)
Definition clock_ok (sv : Z) (tr : list dstep) : Prop := timely (own sv (events_of (remote_part tr))).

(** Events the local server has accepted, restarts considered; in the order it
    did, those of the remote. *)
Definition got (cfB : conf) (tr : list dstep) (e : event) : Prop :=
  exists en, In en (w_all (watch_run cfB (near_part tr))) /\ en_ev en = e.
Definition got_list (cfB : conf) (sv : Z) (tr : list dstep) : list event :=
  own sv (map en_ev (w_all (watch_run cfB (near_part tr)))).

(** All configurations of the local server so far take the event. *)
Definition takes (cfB : conf) (tr : list dstep) (e : event) : Prop :=
  Forall (fun c => cf_cond c e = true /\ has_place c e = true) (cfB :: confs_of (near_part tr)).

(** The remote has to notify the event yet, or the notification is on its way. *)
Definition to_notify (F : fstate) : list (list event) :=
  match f_loop F with LWrite _ bs _ | LNotify _ bs _ => bs | _ => [] end.
Definition coming (st : pstate) (e : event) : Prop :=
  (exists b, In b (to_notify (d_remote st)) /\ In e b) \/ exists b, In (YNote b) (r_chan (d_client st)) /\ In e b.

(** The database of the remote. *)
Definition remote_db (st : pstate) : ldb := s_disk (f_sys (d_remote st)).
