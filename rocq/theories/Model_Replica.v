(** A local server with the LMDB backend that follows a remote server over any
    number of connections: synchronization (Model_Sync) registers the remote's
    events at the local backend (Model_LmdbSys).  Models how
    src_py/hat/event/server/eventer_client.py:32-205 uses the backend
    (121, 126-127, 161, 164, 173), with clients made again after a connection is
    lost (src_py/hat/event/server/eventer_client_runner.py:76-105) and restarts
    of both servers.

    [register] of the backend takes a batch without a pause (backend.py:146-181),
    so giving a batch and its registration are one step here, and so are the
    start of the synchronization and the reading of the last id. *)
From Coq Require Import String Bool ZArith Arith List.
From Verif Require Import Base Model_Types Model_Codec Model_Lmdb Model_LmdbSys Model_Sync.
Import ListNotations.
Open Scope list_scope.
Open Scope nat_scope.

(** The connection is gone, with messages on their way and whatever the client
    has received but not registered; a new client is not connected yet. *)
Definition renew (sv : Z) (s : ystate) : ystate :=
  YState (r_stored s) (r_top s) (r_lag s) false None None [] PNew [] (Eid sv 0 0) true 0 (Some []) false.

(** The remote is restarted, after a crash or not.  Batches that are committed
    and not notified yet will not be notified.  Ids of new events are above the
    last one that was stored (src_py/hat/event/server/engine.py:39, 202-210). *)
Definition restarted (sv : Z) (top : event_id) (s : ystate) : ystate :=
  YState (r_stored s) top [] false None None [] PNew [] (Eid sv 0 0) true 0 (Some []) false.

(** Batches given to the backend in a step. *)
Definition batches_in (l : list yout) : list (list event) :=
  flat_map (fun x => match x with Give _ es => [es] | _ => [] end) l.

(** Other use of the local backend: events of other servers are registered. *)
Definition besides (sv : Z) (o : op) : Prop :=
  match o with ORegister es => Forall (fun e => eid_server (ev_id e) <> sv) es | _ => True end.

(** Steps: of the remote and the client, with the registrations; of the local
    backend; the connection is lost; the remote is restarted. *)
Inductive rstep := RSync (i : yitem) (xs : list (op * out)) | RLocal (x : op * out) | RAgain | RRestart.

(** The events the remote has stored so far, and the last id of them (of
    systemdb.py: kept when events are removed). *)
Definition stored_so_far (tr : list rstep) : list event :=
  flat_map (fun x => match x with RSync (RCommit b, _) _ => map fst (filter snd b) | _ => [] end) tr.
Definition stored_top (sv : Z) (tr : list rstep) : event_id := last_id (Eid sv 0 0) (stored_so_far tr).

(** The remote server [sv] and the local one from their first start on.  The
    local server is restarted, after a crash or not, when there is no
    connection. *)
Inductive replica (O : oracle) (cf : conf) (sv : Z) : list rstep -> ystate -> sys -> Prop :=
| replica_start : forall s, start cf = Some s -> replica O cf sv [] (ystart sv) s
| replica_sync : forall tr y s o l y' xs s', replica O cf sv tr y s ->
    yexec sv (get_last_event_id (m_sys (s_mem s)) sv) y o = Some (y', l) ->
    runs O s xs s' -> map fst xs = map ORegister (batches_in l) ->
    replica O cf sv (tr ++ [RSync (o, l) xs]) y' s'
| replica_local : forall tr y s o x s', replica O cf sv tr y s -> exec O s o = Some (s', x) -> besides sv o ->
    (forall c, o = OReopen c -> y_phase y = PNew /\ r_up y = false) -> replica O cf sv (tr ++ [RLocal (o, x)]) y s'
| replica_again : forall tr y s, replica O cf sv tr y s -> replica O cf sv (tr ++ [RAgain]) (renew sv y) s
| replica_restart : forall tr y s, replica O cf sv tr y s -> replica O cf sv (tr ++ [RRestart]) (restarted sv (stored_top sv tr) y) s.
