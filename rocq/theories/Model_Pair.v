(** Two servers, both with the LMDB backend, one of which follows the other one:
    the remote's backend with its flush loop (Model_LmdbFlush), the connection
    and the client (Model_Sync), the local backend (Model_LmdbSys).  Nothing of
    the remote is abstract here, in contrast to Model_Replica.  Models
    src_py/hat/event/server/main_runner.py:187-191 (flushed events are notified),
    src_py/hat/event/eventer/server.py:96-125 (a client gets events of the server
    it asked for) and src_py/hat/event/server/eventer_server.py:107-108 (queries
    are passed to the backend) together with what those models cite.

    Of the client's state (Model_Sync) the fields [r_stored], [r_top] and [r_lag]
    are not used.  [r_req] is a query on its way to the remote, [r_resp] an
    answer that the remote has not sent yet. *)
From Coq Require Import String Bool ZArith Arith List.
From Verif Require Import Base Model_Types Model_Codec Model_Lmdb Model_LmdbSys Model_LmdbFlush Model_Sync Model_Replica.
Import ListNotations.
Open Scope list_scope.
Open Scope nat_scope.

Definition own (sv : Z) (es : list event) : list event := filter (fun e => Z.eqb (eid_server (ev_id e)) sv) es.

(** [d_top]: the last id the remote's engine has given (engine.py:39, 202-210).
    [d_query]: the client's query in the remote's backend.  [d_used]: numbers of
    queries of the remote's backend so far. *)
Record pstate := PState {
  d_remote : fstate; d_top : event_id; d_query : option nat; d_used : list nat; d_client : ystate; d_local : sys }.

(** Steps: of the remote; the client's query comes to the remote's backend; of
    the client and the connection, with the registrations; of the local backend;
    the connection is lost or the client is closed; the remote is restarted,
    after a crash or not. *)
Inductive dstep :=
| DRemote (i : fitem)
| DAsk (q : nat) (p : query_server)
| DClient (i : yitem) (xs : list (op * out))
| DLocal (x : op * out)
| DAgain
| DRestart (cf : conf).

(** Steps of the remote: own events have growing ids (C30), others are of other
    servers; no write transaction and no callback raises; queries have numbers
    of their own. *)
Definition usual (sv : Z) (top : event_id) (used : list nat) (o : fop) : Prop :=
  match o with
  | FRegister es => growing sv top (own sv es) = true
  | FFailed | FNotify false => False
  | FOther (OServer q _) | FOther (OTs q _) => ~ In q used
  | _ => True
  end.

Definition top_after (sv : Z) (top : event_id) (o : fop) : event_id :=
  match o with FRegister es => last_id top (own sv es) | _ => top end.
Definition used_after (used : list nat) (o : fop) : list nat :=
  match o with FOther (OServer q _) | FOther (OTs q _) => q :: used | _ => used end.

(** eventer/server.py:102-115: the client has asked for events of the server,
    with all types; it gets no empty batches. *)
Definition notice (sv : Z) (c : ystate) (l : list fout) : ystate :=
  match l with
  | [Flushed b] =>
      match own sv b with
      | [] => c
      | es => if r_up c then y_remote c (r_stored c) (r_top c) (r_lag c) (r_up c) (r_req c) (r_resp c) (r_chan c ++ [YNote es]) else c
      end
  | _ => c
  end.

(** The client's query returns; when it raises, no answer comes. *)
Definition returned (query : option nat) (o : fop) (xs : list (op * out)) (c : ystate) : ystate * option nat :=
  match query, o, xs with
  | Some n, FOther (ODeliver q), [(_, Answer a)] =>
      if Nat.eqb n q
      then (y_remote c (r_stored c) (r_top c) (r_lag c) (r_up c) (r_req c) a (r_chan c), None)
      else (c, query)
  | _, _, _ => (c, query)
  end.

(** eventer_client.py:136-140. *)
Definition client_query (sv : Z) (last : event_id) : query_server := QServer sv true None (Some last).

(** The steps of the client and of its connection. *)
Definition client_op (o : yop) : bool :=
  match o with RConnect | RRespond | YBegin | YGo | YWake | YRecv | YDone => true | _ => false end.

(** The remote [sv] and the local server from their first start on.  A refused
    query ends the connection, which is a step of its own. *)
Inductive pair (OA OB : oracle) (cfA cfB : conf) (sv : Z) : list dstep -> pstate -> Prop :=
| pair_start : forall a b, start cfA = Some a -> start cfB = Some b ->
    pair OA OB cfA cfB sv [] (PState (fstart a) (Eid sv 0 0) None [] (ystart sv) b)
| pair_remote : forall tr F top q us c s o xs l F' c' q', pair OA OB cfA cfB sv tr (PState F top q us c s) ->
    fexec OA F o = Some (F', xs, l) -> usual sv top us o -> returned q o xs (notice sv c l) = (c', q') ->
    pair OA OB cfA cfB sv (tr ++ [DRemote (o, xs, l)]) (PState F' (top_after sv top o) q' (used_after us o) c' s)
| pair_ask : forall tr F top us c s last q x, pair OA OB cfA cfB sv tr (PState F top None us c s) ->
    r_req c = Some last -> ~ In q us -> exec OA (f_sys F) (OServer q (client_query sv last)) = Some (x, Quiet) ->
    pair OA OB cfA cfB sv (tr ++ [DAsk q (client_query sv last)])
      (PState (set_sys F x) top (Some q) (q :: us) (y_remote c (r_stored c) (r_top c) (r_lag c) (r_up c) None (r_resp c) (r_chan c)) s)
| pair_client : forall tr F top q us c s o l c' xs s', pair OA OB cfA cfB sv tr (PState F top q us c s) -> client_op o = true ->
    yexec sv (get_last_event_id (m_sys (s_mem s)) sv) c o = Some (c', l) ->
    runs OB s xs s' -> map fst xs = map ORegister (batches_in l) ->
    pair OA OB cfA cfB sv (tr ++ [DClient (o, l) xs]) (PState F top q us c' s')
| pair_local : forall tr F top q us c s o x s', pair OA OB cfA cfB sv tr (PState F top q us c s) ->
    exec OB s o = Some (s', x) -> besides sv o -> (forall cf, o = OReopen cf -> y_phase c = PNew /\ r_up c = false) ->
    pair OA OB cfA cfB sv (tr ++ [DLocal (o, x)]) (PState F top q us c s')
| pair_again : forall tr F top q us c s, pair OA OB cfA cfB sv tr (PState F top q us c s) ->
    pair OA OB cfA cfB sv (tr ++ [DAgain]) (PState F top None us (renew sv c) s)
| pair_restart : forall tr F top q us c s cf x r, pair OA OB cfA cfB sv tr (PState F top q us c s) ->
    exec OA (f_sys F) (OReopen cf) = Some (x, r) ->
    pair OA OB cfA cfB sv (tr ++ [DRestart cf])
      (PState (fstart x) (get_last_event_id (m_sys (s_mem x)) sv) None us (renew sv c) s).
