(** Synchronization with a remote server.  Models
    src_py/hat/event/server/eventer_client.py:32-205 as a transition system:
    code between two [await]s is one step, other tasks may run between steps.

    The remote is seen through what is proved of it elsewhere.  It commits
    batches of its own events with growing ids (engine, C30); of a batch only
    some events may be stored (backend, C14).  Committed batches are notified in
    order, whole and once each to clients that are connected by then (C25, C36),
    at any time after the commit.  A query answers with a beginning of the
    stored events whose ids are above the given one, and tells whether some are
    left (C19).  The oldest stored events may be removed at any time (cleanup).
    Messages to the client arrive in order (chatter).

    What follows the closing of the connection is not modelled: the client
    registers nothing then. *)
From Coq Require Import String Bool ZArith Arith List.
From Verif Require Import Base Model_Types.
Import ListNotations.
Open Scope string_scope.
Open Scope list_scope.
Open Scope nat_scope.

(** Messages to the client: notifications and results of queries. *)
Inductive ymsg := YNote (es : list event) | YResult (q : query_result).

(** Where [_synchronize] is: not started (64); in [_set_synced] (133); waiting
    for the result of a query (140); the result has come; in [_set_synced]
    (146); in [register] (161), (164), (173); past (175); the client is
    closed. *)
Inductive yphase := PNew | PConn | PAsk | PResp (q : query_result) | PSync | PLoop | PFinal | PDrain | PDone | PEnd.

(** [r_stored], [r_top], [r_lag]: the remote's stored events, its last id, the
    batches not yet notified.  [r_up]: the client is connected.  [r_req],
    [r_resp], [r_chan]: the query not yet answered, the answer not yet sent, the
    messages not yet received.  [y_ev], [y_last], [y_more], [y_count],
    [y_queue]: the variables [events], [last_event_id], [result.more_follows],
    [synced_counter], [_events_queue].  [y_busy]: the events callback is in
    [register] (121). *)
Record ystate := YState {
  r_stored : list event; r_top : event_id; r_lag : list (list event); r_up : bool;
  r_req : option event_id; r_resp : option query_result; r_chan : list ymsg;
  y_phase : yphase; y_ev : list event; y_last : event_id; y_more : bool; y_count : nat;
  y_queue : option (list (list event)); y_busy : bool }.

(** What happens.  Remote: a batch is committed (each event with whether it is
    stored), an event is removed, the next batch is notified, the client is
    connected, the query is answered with at most [k] events, the answer is
    sent.  Client: [_synchronize] starts, goes on after [_set_synced] or
    [register], goes on after a query; a message is received; [register] in the
    events callback returns; the client closes. *)
Inductive yop :=
| RCommit (b : list (event * bool))
| RClean (i : event_id)
| RNotify
| RConnect
| RQuery (k : nat)
| RRespond
| YBegin
| YGo
| YWake
| YRecv
| YDone
| YClose.

(** Why events are given to the local backend: by query, from the queue, upon
    notification. *)
Inductive origin := FromQuery | FromQueue | FromNotify.
Inductive synced := CONNECTED | SYNCING | SYNCED.

(** What is seen: a batch is given to the local backend, a synced state is
    told, a query is made, answered, a batch is notified to the client or passes
    without it being connected, a notification is received. *)
Inductive yout :=
| Give (w : origin) (es : list event)
| Told (st : synced) (count : option nat)
| Asked (last : event_id)
| Answered (q : query_result)
| Sent (es : list event)
| Unsent (es : list event)
| Recvd (es : list event).

Definition y_set (s : ystate) (ph : yphase) (ev : list event) (last : event_id) (q : option (list (list event))) : ystate :=
  YState (r_stored s) (r_top s) (r_lag s) (r_up s) (r_req s) (r_resp s) (r_chan s) ph ev last (y_more s) (y_count s) q (y_busy s).
Definition y_remote (s : ystate) (st : list event) (top : event_id) (lag : list (list event)) (up : bool)
    (req : option event_id) (resp : option query_result) (chan : list ymsg) : ystate :=
  YState st top lag up req resp chan (y_phase s) (y_ev s) (y_last s) (y_more s) (y_count s) (y_queue s) (y_busy s).

Definition newer (i : event_id) (e : event) : bool := eid_ltb i (ev_id e).
Definition last_id (i : event_id) (es : list event) : event_id := match rev es with [] => i | e :: _ => ev_id e end.
Fixpoint growing (sv : Z) (i : event_id) (es : list event) : bool :=
  match es with
  | [] => true
  | e :: es' => Z.eqb (eid_server (ev_id e)) sv && eid_ltb i (ev_id e) && growing sv (ev_id e) es'
  end.

(** eventer_client.py:158-159: the events in front that are of the session. *)
Fixpoint span_session (x : Z) (es : list event) : list event * list event :=
  match es with
  | [] => ([], [])
  | e :: es' => if Z.eqb (eid_session (ev_id e)) x then let r := span_session x es' in (e :: fst r, snd r) else ([], es)
  end.

(** eventer_client.py:136-140. *)
Definition ask (s : ystate) : ystate * list yout :=
  (YState (r_stored s) (r_top s) (r_lag s) (r_up s) (Some (y_last s)) (r_resp s) (r_chan s)
     PAsk (y_ev s) (y_last s) (y_more s) (y_count s) (y_queue s) (y_busy s), [Asked (y_last s)]).

(** eventer_client.py:167-178. *)
Fixpoint next_queued (last : event_id) (q : list (list event)) : option (list event * list (list event)) :=
  match q with
  | [] => None
  | b :: q' => match filter (newer last) b with [] => next_queued last q' | es => Some (es, q') end
  end.
Definition drain (s : ystate) : ystate * list yout :=
  match next_queued (y_last s) (match y_queue s with Some q => q | None => [] end) with
  | Some (es, q) => (y_set s PDrain [] (y_last s) (Some q), [Give FromQueue es])
  | None => (y_set s PDone [] (y_last s) None, [Told SYNCED (Some (y_count s))])
  end.

(** eventer_client.py:135, 163-164. *)
Definition next (s : ystate) : ystate * list yout :=
  if y_more s then ask s
  else match y_ev s with
       | [] => drain s
       | es => (y_set s PFinal [] (y_last s) (y_queue s), [Give FromQuery es])
       end.

(** eventer_client.py:154-161. *)
Definition sessions (s : ystate) : ystate * list yout :=
  match y_ev s with
  | [] => next s
  | e :: _ =>
      let x := eid_session (ev_id e) in
      if Z.eqb x (eid_session (last_id (ev_id e) (y_ev s))) then next s
      else let r := span_session x (y_ev s) in
           (y_set s PLoop (snd r) (y_last s) (y_queue s), [Give FromQuery (fst r)])
  end.

(** eventer_client.py:148-152. *)
Definition advance (s : ystate) : ystate * list yout :=
  sessions (y_set s (y_phase s) (y_ev s) (last_id (y_last s) (y_ev s)) (y_queue s)).

Definition yexec (sv : Z) (last0 : event_id) (s : ystate) (o : yop) : option (ystate * list yout) :=
  match y_phase s with
  | PEnd => None
  | _ =>
  match o with
  | RCommit b =>
      let es := map fst b in
      if growing sv (r_top s) es
      then Some (y_remote s (r_stored s ++ map fst (filter snd b)) (last_id (r_top s) es) (r_lag s ++ [es]) (r_up s) (r_req s) (r_resp s) (r_chan s), [])
      else None
  | RClean i =>
      Some (y_remote s (filter (fun e => negb (eid_eqb i (ev_id e))) (r_stored s)) (r_top s) (r_lag s) (r_up s) (r_req s) (r_resp s) (r_chan s), [])
  | RNotify =>
      match r_lag s with
      | [] => None
      | b :: lag =>
          if r_up s
          then Some (y_remote s (r_stored s) (r_top s) lag (r_up s) (r_req s) (r_resp s) (r_chan s ++ [YNote b]), [Sent b])
          else Some (y_remote s (r_stored s) (r_top s) lag (r_up s) (r_req s) (r_resp s) (r_chan s), [Unsent b])
      end
  | RConnect =>                              (* eventer_client.py:53-61 *)
      if r_up s then None
      else Some (y_remote s (r_stored s) (r_top s) (r_lag s) true (r_req s) (r_resp s) (r_chan s), [])
  | RQuery k =>
      match r_req s with
      | None => None
      | Some last =>
          let l := filter (newer last) (r_stored s) in
          let q := QRes (firstn k l) (Nat.ltb k (length l)) in
          Some (y_remote s (r_stored s) (r_top s) (r_lag s) (r_up s) None (Some q) (r_chan s), [Answered q])
      end
  | RRespond =>
      match r_resp s with
      | None => None
      | Some q => Some (y_remote s (r_stored s) (r_top s) (r_lag s) (r_up s) (r_req s) None (r_chan s ++ [YResult q]), [])
      end
  | YBegin =>                                (* eventer_client.py:123-133 *)
      match y_phase s with
      | PNew => if r_up s then Some (y_set s PConn [] last0 (y_queue s), [Told CONNECTED None]) else None
      | _ => None
      end
  | YGo =>
      match y_phase s with
      | PConn => Some (ask s)
      | PSync => Some (advance s)
      | PLoop => Some (sessions s)
      | PFinal | PDrain => Some (drain s)
      | _ => None
      end
  | YWake =>                                 (* eventer_client.py:142-148; the counter is not used before 178 *)
      match y_phase s with
      | PResp q =>
          let s1 := YState (r_stored s) (r_top s) (r_lag s) (r_up s) (r_req s) (r_resp s) (r_chan s)
                      PSync (y_ev s ++ qr_events q) (y_last s) (qr_more q) (y_count s + length (qr_events q)) (y_queue s) (y_busy s) in
          match qr_events q with
          | [] => Some (advance s1)
          | _ => if Nat.eqb (y_count s) 0 then Some (s1, [Told SYNCING None]) else Some (advance s1)
          end
      | _ => None
      end
  | YRecv =>
      if y_busy s then None
      else match r_chan s with
           | [] => None
           | YNote b :: chan =>              (* eventer_client.py:114-121 *)
               let s1 := y_remote s (r_stored s) (r_top s) (r_lag s) (r_up s) (r_req s) (r_resp s) chan in
               match y_queue s with
               | Some q => Some (y_set s1 (y_phase s) (y_ev s) (y_last s) (Some (q ++ [b])), [Recvd b])
               | None => Some (YState (r_stored s) (r_top s) (r_lag s) (r_up s) (r_req s) (r_resp s) chan
                                 (y_phase s) (y_ev s) (y_last s) (y_more s) (y_count s) None true, [Recvd b; Give FromNotify b])
               end
           | YResult q :: chan =>
               let s1 := y_remote s (r_stored s) (r_top s) (r_lag s) (r_up s) (r_req s) (r_resp s) chan in
               match y_phase s with
               | PAsk => Some (y_set s1 (PResp q) (y_ev s) (y_last s) (y_queue s), [])
               | _ => Some (s1, [])
               end
           end
  | YDone =>
      if y_busy s
      then Some (YState (r_stored s) (r_top s) (r_lag s) (r_up s) (r_req s) (r_resp s) (r_chan s)
                   (y_phase s) (y_ev s) (y_last s) (y_more s) (y_count s) (y_queue s) false, [])
      else None
  | YClose => Some (y_set s PEnd (y_ev s) (y_last s) (y_queue s), [])
  end
  end.

(** A remote without events and a client that is not connected yet
    (eventer_client.py:44-51, 130-131). *)
Definition ystart (sv : Z) : ystate :=
  YState [] (Eid sv 0 0) [] false None None [] PNew [] (Eid sv 0 0) true 0 (Some []) false.

Definition yitem := (yop * list yout)%type.
Inductive yruns (sv : Z) (last0 : event_id) : ystate -> list yitem -> ystate -> Prop :=
| yruns_nil : forall s, yruns sv last0 s [] s
| yruns_snoc : forall s tr s1 o l s2, yruns sv last0 s tr s1 -> yexec sv last0 s1 o = Some (s2, l) -> yruns sv last0 s (tr ++ [(o, l)]) s2.
