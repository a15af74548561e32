(** The memory backend.  Models src_py/hat/event/backends/memory.py.

    Callbacks are called with a list of events and are assumed not to raise;
    what they are given is part of the result.  Generators are lazy in Python:
    here a generator is the list of what it yields, with an exception in the
    place where it is raised (see [gen]). *)
From Coq Require Import String Bool ZArith List.
From Verif Require Import Base Model_Types Model_Subscription Model_Order.
Import ListNotations.
Open Scope list_scope.
Open Scope Z_scope.

(** What a call does: it returns or raises. *)
Inductive mexc := AttributeError | UnboundLocalError | ValueError.
Inductive mres (A : Type) := Ret (a : A) | Raise (x : mexc).
Arguments Ret {A}.
Arguments Raise {A}.

(** A consumed generator: everything, or what was yielded until it raised. *)
Fixpoint gen {A B : Type} (f : A -> mres (option B)) (l : list A) : mres (list B) :=
  match l with
  | [] => Ret []
  | x :: l' =>
      match f x with
      | Raise e => Raise e
      | Ret r =>
          match gen f l' with
          | Raise e => Raise e
          | Ret l2 => Ret (match r with Some y => y :: l2 | None => l2 end)
          end
      end
  end.

(** Attributes [server] and [event_id], which are not fields of [Event]
    (common/common.py:95-107). *)
Definition attr_server (e : event) : mres Z := Raise AttributeError.
Definition attr_event_id (e : event) : mres event_id := Raise AttributeError.

(** [max] of event ids with a default. *)
Definition max_id (l : list event_id) (d : event_id) : event_id :=
  match l with
  | [] => d
  | i :: l' => fold_left (fun m j => if eid_ltb m j then j else m) l' i
  end.

(** memory.py:26-30 [get_last_event_id] *)
Definition mb_last_event_id (es : list event) (s : Z) : mres event_id :=
  match gen (fun e => match attr_server e with
                      | Raise x => Raise x
                      | Ret v => if v =? s then match attr_event_id e with
                                                | Raise x => Raise x
                                                | Ret i => Ret (Some i)
                                                end
                                 else Ret None
                      end) es with
  | Raise x => Raise x
  | Ret l => Ret (max_id l (Eid s 0 0))
  end.

(** memory.py:141-145 [_filter_event_types]; [create_subscription] raises
    [ValueError] if a query type is not valid. *)
Definition filter_event_types (es : list event) (ts : list etype) : mres (list event) :=
  match py_create ts with
  | None => Raise ValueError
  | Some sub => Ret (filter (fun e => node_matches sub (ev_type e)) es)
  end.

(** memory.py:64-68: the loop of [_query_latest]. *)
Definition mb_latest_step (d : list (etype * event)) (e : event) : list (etype * event) :=
  match dget etype_eqb (ev_type e) d with
  | None => dset etype_eqb (ev_type e) e d
  | Some p => if ev_lt p e then dset etype_eqb (ev_type e) e d else d
  end.

(** memory.py:58-71 [_query_latest] *)
Definition mb_query_latest (es : list event) (p : query_latest) : mres query_result :=
  match match ql_types p with Some ts => filter_event_types es ts | None => Ret es end with
  | Raise x => Raise x
  | Ret es => Ret (QRes (vals (fold_left mb_latest_step es [])) false)
  end.

(** memory.py:73-120 [_query_timeseries].  Lines 77-90 only create generators.
    Lines 93 and 95 are tuples [(lambda ..., event)], and [event] is a local
    variable (line 109) without a value. *)
Definition mb_query_timeseries (es : list event) (p : query_timeseries) : mres query_result :=
  match qt_order_by p with
  | TIMESTAMP => Raise UnboundLocalError
  | SOURCE_TIMESTAMP => Raise UnboundLocalError
  end.

(** memory.py:176-179 [_filter_server_id] *)
Definition filter_server_id (es : list event) (s : Z) : mres (list event) :=
  gen (fun e => match attr_event_id e with
                | Raise x => Raise x
                | Ret i => Ret (if eid_server i =? s then Some e else None)
                end) es.

(** [sorted] by [Event.__lt__]: insertion sort. *)
Fixpoint ev_insert (e : event) (l : list event) : list event :=
  match l with
  | [] => [e]
  | x :: l' => if ev_lt x e then x :: ev_insert e l' else e :: l
  end.
Definition ev_sort (l : list event) : list event := fold_right ev_insert [] l.

(** memory.py:125-129: the events from the first one with a greater id; if there
    is none, [i] is the last index. *)
Fixpoint from_greater (i : event_id) (l : list event) : list event :=
  match l with
  | [] => []
  | [e] => [e]
  | e :: l' => if eid_ltb i (ev_id e) then l else from_greater i l'
  end.

(** memory.py:131-136: [max_results]. *)
Definition take_max (m : option Z) (l : list event) : query_result :=
  match m with
  | Some n => if n <? Z.of_nat (length l) then QRes (firstn (Z.to_nat n) l) true else QRes l false
  | None => QRes l false
  end.

(** memory.py:122-139 [_query_server] *)
Definition mb_query_server (es : list event) (p : query_server) : mres query_result :=
  match filter_server_id es (qs_server p) with
  | Raise x => Raise x
  | Ret l =>
      let l := ev_sort l in
      let l := match qs_last p with Some i => from_greater i l | None => l end in
      Ret (take_max (qs_max p) l)
  end.

(** memory.py:43-53 [query] *)
Definition mb_query (es : list event) (p : query_params) : mres query_result :=
  match p with
  | QPLatest p => mb_query_latest es p
  | QPTimeseries p => mb_query_timeseries es p
  | QPServer p => mb_query_server es p
  end.

(** Calls of a backend and what is seen of them. *)
Inductive bcall :=
| BRegister (es : list event)
| BLastId (s : Z)
| BQuery (p : query_params)
| BFlush.
Inductive bout :=
| BRegistered (res : list event) (registered flushed : list (list event))
| BId (r : mres event_id)
| BResult (r : mres query_result)
| BDone.

(** memory.py:32-41 [register] (both callbacks are given) and the other calls.
    The deque of events is the list. *)
Definition mb_call (es : list event) (c : bcall) : list event * bout :=
  match c with
  | BRegister l => (es ++ l, BRegistered l [l] [l])
  | BLastId s => (es, BId (mb_last_event_id es s))
  | BQuery p => (es, BResult (mb_query es p))
  | BFlush => (es, BDone)
  end.

(** A sequence of calls of a memory backend, oldest first. *)
Fixpoint mb_run (es : list event) (cs : list bcall) : list (bcall * bout) :=
  match cs with
  | [] => []
  | c :: cs' => let '(es', o) := mb_call es c in (c, o) :: mb_run es' cs'
  end.
