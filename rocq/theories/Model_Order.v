(** Natural order of events.  Models src_py/hat/event/common/common.py:109-137. *)
From Coq Require Import List String Bool ZArith.
From Verif Require Import Model_Types.

(** common.py:109-122 [Event.__lt__] for two events.  [__ne__] of timestamps is
    tuple inequality. *)
Definition ev_lt (a b : event) : bool :=
  if eid_eqb (ev_id a) (ev_id b) then false
  else if (eid_server (ev_id a) =? eid_server (ev_id b))%Z then eid_ltb (ev_id a) (ev_id b)
  else if negb (ts_eqb (ev_ts a) (ev_ts b)) then ts_ltb (ev_ts a) (ev_ts b)
  else true.

(** common.py:124-137 [Event.__gt__]. *)
Definition ev_gt (a b : event) : bool :=
  if eid_eqb (ev_id a) (ev_id b) then false
  else if (eid_server (ev_id a) =? eid_server (ev_id b))%Z then eid_ltb (ev_id b) (ev_id a)
  else if negb (ts_eqb (ev_ts a) (ev_ts b)) then ts_ltb (ev_ts b) (ev_ts a)
  else false.
