(** What is expected of an event a server has acknowledged to a client, at a
    server that follows the former one. *)
From Coq Require Import String Bool ZArith Arith Sorted List.
From Verif Require Import Base Model_Types Model_Subscription Model_Codec Model_Lmdb Model_LmdbSys Spec_Lmdb Spec_LmdbContent
  Model_Engine Spec_Engine Model_Eventer Spec_Eventer Model_Service Spec_Service Model_Sync Spec_Sync Model_Pair Spec_Pair.
Import ListNotations.
Open Scope list_scope.
Open Scope nat_scope.

(** A process of server [srv] ([service]), in which a client [c] has requested
    [rs] and was answered with [r] after the steps [acked]; a flush has begun
    afterwards and all flushes are done. *)
Definition acknowledged (O : oracle) (cf : conf) (tr0 : list (op * out)) (srv : Z) (rs : list reg_event) (r : option (list event)) (acked C : list pstep) : Prop :=
  (exists vtr0 tk ms size, service O cf tr0 vtr0 srv tk ms size (acked ++ C)) /\
  (exists A c conv last l j B l2, acked = A ++ SRegister (VRegister c conv last rs, l) j :: B ++ [SServer (VRegistered c r, l2)] /\ Spec_Eventer.quiet c (server_part B)) /\
  clock_forward srv (w_all (watch_run cf tr0)) (readings (engine_part acked)) /\
  (exists x, In (OFlush, x) (backend_part C)) /\ w_queue (watch_run cf (tr0 ++ backend_part (acked ++ C))) = [].

(** Two servers ([paired]), the first one of which is that process, followed by
    [X]; the second one is synchronized with it. *)
Definition synchronized (OA OB : oracle) (cfA cfB : conf) (srv : Z) (T : list (op * out)) (tr : list dstep) (st : pstate) : Prop :=
  paired OA OB cfA cfB srv tr st /\ (exists X, remote_part tr = T ++ X) /\ restarts_ok cfA srv tr /\ clock_ok srv tr /\ finished (client_part (since tr)).

(** The first server stores the event, has not removed it since and has not to
    notify it; the second one takes it. *)
Definition due (cf cfA cfB : conf) (tr : list dstep) (st : pstate) (e : event) : Prop :=
  cf_cond cf e = true /\ has_place cf e = true /\ (forall n t, ~ In (n, t, ev_id e) (w_gone (watch_run cfA (remote_part tr)))) /\
  ~ coming st e /\ takes cfB tr e.

(** The second server is not restarted. *)
Definition local_up (D : list dstep) : Prop := no_reopen (near_part D).
