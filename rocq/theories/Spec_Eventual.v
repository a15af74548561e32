(** What is expected of an event a server has acknowledged to a client, when
    this server and one that follows it are left alone. *)
From Coq Require Import String Bool ZArith Arith Sorted List.
From Verif Require Import Base Model_Types Model_Subscription Model_Codec Model_Lmdb Model_LmdbSys Spec_Lmdb Spec_LmdbContent
  Model_Engine Spec_Engine Model_Eventer Spec_Eventer Model_Service Spec_Service Model_Sync Spec_Sync Model_Pair Spec_Pair.
Import ListNotations.
Open Scope list_scope.
Open Scope nat_scope.

(** A process of server [srv] ([service]), in which a client [c] has requested
    [rs] and was answered with [r] after the steps [acked]; nobody has to flush
    anything. *)
Definition answered (O : oracle) (cf : conf) (tr0 : list (op * out)) (srv : Z) (rs : list reg_event) (r : option (list event)) (acked C : list pstep) : Prop :=
  (exists vtr0 tk ms size, service O cf tr0 vtr0 srv tk ms size (acked ++ C)) /\
  (exists A c conv last l j B l2, acked = A ++ SRegister (VRegister c conv last rs, l) j :: B ++ [SServer (VRegistered c r, l2)] /\ Spec_Eventer.quiet c (server_part B)) /\
  clock_forward srv (w_all (watch_run cf tr0)) (readings (engine_part acked)).

(** Two servers ([paired]), the first one of which is that process, with
    whatever its backend does afterwards, but a restart. *)
Definition runs_on (OA OB : oracle) (cfA cfB : conf) (srv : Z) (T : list (op * out)) (tr : list dstep) (st : pstate) : Prop :=
  paired OA OB cfA cfB srv tr st /\ (exists X, remote_part tr = T ++ X /\ no_reopen X) /\ restarts_ok cfA srv tr /\ clock_ok srv tr.

(** The first server stores the event and has not removed it when [D] is over;
    the second one takes it. *)
Definition lasting (cf cfA cfB : conf) (tr D : list dstep) (e : event) : Prop :=
  cf_cond cf e = true /\ has_place cf e = true /\ (forall n t, ~ In (n, t, ev_id e) (w_gone (watch_run cfA (remote_part (tr ++ D))))) /\ takes cfB tr e.
