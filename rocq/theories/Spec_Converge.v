(** What is expected of two servers, one of which follows the other one, when
    nobody asks anything of them and nothing is lost any more. *)
From Coq Require Import String Bool ZArith Arith Sorted List.
From Verif Require Import Base Model_Types Model_Codec Model_Lmdb Model_LmdbSys Spec_Lmdb Spec_LmdbContent Spec_LmdbQuery Model_LmdbFlush Model_Sync Spec_Sync
  Model_Replica Spec_Replica Model_Pair Spec_Pair.
Import ListNotations.
Open Scope list_scope.
Open Scope nat_scope.

(** Steps the two servers do of themselves: of the flush loop, which begins a
    round when there is something to flush or somebody waits for it; of the
    worker thread when it has work; queries that return; of the client, its
    connection and its queries. *)
Definition of_itself (st : pstate) (x : dstep) : Prop :=
  match x with
  | DRemote (o, _, _) =>
      match o with
      | FWake => f_reg (d_remote st) <> [] \/ f_queue (d_remote st) <> []
      | FStart | FWrote | FNotify _ | FAnswer | FCancel | FEnd => True
      | FOther OWork => s_jobs (f_sys (d_remote st)) <> []
      | FOther (ODeliver _) => True
      | _ => False
      end
  | DAsk _ _ | DClient _ _ => True
  | _ => False
  end.

(** After [tr] there are such steps only. *)
Definition undisturbed (OA OB : oracle) (cfA cfB : conf) (sv : Z) (tr D : list dstep) : Prop :=
  forall a x b st, D = a ++ x :: b -> pair OA OB cfA cfB sv (tr ++ a) st -> of_itself st x.

(** No such step is possible. *)
Definition at_rest (OA OB : oracle) (cfA cfB : conf) (sv : Z) (tr : list dstep) (st : pstate) : Prop :=
  forall x st', paired OA OB cfA cfB sv (tr ++ [x]) st' -> ~ of_itself st x.

(** Everything the first server has accepted is written. *)
Definition all_written (cfA : conf) (tr : list dstep) : Prop :=
  w_disk (watch_run cfA (remote_part tr)) = w_all (watch_run cfA (remote_part tr)).

(** The event is accepted by the first server after [tr]: the latest one of its
    type, or kept in a partition and not cleaned up until [D] is over. *)
Definition to_keep (cfA : conf) (tr D : list dstep) (e : event) : Prop :=
  latest_of (w_all (watch_run cfA (remote_part tr))) (ev_type e) = Some e \/
  exists en, In en (w_all (watch_run cfA (remote_part tr))) /\ en_ev en = e /\ has_place (en_conf en) e = true /\
    forall n t, ~ In (n, t, ev_id e) (w_gone (watch_run cfA (remote_part (tr ++ D)))).
