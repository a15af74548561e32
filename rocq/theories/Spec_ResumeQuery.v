(** Queries of a server that was started on a database it has not made. *)
From Coq Require Import String Bool ZArith List.
From Verif Require Import Base Kv Model_Types Model_Subscription Model_Codec Keys Model_Lmdb Model_LmdbSys Spec_Order Spec_Lmdb Spec_LmdbContent Spec_LmdbQuery
  Spec_LmdbTs Spec_Resume.
Import ListNotations.
Open Scope list_scope.
Open Scope Z_scope.

(** Pending entries as a query sees them (see [pending_for]). *)
Definition pending_from (H : history) (p : query_timeseries) (cf : conf) (trA trB : list (op * out)) : history :=
  match qt_order p with
  | ASCENDING => w_cur (pending_at (watch_from H cf trA) trB)
  | DESCENDING => w_cur (watch_from H cf trA)
  end.

(** Nothing is registered, and no cleanup removes anything. *)
Definition undisturbed (tr : list (op * out)) : Prop := forall o x, In (o, x) tr -> (forall es, o <> ORegister es) /\ (forall ks, x <> Cleaned ks).
