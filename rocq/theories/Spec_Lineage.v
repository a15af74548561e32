(** Databases that come about by any number of conversions, server processes and
    copies. *)
From Coq Require Import String Bool ZArith List.
From Verif Require Import Base Kv Model_Types Model_Codec Model_Lmdb Model_LmdbSys Spec_Order Spec_Lmdb Spec_LmdbContent
  Model_Copy Spec_Copy Model_Convert Spec_Convert Spec_Resume.
Import ListNotations.
Open Scope list_scope.
Open Scope Z_scope.

(** A server with these configurations does not stop accepting what it accepted,
    nor the latest events of the database that it is started on. *)
Definition still_accepts (cf : conf) (tr : list (op * out)) (c : ldb) : Prop :=
  conditions_kept (cf :: confs_of tr) /\ forall e, In e (vals (db_latest c)) -> cf_cond cf e = true.

(** What is done with a database: it is copied, or a server is started on it. *)
Inductive deed := Copied (skip_latest skip_ts : bool) | Served (tr : list (op * out)).

(** [descends d l c]: [c] is what the deeds [l], one after another, have made of
    [d]. *)
Inductive descends (d : ldb) : list deed -> ldb -> Prop :=
| nothing_done : descends d [] d
| copy_done : forall l sl st c c', descends d l c -> copy sl st c None = (true, Some c') -> descends d (l ++ [Copied sl st]) c'
| server_done : forall l O cf tr c s, descends d l c -> resumed O cf c tr s -> still_accepts cf tr c -> descends d (l ++ [Served tr]) (s_disk s).

(** Where databases come from. *)
Inductive origin : ldb -> Prop :=
| created : forall O cf tr s, execution O cf tr s -> conditions_kept (cf :: confs_of tr) -> origin (s_disk s)
| converted7 : forall d c, sound7 d -> convert (V07 d) = Some c -> origin c
| converted6 : forall d s c, sound6 d s -> convert (V06 d) = Some c -> origin c.
