(** What is expected of the end of the server's process. *)
From Coq Require Import String Bool ZArith Arith List.
From Verif Require Import Base Model_Types Model_Lmdb Model_LmdbSys Spec_Lmdb Spec_LmdbContent Model_LmdbFlush Spec_LmdbFlush Model_Exit.
From Verif Require Model_Main Spec_Main.
Import ListNotations.
Open Scope list_scope.
Open Scope nat_scope.

(** What happened, to the process, in the main runner, in the backend. *)
Definition ops_of_process (tr : list xitem) : list xop := map (fun i => fst (fst i)) tr.
Definition main_of (tr : list xitem) : list (Model_Main.mevent * list Model_Main.mout) := flat_map (fun i => snd (fst i)) tr.
Definition back_of (tr : list xitem) : list fitem := flat_map snd tr.

(** A process of the server: [T] happened to the database before, and ends with
    the start of the backend. *)
Definition server_process (O : oracle) (cf : conf) (mc : Model_Main.mconf) (T : list (op * out)) (tr : list xitem) (s : xstate) : Prop :=
  exists d, execution O cf T d /\ (T = [] \/ exists T1 c x, T = T1 ++ [(OReopen c, x)]) /\
            xruns O mc d tr s /\ Forall (Forall event_ok) (registered (back_of tr)).

(** The process has ended by itself: it was not killed. *)
Definition exited (tr : list xitem) : Prop := In XExit (ops_of_process tr).

(** The backend was created. *)
Definition has_backend (tr : list xitem) : Prop := In Model_Main.RBackend (Spec_Main.made (main_of tr)).

(** What the process does by itself when it ends: steps of [async_main], of the
    main runner, of the flush loop and the worker thread. *)
Definition ending_step (o : xop) : Prop :=
  match o with
  | XMain e => Spec_Main.own_step e
  | XBack o => loop_step o = true \/ o = FEnd
  | XSignal => False
  | _ => True
  end.
