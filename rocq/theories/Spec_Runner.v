(** Specification of the engine runner, in terms of what happened. *)
From Coq Require Import Bool Arith List.
From Verif Require Import Base Model_Types Model_Runner.
Import ListNotations.
Open Scope list_scope.
Open Scope nat_scope.

(** All that was done, in order. *)
Definition done_ (tr : list nitem) : list nout := flat_map snd tr.

(** The statuses set, with the engine given. *)
Definition sets (l : list nout) : list (status * option nat) := flat_map (fun o => match o with SetStatus st e => [(st, e)] | _ => [] end) l.
Definition statuses (l : list nout) : list status := map fst (sets l).

(** The cycle of statuses. *)
Definition next_status (st : status) : status :=
  match st with STANDBY => STARTING | STARTING => OPERATIONAL | OPERATIONAL => STOPPING | STOPPING => STANDBY end.
Fixpoint cycle (st : status) (l : list status) : Prop :=
  match l with
  | [] => True
  | x :: l' => x = next_status st /\ cycle x l'
  end.

(** The engine [n] was closed, and the backend flushed after that. *)
Definition settled (n : nat) (l : list nout) : Prop := exists x y z, l = x ++ EngineClosed n :: y ++ Flushed :: z.

(** Remote activity as last told. *)
Definition remote_now (tr : list nitem) : bool := fold_left (fun acc x => match fst x with NRemote b => b | _ => acc end) tr false.

(** A restart was asked for since STARTING was last set. *)
Definition restart_asked (tr : list nitem) : bool :=
  fold_left (fun acc x => match fst x with
                          | NRestart => true
                          | _ => if existsb (fun o => match o with SetStatus STARTING _ => true | _ => false end) (snd x) then false else acc
                          end) tr false.

(** An exception ended the runner in the middle of closing. *)
Definition broke_off (tr : list nitem) : Prop := In (NRaise, []) tr.
