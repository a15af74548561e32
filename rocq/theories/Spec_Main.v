(** What is expected of the main runner of the server. *)
From Coq Require Import Bool Arith List.
From Verif Require Import Model_Main.
Import ListNotations.
Open Scope list_scope.

(** What others saw, oldest first. *)
Definition seen (tr : list (mevent * list mout)) : list mout := flat_map snd tr.

(** What was created: the creation that began last returned. *)
Definition began (cur : option res) (o : list mout) : option res :=
  fold_left (fun c x => match x with OCreate r => Some r | _ => c end) o cur.
Fixpoint made_from (cur : option res) (tr : list (mevent * list mout)) : list res :=
  match tr with
  | [] => []
  | (e, o) :: tr' =>
      match e, cur with
      | ECreated, Some r => r :: made_from (began cur o) tr'
      | _, _ => made_from (began cur o) tr'
      end
  end.
Definition made (tr : list (mevent * list mout)) : list res := made_from None tr.

(** The order in which things are to be closed: users before what they use. *)
Definition rank (r : res) : nat :=
  match r with REngine => 0 | RClient => 1 | RMonitor => 2 | RAdminer => 3 | RServer => 4 | RBackend => 5 end.

(** What each thing uses; the monitor component's runner uses what an engine runner
    uses. *)
Definition uses (r u : res) : Prop :=
  match r with
  | REngine => u = RBackend \/ u = RServer
  | RClient => u = RBackend
  | RMonitor => u = RBackend \/ u = RServer
  | RServer => u = RBackend
  | _ => False
  end.

(** What has to be there before something is created: what it uses; the engine
    runner, which the monitor component makes, is also given the client runner. *)
Definition needs (r u : res) : Prop := uses r u \/ (r = RMonitor /\ u = RClient).

(** What a server consists of, in the order of creation. *)
Definition planned (cf : mconf) : list res :=
  match cf with
  | Mconf false false => [RBackend; RServer; REngine]
  | Mconf true false => [RBackend; RServer; RAdminer; REngine]
  | Mconf false true => [RBackend; RServer; RClient; RMonitor]
  | Mconf true true => [RBackend; RServer; RAdminer; RClient; RMonitor]
  end.

(** Calls which set readiness. *)
Definition readies (o : list mout) : list bool :=
  flat_map (fun x => match x with OReady b => [b] | _ => [] end) o.

(** True, false, true, ... *)
Fixpoint alternate (b : bool) (n : nat) : list bool :=
  match n with O => [] | S n => b :: alternate (negb b) n end.

(** The component's token after an execution. *)
Definition token_after (tr : list (mevent * list mout)) : bool :=
  fold_left (fun t x => match fst x with EState b => b | _ => t end) tr false.

Definition own_step (e : mevent) : Prop := e = EBound \/ e = ECancel \/ e = EDone.

(** The runner has a reason to end. *)
Definition must_end (tr : list (mevent * list mout)) : Prop :=
  exists e o, In (e, o) tr /\ (e = EClose \/ e = ERaise \/ exists r, e = EEnding r).
