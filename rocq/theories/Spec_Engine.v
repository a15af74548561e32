(** What is expected of the engine. *)
From Coq Require Import String Bool ZArith Arith Sorted List.
From Verif Require Import Base Model_Types Model_Subscription Model_Engine.
Import ListNotations.
Open Scope string_scope.
Open Scope list_scope.
Open Scope nat_scope.

(** Parts of a trace. *)
Definition ops_of (tr : list eitem) : list eop := map fst tr.
Definition outs_of (tr : list eitem) : list eout := flat_map snd tr.
Definition handed_in (l : list eout) : list (list event) := flat_map (fun x => match x with Hand es => [es] | _ => [] end) l.
Definition begun_in (l : list eout) : list request := flat_map (fun x => match x with Begin r => [r] | _ => [] end) l.
Definition replied_in (l : list eout) : list nat := flat_map (fun x => match x with Reply n _ => [n] | _ => [] end) l.
(** Batches given to the backend, requests whose sessions began, requests
    answered. *)
Definition handed (tr : list eitem) : list (list event) := handed_in (outs_of tr).
Definition begun (tr : list eitem) : list request := begun_in (outs_of tr).
Definition replied (tr : list eitem) : list nat := replied_in (outs_of tr).

(** Life of an engine, from its creation on. *)
Definition engine_run (ms : list node) (size : nat) (last : event_id) (tr : list eitem) (s : estate) : Prop :=
  eruns ms size (estart last) tr s.

(** What was asked to be registered by an event. *)
Definition reg_of (e : event) : reg_event := RegEv (ev_type e) (ev_src e) (ev_payload e).

(** The request of the engine itself. *)
Definition first_request (last : event_id) : request :=
  Request 0 (Source ENGINE 0) [status_reg_event (eid_server last) "STARTED"].
Definition is_status (server : Z) (st : string) (e : event) : Prop := reg_of e = status_reg_event server st.

(** The loop is interrupted. *)
Definition is_shut (o : eop) : bool := match o with ERaise _ | ECancel _ => true | _ => false end.
Definition is_get (o : eop) : bool := match o with EGet _ => true | _ => false end.
Definition no_get (tr : list eitem) : Prop := Forall (fun o => is_get o = false) (ops_of tr).

(** The loop was interrupted. *)
Definition shut_in (tr : list eitem) : bool := existsb is_shut (ops_of tr).

(** The time at which the session was begun. *)
Fixpoint last_get (ops : list eop) : option timestamp :=
  match ops with
  | [] => None
  | o :: ops' => match last_get ops' with
                 | Some t => Some t
                 | None => match o with EGet now => Some now | _ => None end
                 end
  end.

(** Ids of a session, from [k] on. *)
Definition ids_from (srv ss : Z) (k n : nat) : list event_id := map (fun i => Eid srv ss (Z.of_nat i)) (seq k n).

(** Calls of [process] of a module. *)
Definition calls (m : nat) (tr : list eitem) : list (source * event) :=
  flat_map (fun x => match x with Process k src e => if Nat.eqb k m then [(src, e)] else [] | _ => [] end) (outs_of tr).
Definition wants (ms : list node) (m : nat) (x : source * event) : bool :=
  match nth_error ms m with Some n => node_matches n (ev_type (snd x)) | None => false end.

(** What modules answered to [process], with the module. *)
Definition prod_step (st : nat * list (source * reg_event)) (i : eitem) : nat * list (source * reg_event) :=
  match i with
  | (EProcessed rs, _) => (fst st, snd st ++ map (fun r => (Source MODULE (Z.of_nat (fst st)), r)) rs)
  | (_, [Process m _ _]) => (m, snd st)
  | _ => st
  end.
Definition produced (tr : list eitem) : list (source * reg_event) := snd (fold_left prod_step tr (0, [])).

(** Outputs other than answers to requests. *)
Definition is_work (x : eout) : bool := match x with Reply _ _ => false | _ => true end.
Definition work (tr : list eitem) : list eout := filter is_work (outs_of tr).
Definition is_process (x : eout) : bool := match x with Process _ _ _ => true | _ => false end.

(** Numbers of the futures in the order of their requests in the queue. *)
Definition queued (tr : list eitem) : list nat :=
  0 :: flat_map (fun i => match i with (EPut n, []) => [n] | _ => [] end) tr.

Definition eprefix {A} (a b : list A) : Prop := exists r, b = a ++ r.

(** A batch made for a request. *)
Definition batch_for (r : request) (es : list event) : Prop := exists rest, map reg_of es = rq_events r ++ rest.

(** Steps of the register loop and cancellation of it. *)
Definition closing_step (o : eop) : bool := match o with EStep | ECancel _ | ELast => true | _ => false end.

(** What an answer says, at the step at which it is given. *)
Definition right_answer (A : list eitem) (o : eop) (n : nat) (a : reply) : Prop :=
  match a with
  | Events es =>
      (exists r, o = ERegister r /\ rq_fut r = n /\ rq_events r = [] /\ es = []) \/
      (o = ERegistered true /\
       exists bs r hs rest, begun A = bs ++ [r] /\ handed A = hs ++ [es ++ rest] /\ List.length bs = List.length hs /\
                            rq_fut r = n /\ map reg_of es = rq_events r)
  | NoEvents => o = ERegistered false /\ exists bs r, begun A = bs ++ [r] /\ rq_fut r = n
  | Failed => is_shut o = true \/ o = EPut n /\ shut_in A = true
  end.
