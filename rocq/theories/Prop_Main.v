(** C59: the main runner starts and stops everything in order.
    C60: when the main runner says it is ready. *)
From Coq Require Import Bool Arith List.
From Verif Require Import Model_Main Spec_Main Proof_Main Proof_Main2 Proof_Main3.
Import ListNotations.
Open Scope list_scope.

(** Things are created in the configured order, each after the former is there,
    and nothing else happens before. *)
Theorem C59_start : forall cf tr e o s r, mruns cf minit (tr ++ [(e, o)]) s -> In (OCreate r) o ->
  seen (tr ++ [(e, o)]) = map OCreate (made (tr ++ [(e, o)]) ++ [r]) /\
  exists l, planned cf = made (tr ++ [(e, o)]) ++ r :: l.
Proof. exact final_C59_start. Qed.
Print Assumptions C59_start.

(** Nothing is created before what it needs. *)
Theorem C59_needs : forall cf tr e o s r u, mruns cf minit (tr ++ [(e, o)]) s -> In (OCreate r) o -> needs r u ->
  In u (made (tr ++ [(e, o)])).
Proof. exact final_C59_needs. Qed.
Print Assumptions C59_needs.

(** Once the runner is closed, everything that was created was closed, and
    nothing else.  (An engine runner of a server with a monitor component is
    closed by that component.) *)
Theorem C59_all : forall cf tr s r, mruns cf minit tr s -> In OOver (seen tr) ->
  (r = REngine -> mc_monitor cf = false) -> (In (OClose r) (seen tr) <-> In r (made tr)).
Proof. exact final_C59_all. Qed.
Print Assumptions C59_all.

(** An engine runner made for a monitor component is closed: by the component, or
    by the main runner if the component could not be created. *)
Theorem C59_engine : forall cf tr s o, mruns cf minit tr s -> In OOver (seen tr) -> In (EEngine, o) tr ->
  In (OClose RMonitor) (seen tr) \/ In (OClose REngine) (seen tr).
Proof. exact final_C59_engine. Qed.
Print Assumptions C59_engine.

(** Closing follows one order; nothing is closed twice. *)
Theorem C59_order : forall cf tr s a r b r' c, mruns cf minit tr s ->
  seen tr = a ++ OClose r :: b ++ OClose r' :: c -> rank r < rank r'.
Proof. exact final_C59_order. Qed.
Print Assumptions C59_order.

(** Nothing is closed before what uses it. *)
Theorem C59_uses_partial : forall cf tr s a u b r, mruns cf minit tr s -> seen tr = a ++ OClose u :: b ->
  uses r u -> In r (made tr) -> In (OClose r) a.
Proof. exact final_C59_uses. Qed.
Print Assumptions C59_uses_partial.

(** The exception: the eventer client runner is closed while an engine runner
    which was given it may still run. *)
Theorem C59_client_refuted : exists cf tr s a b o,
  mruns cf minit tr s /\ In (EEngine, o) tr /\ In RMonitor (made tr) /\ seen tr = a ++ OClose RClient :: b /\
  ~ In (OClose RMonitor) a /\ In (OClose RMonitor) b.
Proof. exact final_C59_client. Qed.
Print Assumptions C59_client_refuted.

(** The backend is flushed once, right before the eventer server is closed. *)
Theorem C59_flush : forall cf tr s, mruns cf minit tr s -> In (OClose RServer) (seen tr) ->
  exists a b, seen tr = a ++ OFlush :: OClose RServer :: b /\ ~ In (OClose RServer) a /\ ~ In (OClose RBackend) a /\ ~ In OFlush b.
Proof. exact final_C59_flush. Qed.
Print Assumptions C59_flush.

(** After a failure, a request to close or something closing by itself being
    noticed, nothing more is created and readiness is not set. *)
Theorem C59_quiet : forall cf tr e o tr' s x, mruns cf minit (tr ++ (e, o) :: tr') s ->
  e = EClose \/ e = ERaise \/ e = EBound \/ e = ECancel -> In x (o ++ seen tr') ->
  match x with OCreate _ | OReady _ => False | _ => True end.
Proof. exact final_C59_quiet. Qed.
Print Assumptions C59_quiet.

(** Nothing is closed without a reason. *)
Theorem C59_reason : forall cf tr s x, mruns cf minit tr s -> In x (seen tr) ->
  match x with OClose _ | OFlush | OOver => must_end tr | _ => True end.
Proof. exact final_C59_reason. Qed.
Print Assumptions C59_reason.

(** With a reason the runner can always end by its own steps. *)
Theorem C59_ends : forall cf tr s, mruns cf minit tr s -> must_end tr ->
  exists tr' s', mruns cf s tr' s' /\ (forall e o, In (e, o) tr' -> own_step e) /\ In OOver (seen (tr ++ tr')).
Proof. exact final_C59_ends. Qed.
Print Assumptions C59_ends.

(** The eventer server closes by itself while the monitor component, for which an
    engine runner was already made, is created. *)
Example C59_example : exists s, mruns (Mconf true true) minit
  [(EStart, [OCreate RBackend]); (ECreated, [OCreate RServer]); (ECreated, [OCreate RAdminer]); (ECreated, [OCreate RClient]);
   (ECreated, [OCreate RMonitor]); (EEngine, []); (EEnding RServer, []); (EBound, []); (ECancel, [OClose REngine]);
   (EDone, [OClose RClient]); (EDone, [OClose RAdminer]); (EDone, [OFlush]); (EDone, [OClose RServer]); (EDone, [OClose RBackend]);
   (EDone, [OOver])] s.
Proof.
  set (es := [EStart; ECreated; ECreated; ECreated; ECreated; EEngine; EEnding RServer; EBound; ECancel;
    EDone; EDone; EDone; EDone; EDone; EDone]).
  exists (match mexec (Mconf true true) minit es with Some (_, s) => s | None => minit end).
  apply (mexec_runs _ es). vm_compute. reflexivity.
Qed.

(** Readiness is set only once everything is created; true and false take turns,
    true first. *)
Theorem C60_cycle : forall cf tr e o s b, mruns cf minit (tr ++ [(e, o)]) s -> In (OReady b) o ->
  o = [OReady b] /\ mc_monitor cf = true /\ made (tr ++ [(e, o)]) = planned cf /\
  exists n, b = Nat.even n /\ seen tr = map OCreate (planned cf) ++ map OReady (alternate true n).
Proof. exact final_C60_cycle. Qed.
Print Assumptions C60_cycle.

(** Readiness is withdrawn only after a reset was asked for since it was set. *)
Theorem C60_false : forall cf t1 e1 t2 e2 s,
  mruns cf minit (t1 ++ (e1, [OReady true]) :: t2 ++ [(e2, [OReady false])]) s ->
  readies (seen t2) = [] -> exists u o v o', t2 = u ++ (EReady, o) :: v /\ In (EReset, o') v.
Proof. exact final_C60_false. Qed.
Print Assumptions C60_false.

(** It is given back only after the monitor server took the token away, or after
    the timeout. *)
Theorem C60_true : forall cf t1 e1 t2 e2 s,
  mruns cf minit (t1 ++ (e1, [OReady false]) :: t2 ++ [(e2, [OReady true])]) s -> readies (seen t2) = [] ->
  (exists o, In (EReady, o) t2) /\
  ((exists o, In (ETimeout, o) t2) \/ exists u v, t2 = u ++ v /\ token_after (t1 ++ (e1, [OReady false]) :: u) = false).
Proof. exact final_C60_true. Qed.
Print Assumptions C60_true.

(** A reset asked for once readiness is set makes the runner withdraw it. *)
Theorem C60_reset_partial : forall cf t1 e1 u o v s o',
  mruns cf minit (t1 ++ (e1, [OReady true]) :: u ++ (EReady, o) :: v) s ->
  readies (seen (u ++ (EReady, o) :: v)) = [] -> In (EReset, o') v -> m_open s = true ->
  mstep cf s EWake = Some (with_phase s PFalse, [OReady false]).
Proof. exact final_C60_reset. Qed.
Print Assumptions C60_reset_partial.

(** A reset asked for while readiness is being set is forgotten: the runner then
    waits and does nothing until others act. *)
Theorem C60_reset_refuted : exists cf t1 e1 t2 o s,
  mruns cf minit (t1 ++ (e1, [OReady true]) :: (EReset, o) :: t2) s /\ m_open s = true /\ readies (seen t2) = [] /\
  forall e s' o', mstep cf s e = Some (s', o') ->
    e = EClose \/ e = EReset \/ e = EEngine \/ (exists r, e = EEnding r) \/ exists b, e = EState b.
Proof. exact final_C60_lost. Qed.
Print Assumptions C60_reset_refuted.

(** A reset, the token is seen, taken away, and given again before a timeout. *)
Example C60_example : exists s, mruns (Mconf false true) minit
  [(EStart, [OCreate RBackend]); (ECreated, [OCreate RServer]); (ECreated, [OCreate RClient]); (ECreated, [OCreate RMonitor]);
   (ECreated, [OReady true]); (EReady, []); (EState true, []); (EReset, []); (EWake, [OReady false]); (EReady, []);
   (EState true, []); (ECheck, []); (EState false, []); (ECheck, []); (EToken, [OReady true]); (EReady, []);
   (EState true, []); (EReset, []); (EWake, [OReady false]); (EReady, []); (ETimeout, []); (EToken, [OReady true])] s.
Proof.
  set (es := [EStart; ECreated; ECreated; ECreated; ECreated; EReady; EState true; EReset; EWake; EReady;
    EState true; ECheck; EState false; ECheck; EToken; EReady; EState true; EReset; EWake; EReady; ETimeout; EToken]).
  exists (match mexec (Mconf false true) minit es with Some (_, s) => s | None => minit end).
  apply (mexec_runs _ es). vm_compute. reflexivity.
Qed.
