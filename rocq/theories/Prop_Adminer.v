(** C62: the log configuration is an atomic register.
    C63: calls of an adminer client are answered. *)
From Coq Require Import String Bool Arith ZArith List.
From Verif Require Import Model_Types Model_Adminer Spec_Adminer Proof_Adminer Proof_Adminer2.
Import ListNotations.
Open Scope string_scope.
Open Scope list_scope.
Open Scope nat_scope.

(** Calls of all clients, whatever is lost, could have been done one after another,
    each between its begin and its end. *)
Theorem C62 : forall dc c0 tr s, aruns dc (adm_init c0) tr s -> linearizable dc c0 (history tr).
Proof. exact final_C62. Qed.
Print Assumptions C62.

(** No call ends twice. *)
Theorem C62_once : forall dc c0 tr s, aruns dc (adm_init c0) tr s -> NoDup (ended (history tr)).
Proof. exact final_C62_once. Qed.
Print Assumptions C62_once.

(** Two clients; a configuration is refused; a connection is lost after a
    configuration was set, which the caller does not learn but the other one sees. *)
Example C62_example : exists s, aruns (fun c => match c with JInt _ => None | _ => Some "invalid" end) (adm_init JNull)
  [(ACall 0 1 (ASet (JInt 5%Z)), [HCall 1 (ASet (JInt 5%Z))]); (ACall 1 2 AGet, [HCall 2 AGet]); (AWait 0 1, []); (AWait 1 2, []);
   (AServe 1 true, []); (AServe 0 true, []); (ACall 1 3 (ASet JNull), [HCall 3 (ASet JNull)]); (AWait 1 3, []);
   (AServe 1 true, []); (ADeliver 1, []); (ADeliver 1, []); (AResume 1 3, [HRet 3 (RError "invalid")]); (ALost 0, []); (AStop 0, []);
   (AResume 0 1, [HRet 1 RLost]); (AResume 1 2, [HRet 2 (RConf JNull)]); (ACall 1 4 AGet, [HCall 4 AGet]); (AWait 1 4, []);
   (AServe 1 true, []); (ADeliver 1, []); (AResume 1 4, [HRet 4 (RConf (JInt 5%Z))])] s.
Proof.
  set (es := [ACall 0 1 (ASet (JInt 5%Z)); ACall 1 2 AGet; AWait 0 1; AWait 1 2; AServe 1 true; AServe 0 true; ACall 1 3 (ASet JNull);
    AWait 1 3; AServe 1 true; ADeliver 1; ADeliver 1; AResume 1 3; ALost 0; AStop 0; AResume 0 1; AResume 1 2; ACall 1 4 AGet;
    AWait 1 4; AServe 1 true; ADeliver 1; AResume 1 4]).
  exists (match aexec (fun c => match c with JInt _ => None | _ => Some "invalid" end) (adm_init JNull) es with Some (_, s) => s | None => adm_init JNull end).
  apply (aexec_runs _ es). vm_compute. reflexivity.
Qed.

(** As long as nothing disturbs a connection, no call over it ends with
    [ConnectionError], *)
Theorem C63_partial : forall dc c0 c tr s e o n, aruns dc (adm_init c0) tr s -> gentle c tr -> In (e, o) tr -> place e = c ->
  ~ In (HRet n RLost) o.
Proof. exact final_C63_partial. Qed.
Print Assumptions C63_partial.

(** and every call can be answered by steps of the server and the client alone. *)
Theorem C63_answered_partial : forall dc c0 c tr s n, aruns dc (adm_init c0) tr s -> gentle c tr -> over c tr n ->
  ~ In n (ended (history tr)) ->
  exists tr' s' r, aruns dc s tr' s' /\ (forall e o, In (e, o) tr' -> answering c n e) /\ In (HRet n r) (history tr') /\ r <> RLost.
Proof. exact final_C63_answered. Qed.
Print Assumptions C63_answered_partial.

(** If some caller gave up, another call over the same connection may end with
    [ConnectionError] though nothing was lost. *)
Theorem C63_refuted : exists dc c0 tr s n, aruns dc (adm_init c0) tr s /\
  (forall e o, In (e, o) tr -> match e with AServe _ false | ASrvEnd _ | ALost _ => False | _ => True end) /\
  In (HRet n RLost) (history tr).
Proof. exact final_C63_late. Qed.
Print Assumptions C63_refuted.

(** An execution which does not disturb connection 0 though connection 1 is lost and
    a caller of it is cancelled. *)
Example C63_example : exists tr s, aruns (fun _ => None) (adm_init JNull) tr s /\ gentle 0 tr /\ over 0 tr 3 /\
  ~ In 3 (ended (history tr)) /\ In (HRet 1 RDone) (history tr).
Proof.
  set (es := [ACall 0 1 (ASet (JInt 5%Z)); AWait 0 1; ACall 1 2 AGet; AServe 0 true; ACancel 1 2; ALost 1; ADeliver 0; AResume 0 1;
              ACall 0 3 AGet; AWait 0 3; AServe 0 true]).
  exists [(ACall 0 1 (ASet (JInt 5%Z)), [HCall 1 (ASet (JInt 5%Z))]); (AWait 0 1, []); (ACall 1 2 AGet, [HCall 2 AGet]); (AServe 0 true, []);
     (ACancel 1 2, []); (ALost 1, []); (ADeliver 0, []); (AResume 0 1, [HRet 1 RDone]); (ACall 0 3 AGet, [HCall 3 AGet]); (AWait 0 3, []);
     (AServe 0 true, [])].
  exists (match aexec (fun _ => None) (adm_init JNull) es with Some (_, s) => s | None => adm_init JNull end).
  split; [apply (aexec_runs _ es); vm_compute; reflexivity|]. split.
  - apply ge_call. repeat (apply ge_step; [cbn; intuition discriminate|]). apply ge_call. apply ge_step; [cbn; auto|constructor].
  - split; [exists AGet, [HCall 3 AGet]; cbn; auto 10|]. split; [cbn; intuition discriminate|cbn; auto].
Qed.
