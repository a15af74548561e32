(** Concrete lives of the eventer client, used by examples. *)
From Coq Require Import String Bool ZArith Arith List.
From Verif Require Import Base Model_Types Model_Subscription Model_Eventer Spec_Eventer Ex_Eventer Model_Client Spec_Client.
Import ListNotations.
Open Scope string_scope.
Open Scope list_scope.
Open Scope nat_scope.

(** Performs steps of the client and notes what is seen. *)
Fixpoint cplay (s : cstate) (ops : list cop) : option (list citem * cstate) :=
  match ops with
  | [] => Some ([], s)
  | o :: ops' =>
      match cexec s o with
      | None => None
      | Some (s1, l) =>
          match cplay s1 ops' with
          | None => None
          | Some (tr, s2) => Some ((o, l) :: tr, s2)
          end
      end
  end.
Lemma cplay_runs : forall ops s tr s', cplay s ops = Some (tr, s') -> forall s0 tr0, cruns s0 tr0 s -> cruns s0 (tr0 ++ tr) s'.
Proof.
  induction ops as [|o ops IH]; intros s tr s' H s0 tr0 H0; cbn [cplay] in H.
  - injection H as <- <-. now rewrite app_nil_r.
  - destruct (cexec s o) as [[s1 l]|] eqn:E; [|discriminate].
    destruct (cplay s1 ops) as [[tr1 s2]|] eqn:E2; [|discriminate]. injection H as <- <-.
    replace (tr0 ++ (o, l) :: tr1) with ((tr0 ++ [(o, l)]) ++ tr1) by now rewrite <- app_assoc.
    eapply IH; eauto. econstructor; eauto.
Qed.
Definition ctrace (ops : list cop) : list citem := match cplay cstart ops with Some (tr, _) => tr | None => [] end.
Definition cend (ops : list cop) : cstate := match cplay cstart ops with Some (_, s) => s | None => cstart end.
Lemma cplayed : forall ops, (if cplay cstart ops then true else false) = true -> client_run (ctrace ops) (cend ops).
Proof.
  intros ops H. unfold ctrace, cend. destruct (cplay cstart ops) as [[tr s]|] eqn:E; [|discriminate].
  apply (cplay_runs _ _ _ _ E cstart []). constructor.
Qed.

(** A server with one client: the status changes, the client registers events
    and queries, is notified of events and acknowledges. *)
Definition x_register : list reg_event := [RegEv ["a"] None None].
Definition x_server : list vop :=
  [VAccept; VInit 1 0 vreq1 true; VSetStatus 1 STARTING false; VStatusStep 1; VStatusDone 1; VSetStatus 2 OPERATIONAL true; VStatusStep 2; VStatusDone 2;
   VRegister 1 1 false x_register; VRegistered 1 (Some [vev2]); VQuery 1 2 vquery; VNotify 3 [vev1; vev4] false true; VTask 3 1; VTaskWait 3 1;
   VQueried 1 (QRes [vev1] false); VAck 1 0; VNotifyDone 3].
(** The client: two requests are pending at once. *)
Definition x_hello : list cop := [CMsg (MInitRes 0 (Some STANDBY)); CStart; CMsg (MStatus STARTING)].
Definition x_requests : list cop := [CRequest 1 (RRegister true x_register); CRequest 2 (RQuery vquery); CWait 1; CWait 2].
Definition x_answers : list cop :=
  [CDone; CMsg (MStatus OPERATIONAL); CDone; CMsg (MRegisterRes 1 (Some [vev2])); CMsg (MEvents 0 [vev1] false); CResume 1; CDone;
   CMsg (MQueryRes 2 (QRes [vev1] false)); CResume 2].
Definition x_client : list cop := x_hello ++ x_requests ++ x_answers.
