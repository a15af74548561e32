(** Concrete histories of the engine runner, used by examples. *)
From Coq Require Import Bool Arith List.
From Verif Require Import Base Model_Types Model_Runner Spec_Runner.
Import ListNotations.
Open Scope list_scope.
Open Scope nat_scope.

Fixpoint nplay (s : nstate) (ops : list nop) : option (list nitem * nstate) :=
  match ops with
  | [] => Some ([], s)
  | o :: ops' =>
      match nexec s o with
      | None => None
      | Some (s1, l) =>
          match nplay s1 ops' with
          | None => None
          | Some (tr, s2) => Some ((o, l) :: tr, s2)
          end
      end
  end.
Lemma nplay_runs : forall ops s tr s', nplay s ops = Some (tr, s') -> forall tr0, nruns tr0 s -> nruns (tr0 ++ tr) s'.
Proof.
  induction ops as [|o ops IH]; intros s tr s' H tr0 H0; cbn [nplay] in H.
  - injection H as <- <-. now rewrite app_nil_r.
  - destruct (nexec s o) as [[s1 l]|] eqn:E; [|discriminate].
    destruct (nplay s1 ops) as [[tr1 s2]|] eqn:E2; [|discriminate]. injection H as <- <-.
    replace (tr0 ++ (o, l) :: tr1) with ((tr0 ++ [(o, l)]) ++ tr1) by now rewrite <- app_assoc.
    eapply IH; eauto. econstructor; eauto.
Qed.
Definition ntrace (ops : list nop) : list nitem := match nplay nstart ops with Some (tr, _) => tr | None => [] end.
Definition nend_of (ops : list nop) : nstate := match nplay nstart ops with Some (_, s) => s | None => nstart end.
Lemma nplayed : forall ops, (if nplay nstart ops then true else false) = true -> nruns (ntrace ops) (nend_of ops).
Proof.
  intros ops H. unfold ntrace, nend_of. destruct (nplay nstart ops) as [[tr s]|] eqn:E; [|discriminate].
  apply (nplay_runs _ _ _ _ E []). constructor.
Qed.

(** A remote is active at first; the first engine is restarted, the second one
    closes by itself. *)
Definition n_first : list nop := [NRemote true; NBegin; NRemote false; NWake; NOk; NOk; NPresence; NOk; NRegister; NSynced; NRestart].
Definition n_second : list nop := n_first ++ [NOk; NOk; NRegister; NOk; NOk; NOk; NOk; NOk; NOk; NOk].
Definition n_third : list nop := n_second ++ [NRegister; NEngineClosed; NPresence; NOk; NOk; NOk; NOk; NOk; NOk].

(** Closed while waiting. *)
Definition n_wait : list nop := [NRemote true; NBegin; NClose; NCancel].

(** The remote becomes active while STARTING is sent. *)
Definition n_late : list nop := [NBegin; NRemote true; NOk].
