(** Concrete executions of the engine, used by examples. *)
From Coq Require Import String Bool ZArith Arith Lia List.
From Verif Require Import Base Model_Types Model_Subscription Model_Lmdb Model_LmdbSys Spec_Lmdb Ex_Lmdb Model_Engine Spec_Engine Proof_Engine Proof_Engine5.
Import ListNotations.
Open Scope string_scope.
Open Scope list_scope.
Open Scope nat_scope.

(** Performs steps of the engine and notes what is seen. *)
Fixpoint eplay (ms : list node) (size : nat) (s : estate) (ops : list eop) : option (list eitem * estate) :=
  match ops with
  | [] => Some ([], s)
  | o :: ops' =>
      match eexec ms size s o with
      | None => None
      | Some (s1, l) =>
          match eplay ms size s1 ops' with
          | None => None
          | Some (tr, s2) => Some ((o, l) :: tr, s2)
          end
      end
  end.
Lemma eplay_runs : forall ms size ops s tr s', eplay ms size s ops = Some (tr, s') -> eruns ms size s tr s'.
Proof.
  intros ms size. induction ops as [|o ops IH]; intros s tr s' H; cbn [eplay] in H.
  - injection H as <- <-. constructor.
  - destruct (eexec ms size s o) as [[s1 l]|] eqn:E; [|discriminate].
    destruct (eplay ms size s1 ops) as [[tr1 s2]|] eqn:E2; [|discriminate]. injection H as <- <-.
    apply (eruns_app ms size tr1 s1 s2 (IH _ _ _ E2) [(o, l)]). apply (eruns_snoc ms size s [] s); [constructor|auto].
Qed.
Definition etrace (ms : list node) (size : nat) (last : event_id) (ops : list eop) : list eitem :=
  match eplay ms size (estart last) ops with Some (tr, _) => tr | None => [] end.
Definition eend (ms : list node) (size : nat) (last : event_id) (ops : list eop) : estate :=
  match eplay ms size (estart last) ops with Some (_, s) => s | None => estart last end.
Lemma eplayed : forall ms size last ops, (if eplay ms size (estart last) ops then true else false) = true ->
    engine_run ms size last (etrace ms size last ops) (eend ms size last ops).
Proof.
  intros ms size last ops H. unfold etrace, eend. destruct (eplay ms size (estart last) ops) as [[tr s]|] eqn:E; [|discriminate]. eapply eplay_runs; eauto.
Qed.

(** Two modules. *)
Definition en_ms : list node := [sub_of [["a"; "*"]; ["b"]]; sub_of [["b"]]].
Definition en_last : event_id := Eid 1 4 7.
Definition rg (t : etype) : reg_event := RegEv t None None.
(** The session of the STARTED event, a session in which module 0 produces an
    event that both modules get, module 1 another one; a request given up; a
    request that is interrupted by closing; one that comes too late. *)
Definition en_req1 : request := Request 1 (Source EVENTER 3) [rg ["a"; "x"]; rg ["c"]].
Definition en_req2 : request := Request 2 (Source SERVER 0) [rg ["b"]].
Definition en_req3 : request := Request 3 (Source EVENTER 3) [rg ["c"]].
Definition en_req4 : request := Request 4 (Source EVENTER 3) [rg ["c"]].
Definition en_req5 : request := Request 5 (Source EVENTER 3) [].
Definition en_ops1 : list eop :=
  [ERegister en_req1; EPut 1; EBegin; EGet (Ts 10 0); EStep; EStep; ERegister en_req5; EStep; EStep; EStep; EStep; EStep; EStep; EStep; ERegistered true].
Definition en_ops2 : list eop :=
  [EGet (Ts 11 0); EStep; EStep; EStep; EStep; EProcessed [rg ["b"]]; EStep; EStep; EStep; EStep;
   EStep; EProcessed []; EStep; EProcessed [rg ["d"]]; EStep; EStep; EStep; EStep; EStep; EStep].
Definition en_hand2 : eop := EStep.
Definition en_ops3 : list eop :=
  [ERegistered true; ERegister en_req2; EPut 2; ERegister en_req3; EPut 3; ERegister en_req4; EGet (Ts 12 0); EStep; EGiveUp 3; EClose;
   ECancel (Ts 13 0)].
Definition en_ops4 : list eop := [EPut 4; ELast].

Definition en_tr (ops : list eop) : list eitem := etrace en_ms 5 en_last ops.
Definition en_s (ops : list eop) : estate := eend en_ms 5 en_last ops.
Lemma en_run : forall ops, (if eplay en_ms 5 (estart en_last) ops then true else false) = true -> engine_run en_ms 5 en_last (en_tr ops) (en_s ops).
Proof. intros. now apply eplayed. Qed.

Definition en_all : list eop := en_ops1 ++ en_ops2 ++ en_hand2 :: en_ops3 ++ en_ops4.

(** Events of the second session. *)
Definition en_e (i : Z) (t : etype) : event := Ev (Eid 1 6 i) t (Ts 11 0) None None.
Definition en_batch : list event := [en_e 1 ["a"; "x"]; en_e 2 ["c"]; en_e 3 ["b"]; en_e 4 ["d"]].
Definition en_started : event := Ev (Eid 1 5 1) ["event"; "1"; "engine"] (Ts 10 0) None (Some (PJson (JStr "STARTED"))).
Definition en_stopped : event := Ev (Eid 1 8 1) ["event"; "1"; "engine"] (Ts 13 0) None (Some (PJson (JStr "STOPPED"))).

(** A creation that fails after a module registered an event. *)
Definition en_failed : list eop := [ERegister en_req1; EPut 1; EInitFailed].

(** An engine without modules that starts at [t] and is closed. *)
Definition life (t : Z) : list eop :=
  [EBegin; EGet (Ts t 0); EStep; EStep; EStep; ERegistered true; EClose; ECancel (Ts (t + 1) 0); ELast].
Definition life_batches (last : event_id) (t : Z) : list (list event) := handed (etrace [] 5 last (life t)).

(** A configuration that stores nothing of the engine, one that keeps the
    latest event of everything. *)
Definition nothing_conf : conf := mk_conf "0.9" (Some "id") (fun _ => true) [["a"]] [] 10.
Lemma nothing_conf_ok : conf_ok nothing_conf.
Proof. apply conf_ok_of; reflexivity. Qed.
Definition latest_conf : conf := mk_conf "0.9" (Some "id") (fun _ => true) [["*"]] [] 10.
Lemma latest_conf_ok : conf_ok latest_conf.
Proof. apply conf_ok_of; reflexivity. Qed.

(** A backend to which the batches of an engine are registered; flush; clean
    restart. *)
Definition site_ops (cf : conf) (bs : list (list event)) : list op := map ORegister bs ++ [OFlush; OWork; OReopen cf].
(** ... and without the flush. *)
Definition crash_ops (cf : conf) (bs : list (list event)) : list op := map ORegister bs ++ [OReopen cf].
