(** Concrete lives of the eventer server, used by examples. *)
From Coq Require Import String Bool ZArith Arith List.
From Verif Require Import Base Model_Types Model_Subscription Model_Eventer Spec_Eventer.
Import ListNotations.
Open Scope string_scope.
Open Scope list_scope.
Open Scope nat_scope.

(** Performs steps of the server and notes what is seen. *)
Fixpoint vplay (sv : Z) (tk : option string) (s : vstate) (ops : list vop) : option (list vitem * vstate) :=
  match ops with
  | [] => Some ([], s)
  | o :: ops' =>
      match vexec sv tk s o with
      | None => None
      | Some (s1, l) =>
          match vplay sv tk s1 ops' with
          | None => None
          | Some (tr, s2) => Some ((o, l) :: tr, s2)
          end
      end
  end.
Lemma vplay_runs : forall sv tk ops s tr s', vplay sv tk s ops = Some (tr, s') ->
    forall s0 tr0, vruns sv tk s0 tr0 s -> vruns sv tk s0 (tr0 ++ tr) s'.
Proof.
  intros sv tk. induction ops as [|o ops IH]; intros s tr s' H s0 tr0 H0; cbn [vplay] in H.
  - injection H as <- <-. now rewrite app_nil_r.
  - destruct (vexec sv tk s o) as [[s1 l]|] eqn:E; [|discriminate].
    destruct (vplay sv tk s1 ops) as [[tr1 s2]|] eqn:E2; [|discriminate]. injection H as <- <-.
    replace (tr0 ++ (o, l) :: tr1) with ((tr0 ++ [(o, l)]) ++ tr1) by now rewrite <- app_assoc.
    eapply IH; eauto. econstructor; eauto.
Qed.
Definition vtrace (ops : list vop) : list vitem :=
  match vplay 1 (Some "secret") vstart ops with Some (tr, _) => tr | None => [] end.
Definition vend (ops : list vop) : vstate :=
  match vplay 1 (Some "secret") vstart ops with Some (_, s) => s | None => vstart end.
Lemma vplayed : forall ops, (if vplay 1 (Some "secret") vstart ops then true else false) = true ->
    server_run 1 (Some "secret") (vtrace ops) (vend ops).
Proof.
  intros ops H. unfold vtrace, vend. destruct (vplay 1 (Some "secret") vstart ops) as [[tr s]|] eqn:E; [|discriminate].
  apply (vplay_runs _ _ _ _ _ _ E vstart []). constructor.
Qed.

(** Requests: without token; with a wrong one; with the right one, for events
    of server 7; with an invalid query type. *)
Definition vreq1 : init_req := InitReq "one" None [["a"; "*"]] None false.
Definition vreq2 : init_req := InitReq "two" (Some "guess") [["a"; "*"]] None false.
Definition vreq3 : init_req := InitReq "three" (Some "secret") [["a"; "?"]; ["b"]] (Some 7%Z) false.
Definition vreq4 : init_req := InitReq "four" None [["*"; "a"]] None false.
Definition vreq5 : init_req := InitReq "five" None [["*"]; ["*"; "a"]] None true.
Definition vev (server i : Z) (t : etype) : event := Ev (Eid server 1 i) t (Ts 1 0) None None.
Definition vev1 : event := vev 7 1 ["a"; "x"].
Definition vev2 : event := vev 1 2 ["a"; "x"; "y"].
Definition vev3 : event := vev 7 3 ["b"].
Definition vev4 : event := vev 7 4 ["c"].
Definition vquery : query_params := QPLatest (QLatest None).

(** Two clients are accepted, one of them while the status is changing, two are
    refused. *)
Definition v_hello : list vop :=
  [VAccept; VAccept; VAccept; VAccept; VInit 1 10 vreq1 true; VInit 2 11 vreq2 true; VInit 4 13 vreq4 true;
   VSetStatus 1 STARTING false; VStatusStep 1; VStatusDone 1; VSetStatus 2 OPERATIONAL true; VInit 3 12 vreq3 true; VHello 3 true;
   VStatusStep 2; VStatusDone 2].
Definition v_talk : list vop :=
  [VRegister 1 20 false [RegEv ["a"] None None]; VQuery 3 21 vquery; VRegistered 1 (Some [vev2]); VQueried 3 (QRes [vev1] false);
   VRegister 1 22 true [RegEv ["b"] None None]; VRegistered 1 None].
Definition v_call1 : vop := VNotify 3 [vev1; vev2; vev3; vev4] false false.
Definition v_note1 : list vop := [VNotifyStep 3; VNotifyStep 3; VNotifyDone 3].
Definition v_call2 : vop := VNotify 4 [vev1; vev2; vev3; vev4] false true.
Definition v_note2 : list vop :=
  [VTask 4 3; VTask 4 1; VTaskWait 4 3; VTaskWait 4 1; VAck 1 3; VAck 3 2; VNotifyDone 4].
Definition v_all : list vop := v_hello ++ v_talk ++ [v_call1] ++ v_note1 ++ [v_call2] ++ v_note2.
