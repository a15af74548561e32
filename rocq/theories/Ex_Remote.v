(** Concrete histories of connections to remote servers, used by examples. *)
From Coq Require Import String Bool ZArith Lia List.
From Verif Require Import Base Model_Types Model_Monitor Model_Remote Spec_Conditions Spec_Monitor Spec_Remote.
Import ListNotations.
Open Scope string_scope.
Open Scope list_scope.
Open Scope Z_scope.

Fixpoint xplay (g : string) (t : option string) (s : xstate) (ops : list xop) : option (list xitem * xstate) :=
  match ops with
  | [] => Some ([], s)
  | o :: ops' =>
      match xexec g t s o with
      | None => None
      | Some (s1, l) =>
          match xplay g t s1 ops' with
          | None => None
          | Some (tr, s2) => Some ((o, l) :: tr, s2)
          end
      end
  end.
Lemma xplay_runs : forall g t ops s tr s', xplay g t s ops = Some (tr, s') -> forall tr0, xruns g t tr0 s -> xruns g t (tr0 ++ tr) s'.
Proof.
  intros g t. induction ops as [|o ops IH]; intros s tr s' H tr0 H0; cbn [xplay] in H.
  - injection H as <- <-. now rewrite app_nil_r.
  - destruct (xexec g t s o) as [[s1 l]|] eqn:E; [|discriminate].
    destruct (xplay g t s1 ops) as [[tr1 s2]|] eqn:E2; [|discriminate]. injection H as <- <-.
    replace (tr0 ++ (o, l) :: tr1) with ((tr0 ++ [(o, l)]) ++ tr1) by now rewrite <- app_assoc.
    eapply IH; eauto. econstructor; eauto.
Qed.

Definition x_group := "event".
Definition x_token := Some "secret".
Definition xtrace (ops : list xop) : list xitem := match xplay x_group x_token xstart ops with Some (tr, _) => tr | None => [] end.
Definition xend_of (ops : list xop) : xstate := match xplay x_group x_token xstart ops with Some (_, s) => s | None => xstart end.
Lemma xplayed : forall ops, (if xplay x_group x_token xstart ops then true else false) = true -> xruns x_group x_token (xtrace ops) (xend_of ops).
Proof.
  intros ops H. unfold xtrace, xend_of. destruct (xplay x_group x_token xstart ops) as [[tr s]|] eqn:E; [|discriminate].
  apply (xplay_runs _ _ _ _ _ _ E []). constructor.
Qed.

Definition x_data (n : json) (token : json) : json :=
  JObj [("server_id", n); ("eventer_server", JObj [("host", JStr "h"); ("port", JInt 23012)]); ("server_token", token)].
Definition x_info (cid : Z) (group : string) (data : json) : minfo := Minfo cid 0 (Some "c") (Some group) data 1 (Some 5) (Some 5).
Definition x_own := x_info 1 "event" (x_data (JInt 1) (JStr "secret")).
Definition x_two := x_info 2 "event" (x_data (JInt 2) (JStr "secret")).
Definition x_three := x_info 3 "event" (x_data (JInt 3) (JStr "secret")).
Definition x_wrong := x_info 4 "event" (x_data (JInt 4) (JStr "other")).
Definition x_other := x_info 5 "gui" (x_data (JInt 5) (JStr "secret")).
Definition x_bare := x_info 6 "event" (JObj [("server_id", JInt 6)]).
Definition x_ms := Mstate (Some x_own) [x_own; x_two; x_wrong; x_three; x_other; x_bare].
Definition x_ms2 := Mstate (Some x_own) [x_own; x_three].
Definition d2 := Sdata 2 "h" 23012.
Definition d3 := Sdata 3 "h" 23012.

(** Two remotes; the second becomes active while the first one is; the first is
    lost and tried again, then no longer known. *)
Definition x_ops : list xop :=
  [XMonitor x_ms; XStep d2; XStep d3; XMade d2 STANDBY; XFail d3; XStatus d2 OPERATIONAL; XStep d3; XMade d3 STARTING; XDrop d2; XStep d2;
   XFail d2; XMonitor x_ms2; XStep d2; XStatus d3 STANDBY; XStatus d3 STARTING].
Definition x_closed : list xop := x_ops ++ [XClose; XCancel d3; XStep d3].

Lemma x_ms_ok : monitor_ok x_ms.
Proof.
  split.
  - intros i H. cbn in H. repeat destruct H as [<-|H]; try easy; repeat (constructor; cbn; try (intuition discriminate)).
  - intros i [= <-]. repeat (constructor; cbn; try (intuition discriminate)).
Qed.
Lemma x_ms2_ok : monitor_ok x_ms2.
Proof.
  split.
  - intros i H. cbn in H. repeat destruct H as [<-|H]; try easy; repeat (constructor; cbn; try (intuition discriminate)).
  - intros i [= <-]. repeat (constructor; cbn; try (intuition discriminate)).
Qed.
