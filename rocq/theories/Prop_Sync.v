(** C41, C42, C54: synchronization with a remote server. *)
From Coq Require Import String Bool ZArith Arith Sorted List.
From Verif Require Import Base Model_Types Model_Sync Spec_Sync Proof_Sync6 Proof_Sync7 Ex_Sync.
Import ListNotations.
Open Scope string_scope.
Open Scope list_scope.
Open Scope nat_scope.

Example sync_example : sync_run 7 y_none (ytrace x_sync) (yend_of x_sync).
Proof. apply yplayed. vm_compute. reflexivity. Qed.

(** C41.  A finished synchronization has given every event to the backend that
    the remote had stored, and not removed, when it answered the last page. *)
Theorem C41_synced : forall sv last0 tr s, sync_run sv last0 tr s -> finished tr ->
    exists a k es b, tr = a ++ (RQuery k, [Answered (QRes es false)]) :: b /\
      forall e, persisted a e -> ~ removed a e -> fresh last0 e -> In e (concat (gives FromQuery tr)).
Proof. exact final_C41_synced. Qed.
Print Assumptions C41_synced.

(** C41.  Once it has finished, also those stored since are given, as soon as
    the notification of their batch is received: none are lost in between. *)
Theorem C41_all : forall sv last0 tr s, sync_run sv last0 tr s -> finished tr ->
    forall b e, In b (commits tr) -> persisted_in b e -> ~ removed tr e -> fresh last0 e -> In (batch b) (unsent tr ++ recvd tr) -> In e (given tr).
Proof. exact final_C41_all. Qed.
Print Assumptions C41_all.

Example C41_all_example :
  let tr := ytrace x_sync in
  finished tr /\ In [(y21, true)] (commits tr) /\ In [(y41, true)] (commits tr) /\ ~ removed tr y21 /\ ~ removed tr y41 /\ fresh y_none y21 /\
  unsent tr = [[y11; y12]] /\ recvd tr = [[y21]; [y31]; [y41]] /\ given tr = [y11; y12; y21; y31; y41].
Proof.
  cbv zeta. split; [exists (Some 3); vm_compute; auto|]. split; [vm_compute; auto|]. split; [vm_compute; auto 6|].
  split; [apply never_removed; vm_compute; reflexivity|]. split; [apply never_removed; vm_compute; reflexivity|]. vm_compute. auto.
Qed.

(** C41.  Afterwards each notified batch is given at once, whole, and nothing
    else is. *)
Theorem C41_after : forall sv last0 a o l b s, sync_run sv last0 (a ++ (o, l) :: b) s -> finished a ->
    (forall es, In (Recvd es) l -> l = [Recvd es; Give FromNotify es]) /\
    (forall w es, In (Give w es) l -> l = [Recvd es; Give FromNotify es] /\ w = FromNotify).
Proof. exact final_C41_pass. Qed.
Print Assumptions C41_after.

Example C41_after_example : exists a l b, ytrace x_sync = a ++ (YRecv, l) :: b /\ finished a /\ l = [Recvd [y41]; Give FromNotify [y41]].
Proof.
  exists (firstn 25 (ytrace x_sync)), [Recvd [y41]; Give FromNotify [y41]], [(YDone, [])]. split; [vm_compute; reflexivity|].
  split; [exists (Some 3); vm_compute; auto|reflexivity].
Qed.

(** C41.  Only the remote's events are given. *)
Theorem C41_only : forall sv last0 tr s, sync_run sv last0 tr s -> forall e, In e (given tr) -> exists b, In b (commits tr) /\ In e (batch b).
Proof. exact final_C41_only. Qed.
Print Assumptions C41_only.

(** C41.  Events given by query and then from the queue have growing ids above
    the one known, and so have those from the queue and then upon
    notification. *)
Theorem C41_order : forall sv last0 tr s, sync_run sv last0 tr s ->
    given tr = concat (gives FromQuery tr) ++ concat (gives FromQueue tr) ++ concat (gives FromNotify tr) /\
    increasing (concat (gives FromQuery tr) ++ concat (gives FromQueue tr)) /\ above last0 (concat (gives FromQuery tr) ++ concat (gives FromQueue tr)) /\
    increasing (concat (gives FromQueue tr) ++ concat (gives FromNotify tr)).
Proof. exact final_C41_order. Qed.
Print Assumptions C41_order.

Example C41_order_example :
  let tr := ytrace x_sync in gives FromQuery tr = [[y11; y12]; [y21]] /\ gives FromQueue tr = [[y31]] /\ gives FromNotify tr = [[y41]].
Proof. vm_compute. auto. Qed.

(** C41.  If all batches committed before the last page was answered had been
    notified by then, all events are given in the order of their ids, hence
    once. *)
Theorem C41_once_partial : forall sv last0 tr s, sync_run sv last0 tr s -> in_step tr -> increasing (given tr).
Proof. exact final_C41_once. Qed.
Print Assumptions C41_once_partial.

Example C41_once_example : in_step (ytrace x_sync) /\ finished (ytrace x_sync) /\ length (given (ytrace x_sync)) = 5.
Proof.
  split; [|split; [exists (Some 3); vm_compute; auto|vm_compute; reflexivity]].
  apply in_step_check. vm_compute. reflexivity.
Qed.

(** C41.  Otherwise not: a batch found by the query is given again when it is
    notified after the synchronization has finished. *)
Theorem C41_refuted : exists sv last0 tr s, sync_run sv last0 tr s /\ finished tr /\ ~ NoDup (given tr).
Proof.
  exists 7%Z, y_none, (ytrace x_late), (yend_of x_late). split; [apply yplayed; vm_compute; reflexivity|]. split; [exists (Some 3); vm_compute; auto|].
  assert (E : given (ytrace x_late) = [y11; y12; y21; y21]) by (vm_compute; reflexivity). rewrite E. intros H. inversion_clear H as [|? ? H1 H2]. inversion_clear H2 as [|? ? H3 H4]. inversion_clear H4 as [|? ? H5 H6]. apply H5. now left.
Qed.
Print Assumptions C41_refuted.

(** C41.  A backend that refuses ids not above the last one accepted stores
    each of the events once in any case, in the order of ids. *)
Theorem C41_accepted : forall sv last0 ok tr s, sync_run sv last0 tr s -> finished tr ->
    forall b e, In b (commits tr) -> persisted_in b e -> ~ removed tr e -> fresh last0 e -> In (batch b) (unsent tr ++ recvd tr) -> ok e = true ->
    In e (accepted ok last0 (given tr)).
Proof. exact final_C41_accepted. Qed.
Print Assumptions C41_accepted.

Theorem C41_stored_once : forall ok last l, increasing (accepted ok last l).
Proof. exact final_C41_increasing. Qed.
Print Assumptions C41_stored_once.

Example C41_accepted_example :
  given (ytrace x_late) = [y11; y12; y21; y21] /\ accepted (fun _ => true) y_none (given (ytrace x_late)) = [y11; y12; y21].
Proof. vm_compute. auto. Qed.

(** C41.  A synchronization that has not been closed can always be finished. *)
Theorem C41_can_finish : forall sv last0 tr s, sync_run sv last0 tr s -> ~ In YClose (map fst tr) ->
    exists tr' s', sync_run sv last0 (tr ++ tr') s' /\ quiet tr' /\ finished (tr ++ tr').
Proof. exact final_C41_can. Qed.
Print Assumptions C41_can_finish.

Example C41_can_finish_example :
  let tr := ytrace (firstn 9 x_sync) in sync_run 7 y_none tr (yend_of (firstn 9 x_sync)) /\ ~ In YClose (map fst tr) /\ told tr = [(CONNECTED, None)].
Proof.
  cbv zeta. split; [apply yplayed; vm_compute; reflexivity|]. split; [apply not_closed; vm_compute; reflexivity|vm_compute; reflexivity].
Qed.

(** C42.  Batches given by query are of one session each. *)
Theorem C42_one : forall sv last0 tr s, sync_run sv last0 tr s -> Forall (fun es => es <> [] /\ one_session es) (gives FromQuery tr).
Proof. exact final_C42_one. Qed.
Print Assumptions C42_one.

(** C42.  No session is in two of them, however pages cut it. *)
Theorem C42_apart : forall sv last0 tr s, sync_run sv last0 tr s -> apart (gives FromQuery tr).
Proof. exact final_C42_apart. Qed.
Print Assumptions C42_apart.

(** C42.  One after the other they are the pages received; in the end all of
    them. *)
Theorem C42_pages : forall sv last0 tr s, sync_run sv last0 tr s -> exists r, concat (map qr_events (pages tr)) = concat (gives FromQuery tr) ++ r.
Proof. exact final_C42_pages. Qed.
Print Assumptions C42_pages.

Theorem C42_finished : forall sv last0 tr s, sync_run sv last0 tr s -> finished tr -> concat (gives FromQuery tr) = concat (map qr_events (pages tr)).
Proof. exact final_C42_finished. Qed.
Print Assumptions C42_finished.

(** A page that ends within a session. *)
Example C42_example :
  let ops := [RConnect; YBegin; RCommit [(y11, true)]; RCommit [(y12, true); (y21, true)]; RCommit [(y31, true)]; YGo; RQuery 1; RRespond; YRecv; YWake; YGo;
              RQuery 9; RRespond; YRecv; YWake; YGo; YGo; YGo] in
  sync_run 7 y_none (ytrace ops) (yend_of ops) /\ pages (ytrace ops) = [QRes [y11] true; QRes [y12; y21; y31] false] /\
  gives FromQuery (ytrace ops) = [[y11; y12]; [y21]; [y31]] /\ finished (ytrace ops).
Proof.
  cbv zeta. split; [apply yplayed; vm_compute; reflexivity|]. split; [vm_compute; reflexivity|]. split; [vm_compute; reflexivity|]. exists (Some 4). vm_compute. auto.
Qed.

(** C54.  Synced states are told in this order: connected, synchronizing if
    events come, synchronized with the number of events that came by query. *)
Theorem C54_told : forall sv last0 tr s, sync_run sv last0 tr s -> exists r, told tr ++ r = synced_seq (length (concat (map qr_events (pages tr)))).
Proof. exact final_C54_told. Qed.
Print Assumptions C54_told.

Theorem C54_finished : forall sv last0 tr s, sync_run sv last0 tr s -> finished tr -> told tr = synced_seq (length (concat (gives FromQuery tr))).
Proof. exact final_C54_finished. Qed.
Print Assumptions C54_finished.

(** C54.  Events are given by query after "synchronizing" was told and before
    "synchronized" is, from the queue before the latter, upon notification
    after it. *)
Theorem C54_when : forall sv last0 a o l b s, sync_run sv last0 (a ++ (o, l) :: b) s -> forall w es, In (Give w es) l ->
    match w with
    | FromNotify => finished a
    | FromQueue => In (CONNECTED, None) (told a) /\ ~ finished a
    | FromQuery => In (SYNCING, None) (told a) /\ ~ finished a
    end.
Proof. exact final_C54_when. Qed.
Print Assumptions C54_when.

Example C54_example : told (ytrace x_sync) = [(CONNECTED, None); (SYNCING, None); (SYNCED, Some 3)].
Proof. vm_compute. reflexivity. Qed.

Example C54_empty_example :
  let ops := [RConnect; YBegin; YGo; RQuery 5; RRespond; YRecv; YWake] in
  sync_run 7 y_none (ytrace ops) (yend_of ops) /\ told (ytrace ops) = [(CONNECTED, None); (SYNCED, Some 0)].
Proof. cbv zeta. split; [apply yplayed; vm_compute; reflexivity|vm_compute; reflexivity]. Qed.
