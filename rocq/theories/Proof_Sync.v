(** Synchronization: traces, transport of notifications. *)
From Coq Require Import String Bool ZArith Arith Lia Sorted List.
From Verif Require Import Base Model_Types Model_Sync Spec_Sync.
Import ListNotations.
Open Scope string_scope.
Open Scope list_scope.
Open Scope nat_scope.

Lemma youts_snoc : forall tr o l, youts (tr ++ [(o, l)]) = youts tr ++ l.
Proof. intros. unfold youts. rewrite flat_map_app. cbn. now rewrite app_nil_r. Qed.
Lemma commits_snoc : forall tr o l, commits (tr ++ [(o, l)]) = commits tr ++ match o with RCommit b => [b] | _ => [] end.
Proof. intros. unfold commits. rewrite flat_map_app. cbn. now rewrite app_nil_r. Qed.
Definition gives_in (w : origin) (l : list yout) : list (list event) :=
  flat_map (fun x => match x with Give v es => if origin_eqb v w then [es] else [] | _ => [] end) l.
Lemma gives_snoc : forall w tr o l, gives w (tr ++ [(o, l)]) = gives w tr ++ gives_in w l.
Proof. intros. unfold gives, gives_in. rewrite youts_snoc. apply flat_map_app. Qed.
Definition given_in (l : list yout) : list event := flat_map (fun x => match x with Give _ es => es | _ => [] end) l.
Lemma given_snoc : forall tr o l, given (tr ++ [(o, l)]) = given tr ++ given_in l.
Proof. intros. unfold given, given_in. rewrite youts_snoc. apply flat_map_app. Qed.
Definition pages_in (l : list yout) : list query_result := flat_map (fun x => match x with Answered q => [q] | _ => [] end) l.
Lemma pages_snoc : forall tr o l, pages (tr ++ [(o, l)]) = pages tr ++ pages_in l.
Proof. intros. unfold pages, pages_in. rewrite youts_snoc. apply flat_map_app. Qed.
Definition sent_in (l : list yout) := flat_map (fun x => match x with Sent b => [b] | _ => [] end) l.
Lemma sent_snoc : forall tr o l, sent (tr ++ [(o, l)]) = sent tr ++ sent_in l.
Proof. intros. unfold sent, sent_in. rewrite youts_snoc. apply flat_map_app. Qed.
Definition unsent_in (l : list yout) := flat_map (fun x => match x with Unsent b => [b] | _ => [] end) l.
Lemma unsent_snoc : forall tr o l, unsent (tr ++ [(o, l)]) = unsent tr ++ unsent_in l.
Proof. intros. unfold unsent, unsent_in. rewrite youts_snoc. apply flat_map_app. Qed.
Definition recvd_in (l : list yout) := flat_map (fun x => match x with Recvd b => [b] | _ => [] end) l.
Lemma recvd_snoc : forall tr o l, recvd (tr ++ [(o, l)]) = recvd tr ++ recvd_in l.
Proof. intros. unfold recvd, recvd_in. rewrite youts_snoc. apply flat_map_app. Qed.
Definition told_in (l : list yout) := flat_map (fun x => match x with Told st n => [(st, n)] | _ => [] end) l.
Lemma told_snoc : forall tr o l, told (tr ++ [(o, l)]) = told tr ++ told_in l.
Proof. intros. unfold told, told_in. rewrite youts_snoc. apply flat_map_app. Qed.

Ltac snocs := rewrite ?youts_snoc, ?commits_snoc, ?gives_snoc, ?given_snoc, ?pages_snoc, ?sent_snoc, ?unsent_snoc, ?recvd_snoc, ?told_snoc.
Ltac snocs_in H := rewrite ?youts_snoc, ?commits_snoc, ?gives_snoc, ?given_snoc, ?pages_snoc, ?sent_snoc, ?unsent_snoc, ?recvd_snoc, ?told_snoc in H.
Ltac shrink := cbn [gives_in given_in pages_in sent_in unsent_in recvd_in told_in flat_map origin_eqb app map length]; rewrite ?app_nil_r.

(** The number of commits when the last page was answered. *)
Definition is_last (x : yout) : bool := match x with Answered (QRes _ false) => true | _ => false end.
Fixpoint fin_from (n : nat) (r : option nat) (tr : list yitem) : option nat :=
  match tr with
  | [] => r
  | (o, l) :: tr' =>
      fin_from (n + match o with RCommit _ => 1 | _ => 0 end) (if existsb is_last l then Some n else r) tr'
  end.
Definition fin (tr : list yitem) : option nat := fin_from 0 None tr.
Lemma fin_from_app : forall tr n r o l, fin_from n r (tr ++ [(o, l)]) = if existsb is_last l then Some (n + length (commits tr)) else fin_from n r tr.
Proof.
  induction tr as [|[o' l'] tr IH]; intros n r o l; cbn [fin_from app].
  - cbn. now rewrite Nat.add_0_r.
  - rewrite IH. destruct (existsb is_last l); auto. unfold commits. cbn [flat_map fst]. rewrite app_length. destruct o'; cbn [length]; f_equal; lia.
Qed.
Lemma fin_snoc : forall tr o l, fin (tr ++ [(o, l)]) = if existsb is_last l then Some (length (commits tr)) else fin tr.
Proof. intros. unfold fin. now rewrite fin_from_app. Qed.

(** Cases of a step. *)
Inductive turn (s : ystate) : ystate -> list yout -> Prop :=
| turn_loop : forall e r, y_ev s = e :: r -> eid_session (ev_id e) <> eid_session (last_id (ev_id e) (y_ev s)) ->
    turn s (y_set s PLoop (snd (span_session (eid_session (ev_id e)) (y_ev s))) (y_last s) (y_queue s))
      [Give FromQuery (fst (span_session (eid_session (ev_id e)) (y_ev s)))]
| turn_ask : y_more s = true -> (forall e r, y_ev s = e :: r -> eid_session (ev_id e) = eid_session (last_id (ev_id e) (y_ev s))) ->
    turn s (fst (ask s)) [Asked (y_last s)]
| turn_final : forall e r, y_more s = false -> y_ev s = e :: r -> eid_session (ev_id e) = eid_session (last_id (ev_id e) (y_ev s)) ->
    turn s (y_set s PFinal [] (y_last s) (y_queue s)) [Give FromQuery (y_ev s)]
| turn_drain : y_more s = false -> y_ev s = [] -> turn s (fst (drain s)) (snd (drain s)).

Lemma sessions_turn : forall s, turn s (fst (sessions s)) (snd (sessions s)).
Proof.
  intros s. unfold sessions. destruct (y_ev s) as [|e r] eqn:E.
  - unfold next. rewrite E. destruct (y_more s) eqn:M; [|now apply turn_drain]. apply turn_ask; auto. intros e r H. congruence.
  - cbv zeta. destruct (Z.eqb_spec (eid_session (ev_id e)) (eid_session (last_id (ev_id e) (e :: r)))) as [H|H].
    + unfold next. rewrite E. destruct (y_more s) eqn:M.
      * apply turn_ask; auto. intros e' r' H'. rewrite E in H'. injection H' as <- <-. now rewrite E.
      * cbn [fst snd]. replace (Give FromQuery (e :: r)) with (Give FromQuery (y_ev s)) by now rewrite E. eapply turn_final; eauto. now rewrite E.
    + cbn [fst snd]. rewrite <- E. eapply turn_loop; eauto. now rewrite E.
Qed.

Inductive dturn (s : ystate) : ystate -> list yout -> Prop :=
| dturn_give : forall q es q', next_queued (y_last s) (match y_queue s with Some q => q | None => [] end) = Some (es, q') ->
    q = q' -> dturn s (y_set s PDrain [] (y_last s) (Some q')) [Give FromQueue es]
| dturn_done : next_queued (y_last s) (match y_queue s with Some q => q | None => [] end) = None ->
    dturn s (y_set s PDone [] (y_last s) None) [Told SYNCED (Some (y_count s))].
Lemma drain_turn : forall s, dturn s (fst (drain s)) (snd (drain s)).
Proof.
  intros s. unfold drain. destruct (next_queued _ _) as [[es q]|] eqn:E; cbn [fst snd]; [eapply dturn_give; eauto|now apply dturn_done].
Qed.

(** A step, with the code of [_synchronize] up to the next [await] in one
    premise. *)
Definition woken (s : ystate) (q : query_result) : ystate :=
  YState (r_stored s) (r_top s) (r_lag s) (r_up s) (r_req s) (r_resp s) (r_chan s)
    PSync (y_ev s ++ qr_events q) (y_last s) (qr_more q) (y_count s + length (qr_events q)) (y_queue s) (y_busy s).
Definition updated (s : ystate) : ystate := y_set s (y_phase s) (y_ev s) (last_id (y_last s) (y_ev s)) (y_queue s).

Inductive ycase (sv : Z) (last0 : event_id) (s : ystate) : yop -> ystate -> list yout -> Prop :=
| yc_commit : forall b, growing sv (r_top s) (map fst b) = true ->
    ycase sv last0 s (RCommit b) (y_remote s (r_stored s ++ map fst (filter snd b)) (last_id (r_top s) (map fst b)) (r_lag s ++ [map fst b]) (r_up s) (r_req s) (r_resp s) (r_chan s)) []
| yc_clean : forall i, ycase sv last0 s (RClean i)
    (y_remote s (filter (fun e => negb (eid_eqb i (ev_id e))) (r_stored s)) (r_top s) (r_lag s) (r_up s) (r_req s) (r_resp s) (r_chan s)) []
| yc_notify : forall b lag, r_lag s = b :: lag -> r_up s = true ->
    ycase sv last0 s RNotify (y_remote s (r_stored s) (r_top s) lag (r_up s) (r_req s) (r_resp s) (r_chan s ++ [YNote b])) [Sent b]
| yc_miss : forall b lag, r_lag s = b :: lag -> r_up s = false ->
    ycase sv last0 s RNotify (y_remote s (r_stored s) (r_top s) lag (r_up s) (r_req s) (r_resp s) (r_chan s)) [Unsent b]
| yc_connect : r_up s = false ->
    ycase sv last0 s RConnect (y_remote s (r_stored s) (r_top s) (r_lag s) true (r_req s) (r_resp s) (r_chan s)) []
| yc_query : forall k i, r_req s = Some i ->
    ycase sv last0 s (RQuery k)
      (y_remote s (r_stored s) (r_top s) (r_lag s) (r_up s) None
        (Some (QRes (firstn k (filter (newer i) (r_stored s))) (Nat.ltb k (length (filter (newer i) (r_stored s)))))) (r_chan s))
      [Answered (QRes (firstn k (filter (newer i) (r_stored s))) (Nat.ltb k (length (filter (newer i) (r_stored s)))))]
| yc_respond : forall q, r_resp s = Some q ->
    ycase sv last0 s RRespond (y_remote s (r_stored s) (r_top s) (r_lag s) (r_up s) (r_req s) None (r_chan s ++ [YResult q])) []
| yc_begin : y_phase s = PNew -> r_up s = true -> ycase sv last0 s YBegin (y_set s PConn [] last0 (y_queue s)) [Told CONNECTED None]
| yc_ask : y_phase s = PConn -> ycase sv last0 s YGo (fst (ask s)) [Asked (y_last s)]
| yc_sync : forall s' l, y_phase s = PSync -> turn (updated s) s' l -> ycase sv last0 s YGo s' l
| yc_loop : forall s' l, y_phase s = PLoop -> turn s s' l -> ycase sv last0 s YGo s' l
| yc_drain : forall s' l, y_phase s = PFinal \/ y_phase s = PDrain -> dturn s s' l -> ycase sv last0 s YGo s' l
| yc_first : forall q, y_phase s = PResp q -> qr_events q <> [] -> y_count s = 0 -> ycase sv last0 s YWake (woken s q) [Told SYNCING None]
| yc_wake : forall q s' l, y_phase s = PResp q -> qr_events q = [] \/ y_count s <> 0 -> turn (updated (woken s q)) s' l -> ycase sv last0 s YWake s' l
| yc_queue : forall b chan q, y_busy s = false -> r_chan s = YNote b :: chan -> y_queue s = Some q ->
    ycase sv last0 s YRecv
      (YState (r_stored s) (r_top s) (r_lag s) (r_up s) (r_req s) (r_resp s) chan
         (y_phase s) (y_ev s) (y_last s) (y_more s) (y_count s) (Some (q ++ [b])) (y_busy s)) [Recvd b]
| yc_pass : forall b chan, y_busy s = false -> r_chan s = YNote b :: chan -> y_queue s = None ->
    ycase sv last0 s YRecv
      (YState (r_stored s) (r_top s) (r_lag s) (r_up s) (r_req s) (r_resp s) chan
         (y_phase s) (y_ev s) (y_last s) (y_more s) (y_count s) None true) [Recvd b; Give FromNotify b]
| yc_result : forall q chan, y_busy s = false -> r_chan s = YResult q :: chan -> y_phase s = PAsk ->
    ycase sv last0 s YRecv
      (YState (r_stored s) (r_top s) (r_lag s) (r_up s) (r_req s) (r_resp s) chan
         (PResp q) (y_ev s) (y_last s) (y_more s) (y_count s) (y_queue s) (y_busy s)) []
| yc_ignored : forall q chan, y_busy s = false -> r_chan s = YResult q :: chan -> y_phase s <> PAsk ->
    ycase sv last0 s YRecv
      (YState (r_stored s) (r_top s) (r_lag s) (r_up s) (r_req s) (r_resp s) chan
         (y_phase s) (y_ev s) (y_last s) (y_more s) (y_count s) (y_queue s) (y_busy s)) []
| yc_done : y_busy s = true ->
    ycase sv last0 s YDone
      (YState (r_stored s) (r_top s) (r_lag s) (r_up s) (r_req s) (r_resp s) (r_chan s)
         (y_phase s) (y_ev s) (y_last s) (y_more s) (y_count s) (y_queue s) false) []
| yc_close : ycase sv last0 s YClose (y_set s PEnd (y_ev s) (y_last s) (y_queue s)) [].

Lemma pair_eq : forall (A B : Type) (p : A * B) a b, Some p = Some (a, b) -> a = fst p /\ b = snd p.
Proof. intros A B [x y] a b H. now injection H as -> ->. Qed.

Lemma yexec_case : forall sv last0 s o s' l, yexec sv last0 s o = Some (s', l) -> y_phase s <> PEnd /\ ycase sv last0 s o s' l.
Proof.
  intros sv last0 s o s' l H. split.
  { intros E. unfold yexec in H. rewrite E in H. discriminate. }
  unfold yexec in H.
  assert (H' : y_phase s <> PEnd) by (intros E; rewrite E in H; discriminate).
  destruct o.
  - assert (E : (if growing sv (r_top s) (map fst b) then
        Some (y_remote s (r_stored s ++ map fst (filter snd b)) (last_id (r_top s) (map fst b)) (r_lag s ++ [map fst b]) (r_up s) (r_req s) (r_resp s) (r_chan s), @nil yout) else None) = Some (s', l))
      by (destruct (y_phase s); auto; discriminate).
    destruct (growing sv (r_top s) (map fst b)) eqn:G; [|discriminate]. injection E as <- <-. now constructor.
  - assert (E : Some (y_remote s (filter (fun e => negb (eid_eqb i (ev_id e))) (r_stored s)) (r_top s) (r_lag s) (r_up s) (r_req s) (r_resp s) (r_chan s), @nil yout) = Some (s', l))
      by (destruct (y_phase s); auto; discriminate). injection E as <- <-. constructor.
  - destruct (r_lag s) as [|b lag] eqn:L; [destruct (y_phase s); discriminate|]. destruct (r_up s) eqn:U.
    + assert (E : Some (y_remote s (r_stored s) (r_top s) lag true (r_req s) (r_resp s) (r_chan s ++ [YNote b]), [Sent b]) = Some (s', l)) by (destruct (y_phase s); auto; discriminate).
      injection E as <- <-. rewrite <- U. now apply yc_notify.
    + assert (E : Some (y_remote s (r_stored s) (r_top s) lag false (r_req s) (r_resp s) (r_chan s), [Unsent b]) = Some (s', l)) by (destruct (y_phase s); auto; discriminate).
      injection E as <- <-. rewrite <- U. now apply yc_miss.
  - destruct (r_up s) eqn:U; [destruct (y_phase s); discriminate|].
    assert (E : Some (y_remote s (r_stored s) (r_top s) (r_lag s) true (r_req s) (r_resp s) (r_chan s), @nil yout) = Some (s', l)) by (destruct (y_phase s); auto; discriminate).
    injection E as <- <-. now constructor.
  - destruct (r_req s) as [i|] eqn:Q; [|destruct (y_phase s); discriminate].
    match goal with _ : context [Some (?x, ?y)] |- _ => assert (E : Some (x, y) = Some (s', l)) by (destruct (y_phase s); auto; discriminate) end.
    injection E as <- <-. now constructor.
  - destruct (r_resp s) as [q|] eqn:Q; [|destruct (y_phase s); discriminate].
    match goal with _ : context [Some (?x, ?y)] |- _ => assert (E : Some (x, y) = Some (s', l)) by (destruct (y_phase s); auto; discriminate) end.
    injection E as <- <-. now constructor.
  - destruct (y_phase s) eqn:P; try discriminate. destruct (r_up s) eqn:U; [|discriminate]. injection H as <- <-. now constructor.
  - destruct (y_phase s) eqn:P; try discriminate; apply pair_eq in H as [-> ->].
    + now constructor.
    + apply yc_sync; auto. unfold advance. apply sessions_turn.
    + apply yc_loop; auto. apply sessions_turn.
    + apply yc_drain; auto. apply drain_turn.
    + apply yc_drain; auto. apply drain_turn.
  - destruct (y_phase s) eqn:P; try discriminate. destruct (qr_events q) as [|e r] eqn:Q.
    + apply pair_eq in H as [-> ->]. eapply yc_wake; eauto. unfold woken. rewrite Q. unfold advance. apply sessions_turn.
    + destruct (Nat.eqb_spec (y_count s) 0) as [C|C].
      * injection H as <- <-. pose proof (yc_first sv last0 s q P) as H1. unfold woken in H1. rewrite Q in H1. apply H1; auto. discriminate.
      * apply pair_eq in H as [-> ->]. eapply yc_wake; eauto. unfold woken. rewrite Q. unfold advance. apply sessions_turn.
  - destruct (y_busy s) eqn:B; [destruct (y_phase s); discriminate|]. destruct (r_chan s) as [|[b|q] chan] eqn:C; [destruct (y_phase s); discriminate| |].
    + destruct (y_queue s) as [q|] eqn:Q.
      * match goal with _ : context [Some (?x, [Recvd ?y])] |- _ => assert (E : Some (x, [Recvd y]) = Some (s', l)) by (destruct (y_phase s); auto; discriminate) end.
        injection E as <- <-. unfold y_set, y_remote; cbn [r_stored r_top r_lag r_up r_req r_resp r_chan y_more y_count y_busy].
        pose proof (yc_queue sv last0 s b chan q) as H1. rewrite B in *. auto.
      * match goal with _ : context [Some (?x, ?y)] |- _ => assert (E : Some (x, y) = Some (s', l)) by (destruct (y_phase s); auto; discriminate) end.
        injection E as <- <-. now apply yc_pass.
    + pose proof (yc_result sv last0 s q chan B C) as H1. pose proof (yc_ignored sv last0 s q chan B C) as H2. rewrite ?B in H1, H2.
      destruct (y_phase s) eqn:P; try (now destruct H'); injection H as <- <-; unfold y_set, y_remote;
        cbn [r_stored r_top r_lag r_up r_req r_resp r_chan y_phase y_ev y_last y_queue y_more y_count y_busy]; rewrite ?B, ?P;
        first [apply H1; reflexivity | apply H2; discriminate].
  - destruct (y_busy s) eqn:B; [|destruct (y_phase s); discriminate].
    match goal with _ : context [Some (?x, ?y)] |- _ => assert (E : Some (x, y) = Some (s', l)) by (destruct (y_phase s); auto; discriminate) end.
    injection E as <- <-. now constructor.
  - match goal with _ : context [Some (?x, ?y)] |- _ => assert (E : Some (x, y) = Some (s', l)) by (destruct (y_phase s); auto; discriminate) end.
    injection E as <- <-. now constructor.
Qed.
