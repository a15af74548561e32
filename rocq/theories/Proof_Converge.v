(** Two servers that are left alone: where the client is. *)
From Coq Require Import String Bool ZArith Arith Lia Sorted Permutation List.
From Verif Require Import Base Kv Model_Types Model_Codec Keys Spec_Order Proof_Order Model_Lmdb Model_LmdbSys Spec_Lmdb Spec_LmdbContent Spec_LmdbQuery
  Proof_Lmdb3 Proof_Lmdb4 Proof_Lmdb7 Proof_Lmdb8 Proof_Lmdb9 Proof_Lmdb10 Proof_Lmdb12 Proof_Lmdb13 Proof_Lmdb14 Proof_Lmdb15 Model_LmdbFlush Spec_LmdbFlush Proof_LmdbFlush Proof_LmdbFlush4
  Model_Sync Spec_Sync Proof_Sync Proof_Sync2 Proof_Sync3 Proof_Sync4 Proof_Sync5 Proof_Sync6 Model_Replica Spec_Replica Proof_Replica Proof_Replica2 Proof_Replica3 Proof_Replica4 Proof_Replica5
  Model_Pair Spec_Pair Proof_Pair Proof_Pair2 Proof_Pair3 Proof_Pair4 Proof_Pair5 Proof_Pair6 Proof_Pair7 Proof_Pair8 Spec_Converge.
Import ListNotations.
Open Scope list_scope.
Open Scope nat_scope.

(** Own events the remote has taken since its last restart or written before. *)
Definition taken_own (sv : Z) (A : list (op * out)) : list event := own sv (w_ended A ++ concat (w_going A) ++ w_waits A).

Definition nothing (query : option nat) (c : ystate) : Prop := query = None /\ r_req c = None /\ wired c = [].

Record shape (sv : Z) (U : list event) (query : option nat) (c : ystate) : Prop := {
  sh_up : r_up c = false -> y_phase c = PNew;
  sh_ev : Forall (fun e => eid_server (ev_id e) = sv) (y_ev c ++ match y_phase c with PResp q => qr_events q | _ => [] end);
  sh_ph : match y_phase c with
          | PNew | PConn => nothing query c /\ y_ev c = []
          | PAsk => last_id (y_last c) (y_ev c) = y_last c /\
              ((query = None /\ r_req c = Some (y_last c) /\ wired c = []) \/
               ((exists n, query = Some n) /\ r_req c = None /\ wired c = []) \/
               (query = None /\ r_req c = None /\ exists q, wired c = [q] /\ incl (qr_events q) U /\ NoDup (qr_events q) /\ above (y_last c) (qr_events q) /\ increasing (qr_events q)))
          | PResp q => nothing query c /\ last_id (y_last c) (y_ev c) = y_last c
          | PSync | PLoop => nothing query c
          | PFinal | PDrain | PDone => nothing query c /\ y_ev c = []
          | PEnd => False
          end }.

Lemma above_after : forall L l es, above L (l ++ es) -> increasing (l ++ es) -> above (last_id L l) es.
Proof.
  intros L l es HA HI. destruct l as [|e l].
  - exact HA.
  - destruct (last_id_in L (e :: l)) as (x & Hx & ->); [discriminate|]. apply increasing_inv in HI as (_ & _ & HI). apply Forall_forall. intros b Hb. exact (HI x b Hx Hb).
Qed.

Lemma pair_shape : forall OA OB cfA cfB sv tr st, paired OA OB cfA cfB sv tr st -> restarts_ok cfA sv tr ->
    shape sv (taken_own sv (remote_part tr)) (d_query st) (d_client st).
Proof.
  intros * (HP & PO & CA & EA & KA & CB & EB) RO. destruct (pair_joint _ _ _ _ _ _ _ HP PO CA EA KA CB EB RO) as (tr' & y & J).
  destruct J as [J1 J2 J3 J4 J5 J6 J7 J8 J9 J10 J11 J12 J13 J14].
  assert (RP : replicated OB cfB sv tr' y (d_local st)) by (split; [exact J1|rewrite J12; auto]).
  destruct (src_run _ _ _ _ _ _ RP J14) as [[L HR] _].
  pose proof (yflow_run _ _ _ _ HR) as Y. pose proof (ypage_run _ _ _ _ HR) as G. pose proof (ynote_run _ _ _ _ HR) as N. pose proof (ydone_run _ _ _ _ HR) as D.
  assert (PH : y_phase y = y_phase (d_client st)) by (rewrite J2; reflexivity).
  assert (EV : y_ev y = y_ev (d_client st)) by (rewrite J2; reflexivity).
  assert (LA : y_last y = y_last (d_client st)) by (rewrite J2; reflexivity).
  assert (CH : r_chan y = r_chan (d_client st)) by (rewrite J2; reflexivity).
  assert (UP : r_up y = r_up (d_client st)) by (rewrite J2; reflexivity).
  assert (SP : pcat (viewed tr') = concat (gives FromQuery (viewed tr')) ++ y_ev y ++ Proof_Sync4.coming y) by (apply (g_split _ _ _ G); congruence).
  assert (SV : forall e, In e (pcat (viewed tr')) -> eid_server (ev_id e) = sv /\ In e (taken_own sv (remote_part tr))).
  { intros e He. apply (d_sub _ _ D) in He. split; [exact (proj1 (call_sv _ _ _ _ _ HR He))|]. rewrite viewed_call in He. rewrite J10 in He.
    unfold taken_own. rewrite own_app. apply in_or_app. now left. }
  constructor.
  - intros E. destruct (n_up _ _ _ N) as [_ [E2|E2]]; congruence.
  - apply Forall_forall. intros e He. apply SV. rewrite SP. apply in_or_app. right. rewrite EV. apply in_app_or in He as [He|He]; apply in_or_app; [now left|right].
    unfold Proof_Sync4.coming. rewrite PH. apply in_or_app. left. destruct (y_phase (d_client st)); try destruct He. exact He.
  - pose proof (g_last _ _ _ G) as GL. unfold yflow in Y. rewrite PH in *. rewrite LA, EV in *. unfold nothing.
    assert (Q0 : r_req y = None -> wired y = [] -> d_query st = None /\ r_req (d_client st) = None /\ wired (d_client st) = []).
    { intros E1 E2. unfold wired in *. apply app_eq_nil in E2 as [E2 E3]. unfold qrel in J4. destruct (d_query st) as [n|].
      - exfalso. destruct J4 as (_ & _ & last & max & g & _ & [(_ & B & _)|(es & res & _ & _ & _ & B)]); [congruence|]. rewrite B in E3. discriminate.
      - destruct J4 as [B1 B2]. rewrite B1 in E1. rewrite B2 in E3. rewrite CH in E2. rewrite E1, E2, E3. auto. }
    destruct (y_phase (d_client st)) eqn:EP; try congruence.
    + destruct Y as (Y1 & Y2 & _ & _ & _ & _ & Y3). auto.
    + destruct Y as (Y1 & Y2 & _ & _ & _ & _ & Y3). auto.
    + split.
      { rewrite GL. pose proof (last_twice L (concat (gives FromQuery (viewed tr'))) (y_ev (d_client st)) []) as T. rewrite !app_nil_r in T. exact T. }
      destruct Y as (_ & [(Y1 & Y2 & _)|(Y1 & q & Y2 & _)]).
      * unfold wired in *. apply app_eq_nil in Y2 as [Y2 Y3]. unfold qrel in J4. rewrite CH in Y2. destruct (d_query st) as [n|].
        -- right. left. destruct J4 as (B1 & B2 & _). split; [eauto|]. rewrite B2, Y2. auto.
        -- left. destruct J4 as (B1 & B2). rewrite <- B1, <- B2, Y2. destruct (r_resp y); [discriminate Y3|]. auto.
      * unfold qrel in J4. destruct (d_query st) as [n|].
        -- right. left. destruct J4 as (B1 & B2 & last & max & g & _ & [(_ & B & _)|(es & res & _ & _ & _ & B)]); [congruence|]. split; [eauto|]. split; [exact B1|].
           unfold wired in *. rewrite B in Y2. rewrite B2. rewrite <- CH. destruct (results_of (r_chan y)) as [|z zs]; [reflexivity|]. destruct zs; discriminate.
        -- right. right. destruct J4 as (B1 & B2). split; [reflexivity|]. split; [congruence|]. exists q.
           assert (W : wired (d_client st) = [q]) by (unfold wired in *; rewrite <- B2, <- CH; exact Y2). split; [exact W|].
           assert (CO : Proof_Sync4.coming y = qr_events q) by (unfold Proof_Sync4.coming; rewrite PH, Y2; cbn [map concat app]; apply app_nil_r).
           rewrite CO, app_assoc in SP. assert (IN : increasing (qr_events q)) by (pose proof (d_inc _ _ D) as I; rewrite SP in I; apply increasing_inv in I; tauto).
           split; [intros e He; apply SV; rewrite SP; apply in_or_app; now right|]. split; [now apply increasing_NoDup|]. split; [|exact IN].
           rewrite GL. apply above_after; rewrite <- SP; apply D.
    + destruct Y as (_ & Y1 & Y2 & _). split; [auto|]. rewrite GL. pose proof (last_twice L (concat (gives FromQuery (viewed tr'))) (y_ev (d_client st)) []) as T. rewrite !app_nil_r in T. exact T.
    + destruct Y as (Y1 & Y2 & _). auto.
    + destruct Y as (Y1 & Y2 & _). auto.
    + destruct Y as (Y1 & Y2 & _ & _ & Y3). auto.
    + destruct Y as (Y1 & Y2 & _ & _ & Y3). auto.
    + destruct Y as (Y1 & Y2 & _ & _ & Y3). auto.
Qed.
