(** Two servers, one of which follows the other one: the abstract remote does
    what the remote does. *)
From Coq Require Import String Bool ZArith Arith Lia Sorted Permutation List.
From Verif Require Import Base Kv Model_Types Model_Codec Keys Spec_Order Proof_Order Model_Lmdb Model_LmdbSys Spec_Lmdb Spec_LmdbContent Spec_LmdbQuery
  Proof_Lmdb3 Proof_Lmdb4 Proof_Lmdb7 Proof_Lmdb8 Proof_Lmdb9 Proof_Lmdb10 Proof_Lmdb12 Proof_Lmdb13 Proof_Lmdb14 Proof_Lmdb15 Model_LmdbFlush Spec_LmdbFlush Proof_LmdbFlush Proof_LmdbFlush4
  Model_Sync Spec_Sync Proof_Sync Proof_Sync2 Proof_Sync3 Proof_Sync4 Proof_Sync5 Proof_Sync6 Model_Replica Spec_Replica Proof_Replica Proof_Replica2 Proof_Replica3 Proof_Replica4 Proof_Replica5
  Model_Pair Spec_Pair Proof_Pair Proof_Pair2 Proof_Pair3.
Import ListNotations.
Open Scope list_scope.
Open Scope nat_scope.

(** ** Lists in order *)

Lemma inc_same : forall l a b, increasing l -> In a l -> In b l -> ev_id a = ev_id b -> a = b.
Proof.
  intros l a b H. induction H as [|x l H IH F]; intros Ha Hb E; [destruct Ha|]. rewrite Forall_forall in F.
  destruct Ha as [->|Ha], Hb as [->|Hb]; auto.
  - specialize (F _ Hb). unfold id_lt in F. rewrite E in F. rewrite ltb_irrefl in F. discriminate.
  - specialize (F _ Ha). unfold id_lt in F. rewrite E in F. rewrite ltb_irrefl in F. discriminate.
Qed.

Lemma inc_eq : forall a b, increasing a -> increasing b -> (forall e, In e a <-> In e b) -> a = b.
Proof.
  induction a as [|x a IH]; intros b Ha Hb H.
  - destruct b as [|y b]; [reflexivity|]. destruct (proj2 (H y)). now left.
  - destruct b as [|y b]; [destruct (proj1 (H x)); now left|]. inversion Ha as [|? ? Ha1 Ha2]; subst. inversion Hb as [|? ? Hb1 Hb2]; subst.
    rewrite Forall_forall in *.
    assert (N : forall u v, id_lt u v -> id_lt v u -> False).
    { intros u v A B. unfold id_lt in *. pose proof (ltb_trans _ _ _ A B) as C. rewrite ltb_irrefl in C. discriminate. }
    assert (x = y) as <-.
    { destruct (proj1 (H x) (or_introl eq_refl)) as [->|X]; auto. destruct (proj2 (H y) (or_introl eq_refl)) as [->|Y]; auto. exfalso. eauto. }
    f_equal. apply IH; auto. intros e. split; intros He.
    + destruct (proj1 (H e) (or_intror He)) as [->|X]; auto. exfalso. specialize (Ha2 _ He). unfold id_lt in Ha2. rewrite ltb_irrefl in Ha2. discriminate.
    + destruct (proj2 (H e) (or_intror He)) as [->|X]; auto. exfalso. specialize (Hb2 _ He). unfold id_lt in Hb2. rewrite ltb_irrefl in Hb2. discriminate.
Qed.

Lemma same_id : forall H a b, hist_ok H -> In a (map en_ev H) -> In b (map en_ev H) -> ev_id a = ev_id b -> a = b.
Proof.
  intros H a b Ho Ha Hb E. apply (inc_same (filter (fun e => Z.eqb (eid_server (ev_id e)) (eid_server (ev_id a))) (map en_ev H))); auto.
  - now apply hist_filter.
  - apply filter_In. split; auto. apply Z.eqb_refl.
  - apply filter_In. split; auto. rewrite E. apply Z.eqb_refl.
Qed.

(** Flags of the accepted events. *)
Definition flag (m : list event) (e : event) : bool := existsb (fun x => eid_eqb (ev_id e) (ev_id x)) m.
Lemma flag_In : forall m e, flag m e = true <-> exists x, In x m /\ ev_id x = ev_id e.
Proof.
  intros m e. unfold flag. rewrite existsb_exists. split; intros (x & A & B); exists x; split; auto; [symmetry; now apply eid_eqb_spec|now apply eid_eqb_spec].
Qed.
Lemma flag_filter : forall m l, increasing l -> subseq m l -> filter (flag m) l = m.
Proof.
  intros m l Hl Hs. apply inc_eq; [now apply increasing_filter|eapply sorted_subseq; eauto|]. intros e. rewrite filter_In, flag_In. split.
  - intros (He & x & Hx & E). rewrite (inc_same l e x); auto. eapply subseq_In; eauto.
  - intros He. split; [eapply subseq_In; eauto|eauto].
Qed.

Definition projs (sv : Z) (bs : list (list event)) : list (list event) :=
  flat_map (fun b => match own sv b with [] => [] | es => [es] end) bs.
Lemma projs_concat : forall sv bs, concat (projs sv bs) = own sv (concat bs).
Proof.
  intros sv. induction bs as [|b bs IH]; [reflexivity|]. cbn [projs flat_map concat]. rewrite own_app, concat_app. f_equal; [|exact IH].
  destruct (own sv b); cbn [concat]; rewrite ?app_nil_r; reflexivity.
Qed.

Definition flagged (m : list event) (bs : list (list event)) : list (list (event * bool)) := map (map (fun e => (e, flag m e))) bs.
Lemma flagged_batch : forall m bs, map batch (flagged m bs) = bs.
Proof.
  intros m bs. unfold flagged. rewrite map_map. rewrite <- (map_id bs) at 2. apply map_ext. intros b. unfold batch. rewrite map_map. cbn [fst]. apply map_id.
Qed.
Lemma flagged_stored : forall m bs, map fst (filter snd (concat (flagged m bs))) = filter (flag m) (concat bs).
Proof.
  intros m bs. unfold flagged. rewrite <- concat_map. induction (concat bs) as [|e l IH]; [reflexivity|]. cbn [map filter snd]. destruct (flag m e); cbn [map fst]; congruence.
Qed.

(** ** The two levels *)

Definition qrel (sv : Z) (s : sys) (query : option nat) (c y : ystate) : Prop :=
  match query with
  | None => r_req y = r_req c /\ r_resp y = r_resp c
  | Some q => r_req c = None /\ r_resp c = None /\ exists last max g, server_query_start (client_query sv last) = Some max /\
      ((In (JServer q (client_query sv last) max g) (s_jobs s) /\ r_req y = Some last /\ r_resp y = None) \/
       (exists es res, In (RServer q (client_query sv last) max g es) (s_ready s) /\
          (forall ch, server_query_finish (client_query sv last) max es ch = Some res) /\ r_req y = None /\ r_resp y = Some res))
  end.

Record joint (OB : oracle) (cfA cfB : conf) (sv : Z) (A N : list (op * out)) (K : list (synced * option nat))
    (F : fstate) (top : event_id) (query : option nat) (c : ystate) (s : sys) (tr : list rstep) (y : ystate) : Prop := {
  j_rep : replica OB cfB sv tr y s;
  j_cl : y = put c y (r_req y) (r_resp y);
  j_ph : y_phase c <> PEnd;
  j_q : qrel sv (f_sys F) query c y;
  j_st : forall e, In e (r_stored y) <-> eid_server (ev_id e) = sv /\ stored_event (s_disk (f_sys F)) e;
  j_lag : r_lag y = projs sv (note_list F A);
  j_grow : growing sv (r_top y) (own sv (concat (w_going A) ++ w_waits A)) = true;
  j_top : top = last_id (r_top y) (own sv (concat (w_going A) ++ w_waits A));
  j_dk : stored_so_far tr = own sv (map en_ev (w_disk (watch_run cfA A)));
  j_end : remote_events tr = own sv (w_ended A);
  j_cln : forall i l, In (RClean i, l) (sync_part tr) ->
      (exists en, In en (w_disk (watch_run cfA A)) /\ ev_id (en_ev en) = i) /\ forall e, stored_event (s_disk (f_sys F)) e -> ev_id e <> i;
  j_loc : local_part tr = N;
  j_told : told (sync_part (current tr)) = K;
  j_safe : restarts_safe tr }.

Lemma joint_phase : forall OB cfA cfB sv A N K F top query c s tr y, joint OB cfA cfB sv A N K F top query c s tr y -> y_phase y <> PEnd.
Proof. intros * J. rewrite (j_cl _ _ _ _ _ _ _ _ _ _ _ _ _ _ J). exact (j_ph _ _ _ _ _ _ _ _ _ _ _ _ _ _ J). Qed.

(** Steps of the remote that the abstract one does not see. *)
Lemma joint_same : forall OB cfA cfB sv A A' N K F F' top query query' c c' s tr y, joint OB cfA cfB sv A N K F top query c s tr y ->
    write_run A' = write_run A -> w_disk (watch_run cfA A') = w_disk (watch_run cfA A) -> s_disk (f_sys F') = s_disk (f_sys F) ->
    note_list F' A' = note_list F A -> y = put c' y (r_req y) (r_resp y) -> y_phase c' <> PEnd -> qrel sv (f_sys F') query' c' y ->
    joint OB cfA cfB sv A' N K F' top query' c' s tr y.
Proof.
  intros * J E1 E2 E3 E4 E5 E6 E7. destruct J as [J1 J2 J3 J4 J5 J6 J7 J8 J9 J10 J11 J12 J13 J14].
  constructor; auto; unfold w_going, w_waits, w_ended in *; rewrite ?E1, ?E2, ?E3, ?E4 in *; auto.
Qed.

(** ** Removed events *)

Definition on_disk (d : ldb) (e : event) : bool := flag (vals (db_latest d) ++ vals (db_ts d)) e.
Lemma on_disk_ex : forall d e, on_disk d e = true <-> exists x, stored_event d x /\ ev_id x = ev_id e.
Proof. intros d e. unfold on_disk. rewrite flag_In. split; intros (x & A & B); exists x; (split; [|exact B]); [apply in_app_or; exact A|apply in_or_app; exact A]. Qed.

Lemma clean_step : forall O cf sv tr y s d H, replica O cf sv tr y s -> y_phase y <> PEnd -> hist_ok H ->
    (forall e, In e (r_stored y) -> In e (own sv (map en_ev H))) ->
    (forall e, eid_server (ev_id e) = sv -> stored_event d e -> In e (r_stored y)) ->
    (forall e, stored_event d e -> In e (map en_ev H)) ->
    (forall i l, In (RClean i, l) (sync_part tr) -> (exists en, In en H /\ ev_id (en_ev en) = i) /\ forall e, stored_event d e -> ev_id e <> i) ->
    exists is L, replica O cf sv (tr ++ do_cleans is) (store y L (r_top y) (r_lag y)) s /\
      (forall e, In e L <-> eid_server (ev_id e) = sv /\ stored_event d e) /\
      (forall i l, In (RClean i, l) (sync_part (tr ++ do_cleans is)) -> (exists en, In en H /\ ev_id (en_ev en) = i) /\ forall e, stored_event d e -> ev_id e <> i).
Proof.
  intros O cf sv tr y s d H HR HP HO S1 S2 S3 HC.
  set (is := map ev_id (filter (fun e => negb (on_disk d e)) (r_stored y))).
  exists is, (filter (fun e => negb (existsb (fun i => eid_eqb i (ev_id e)) is)) (r_stored y)). split; [now apply clean_all|].
  assert (HI : forall i, In i is <-> exists e, In e (r_stored y) /\ on_disk d e = false /\ ev_id e = i).
  { intros i. unfold is. rewrite in_map_iff. split; intros (e & A & B).
    - apply filter_In in B as [B C]. exists e. destruct (on_disk d e); [discriminate|auto].
    - destruct B as [B C]. exists e. split; auto. apply filter_In. rewrite B. auto. }
  split.
  - intros e. rewrite filter_In, negb_true_iff. split.
    + intros [He Hn]. pose proof (S1 _ He) as He1. apply own_In in He1 as [He1 He2]. split; auto.
      assert (D : on_disk d e = true).
      { destruct (on_disk d e) eqn:D; auto. exfalso. rewrite <- not_true_iff_false in Hn. apply Hn. apply existsb_exists. exists (ev_id e). split; [apply HI; eauto|]. now apply eid_eqb_spec. }
      apply on_disk_ex in D as (x & Hx & E). rewrite <- (same_id H x e); auto.
    + intros [E Hs]. split; auto. apply not_true_iff_false. intros C. apply existsb_exists in C as (i & Hi & E2). apply eid_eqb_spec in E2 as ->.
      apply HI in Hi as (x & Hx & D & E2). apply not_true_iff_false in D. apply D. apply on_disk_ex. exists e. auto.
  - intros i l Hin. rewrite sync_part_app in Hin. apply in_app_or in Hin as [Hin|Hin]; [eapply HC; eauto|].
    apply cleans_of_cleans in Hin. apply HI in Hin as (e & He & D & <-). apply S1 in He. apply own_In in He as [He _]. apply in_map_iff in He as (en & <- & Hen). split; eauto.
    intros x Hx E. apply not_true_iff_false in D. apply D. apply on_disk_ex. eauto.
Qed.
