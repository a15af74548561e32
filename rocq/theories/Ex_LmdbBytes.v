(** Transactions of a server, used by examples of C84. *)
From Coq Require Import String Bool ZArith QArith Lia List.
From Verif Require Import Base Kv Model_Types Model_Time Model_Codec Spec_Codec Keys Model_Sbs Model_Lmdb Model_Copy Model_Convert Spec_Convert Model_ConvertBytes Spec_ConvertBytes
  Model_ConvertCut Model_CopyBytes Spec_CopyBytes Model_LmdbBytes Spec_LmdbBytes Ex_ConvertBytes Ex_Lmdb.
Import ListNotations.
Open Scope string_scope.
Open Scope list_scope.
Open Scope Z_scope.

(** Boolean forms of the conditions. *)
Definition u64b (v : Z) : bool := (0 <=? v) && (v <? 2 ^ 64).
Lemma u64_b : forall v, u64b v = true -> u64 v.
Proof. intros v H. apply andb_prop in H. destruct H as [A B]. apply Z.leb_le in A. apply Z.ltb_lt in B. split; assumption. Qed.
Definition tsb (t : timestamp) : bool := (- 2 ^ 63 <=? ts_s t) && (ts_s t <? 2 ^ 63) && (0 <=? ts_us t) && (ts_us t <? 2 ^ 32).
Lemma ts_b : forall t, tsb t = true -> ts_fits t.
Proof.
  intros t H. apply andb_prop in H. destruct H as [H D]. apply andb_prop in H. destruct H as [H B]. apply andb_prop in H. destruct H as [A E].
  apply Z.leb_le in A, B. apply Z.ltb_lt in D, E. repeat split; assumption.
Qed.
Definition eidb (i : event_id) : bool := u64b (eid_server i) && (u64b (eid_session i) && u64b (eid_instance i)).
Lemma eid_b : forall i, eidb i = true -> eid_fits i.
Proof. intros i H. apply andb_prop in H. destruct H as [A H]. apply andb_prop in H. destruct H. repeat split; apply u64_b; assumption. Qed.
Definition refb (r : event_ref) : bool := match r with LatestRef k => u64b k | TimeseriesRef (p, t, i) => u64b p && (tsb t && eidb i) end.
Lemma ref_b : forall r, refb r = true -> ref_fits r.
Proof.
  intros [k|[[p t] i]] H; [now apply u64_b|]. apply andb_prop in H. destruct H as [A H]. apply andb_prop in H. destruct H as [B D].
  split; [now apply u64_b|]. split; [now apply ts_b|now apply eid_b].
Qed.
Definition payb (x : event) : bool := match ev_payload x with Some (PJson _) => false | _ => true end.
Lemma pay_b : forall x, payb x = true -> payload_ok anyfloat x.
Proof. intros x H. unfold payload_ok, payb in *. destruct (ev_payload x) as [q|]; [|exact I]. destruct q; first [discriminate|exact I]. Qed.
Definition changesb (d : ldb) (c : changes) : bool :=
  forallb (fun si => u64b (fst si) && eidb (snd si)) (sc_ids (ch_sys c)) &&
  (forallb (fun st => u64b (fst st) && tsb (snd st)) (sc_tss (ch_sys c)) &&
  (forallb (fun kx => u64b (fst kx) && payb (snd kx)) (lc_data (ch_latest c)) &&
  (forallb (fun kt => u64b (fst kt)) (lc_types (ch_latest c)) &&
  (forallb (fun pl => u64b (fst pl) && forallb (fun tx => tsb (fst tx) && (eidb (ev_id (snd tx)) && payb (snd tx))) (snd pl)) (ch_ts c) &&
  (forallb (fun pn => (0 <=? snd pn) && (snd pn + amount (ch_ts c) <? 2 ^ 64)) (db_counts d) &&
  ((amount (ch_ts c) <? 2 ^ 64) &&
  forallb (fun ss => forallb (fun ix => eidb (fst ix) && forallb refb (snd (snd ix))) (rc_added (snd ss)) && forallb (fun ir => eidb (fst ir)) (rc_removed (snd ss)))
    (ch_ref c))))))).
Lemma changes_b : forall d c, changesb d c = true -> changes_fit anyfloat d c.
Proof.
  intros d c H. unfold changesb in H. repeat (apply andb_prop in H; let A := fresh "A" in destruct H as [A H]).
  rewrite forallb_forall in *. split.
  - intros s i Hi. apply A in Hi. apply andb_prop in Hi. destruct Hi. split; [now apply u64_b|now apply eid_b].
  - intros s t Hi. apply A0 in Hi. apply andb_prop in Hi. destruct Hi. split; [now apply u64_b|now apply ts_b].
  - intros k x Hi. apply A1 in Hi. apply andb_prop in Hi. destruct Hi. split; [now apply u64_b|now apply pay_b].
  - intros k t Hi. apply A2 in Hi. now apply u64_b.
  - intros p l Hi. apply A3 in Hi. apply andb_prop in Hi. destruct Hi. now apply u64_b.
  - intros p l t x Hi Hx. apply A3 in Hi. apply andb_prop in Hi. destruct Hi as [_ Hi]. cbn [snd] in Hi. rewrite forallb_forall in Hi. apply Hi in Hx.
    apply andb_prop in Hx. destruct Hx as [B Hx]. apply andb_prop in Hx. destruct Hx. split; [now apply ts_b|]. split; [now apply eid_b|now apply pay_b].
  - intros p n Hi. apply A4 in Hi. apply andb_prop in Hi. destruct Hi as [B D]. apply Z.leb_le in B. apply Z.ltb_lt in D. split; assumption.
  - now apply Z.ltb_lt.
  - intros s sc i x rs Hi Hx. apply H in Hi. apply andb_prop in Hi. destruct Hi as [Hi _]. cbn [snd] in Hi. rewrite forallb_forall in Hi. apply Hi in Hx.
    apply andb_prop in Hx. destruct Hx as [B D]. split; [now apply eid_b|]. cbn [fst snd] in D. rewrite forallb_forall in D. apply Forall_forall. intros r Hr.
    apply ref_b. now apply D.
  - intros s sc i rs Hi Hx. apply H in Hi. apply andb_prop in Hi. destruct Hi as [_ Hi]. cbn [snd] in Hi. rewrite forallb_forall in Hi. apply Hi in Hx. now apply eid_b.
Qed.
Definition optb {A} (f : A -> bool) (o : option A) : bool := match o with Some x => f x | None => true end.
Definition limitsb (now : timestamp) (parts : list (Z * partition)) : bool :=
  forallb (fun ip => match pt_limit (snd ip) with
                     | Some lm => (u64b (fst ip) && u64b (fst ip + 1)) && (optb (fun d => tsb (ts_add now (- d)%Q)) (lm_duration lm) && optb (Z.leb 0) (lm_min lm))
                     | None => true end) parts.
Lemma limits_b : forall now parts, limitsb now parts = true -> limits_fit now parts.
Proof.
  intros now parts H i p lm Hi El. unfold limitsb in H. rewrite forallb_forall in H. apply H in Hi. cbn [fst snd] in Hi. rewrite El in Hi.
  apply andb_prop in Hi. destruct Hi as [A B]. apply andb_prop in A. destruct A as [A A']. apply andb_prop in B. destruct B as [B D].
  split; [now apply u64_b|]. split; [now apply u64_b|]. split.
  - intros q E. rewrite E in B. now apply ts_b.
  - intros n E. rewrite E in D. now apply Z.leb_le in D.
Qed.
Definition txnb (d : ldb) (t : txn) : bool :=
  match t with
  | TOpen cf =>
      let n := Z.of_nat (List.length (cf_parts cf)) in
      (n + 1 <? 2 ^ 64) && forallb (fun px => fst px + n + 1 <? 2 ^ 64) (db_parts d)
  | TFlush c => changesb d c
  | TCleanup parts now => forallb (fun pn => u64b (snd pn)) (db_counts d) && limitsb now parts
  end.
Fixpoint txnsb (O : oracle) (d : ldb) (ts : list txn) : bool :=
  match ts with
  | [] => true
  | t :: ts' => txnb d t && match content_txn O d t with Some d' => txnsb O d' ts' | None => true end
  end.
Lemma txns_b : forall O ts d, txnsb O d ts = true -> txns_fit anyfloat O d ts.
Proof.
  intros O. induction ts as [|t ts IH]; intros d H; [exact I|]. cbn [txnsb txns_fit] in *. apply andb_prop in H. destruct H as [A H]. split.
  - destruct t as [cf|c|parts now]; cbn [txnb txn_fits] in *.
    + apply andb_prop in A. destruct A as [A B]. split; [now apply Z.ltb_lt|]. intros p x Hi. rewrite forallb_forall in B. apply B in Hi. now apply Z.ltb_lt.
    + now apply changes_b.
    + apply andb_prop in A. destruct A as [A B]. split; [|now apply limits_b]. intros p n Hi. rewrite forallb_forall in A. apply A in Hi. now apply u64_b.
  - intros d' E. rewrite E in H. now apply IH.
Qed.

(** What [open_db] and [register_events] give. *)
Definition opened (cf : conf) (d : ldb) : ldb * mem := match open_db cf d with Some b => b | None => (d, Mem (SystemDb [] []) (LatestDb [] [] 1) [] []) end.
Definition registered (cf : conf) (m : mem) (es : list event) : mem * changes :=
  match register_events cf m no_changes es with Some r => r | None => (m, no_changes) end.

(** A file is created, two times events are registered and flushed, the first
    partition is limited to two entries, and the file is opened again. *)
Definition lb_mem := snd (opened ex_conf empty_db).
Definition lb_parts := m_parts lb_mem.
Definition lb_r1 := registered ex_conf lb_mem [ex_e1; ex_e2; ex_e4].
Definition lb_r2 := registered ex_conf (fst lb_r1) [ex_e5; ex_e6; ex_e7].
Definition lb_txns : list txn := [TOpen ex_conf; TFlush (snd lb_r1); TFlush (snd lb_r2); TCleanup lb_parts (Ts 100 0); TOpen ex_conf].
Definition lb_size (s : Z) (e : env) : option Z := None.
Definition lb_file : env := match loop (raw_txn xc lb_size) lb_txns (opened9 9) with Some e => e | None => [] end.
Definition lb_db : ldb := match loop (content_txn ex_oracle) lb_txns empty_db with Some d => d | None => empty_db end.
