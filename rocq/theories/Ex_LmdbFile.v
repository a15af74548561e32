(** Boolean forms of the conditions of C85, used by examples. *)
From Coq Require Import String Bool ZArith QArith Lia List.
From Verif Require Import Base Kv Model_Types Model_Time Model_Codec Spec_Codec Model_Sbs Model_Lmdb Model_LmdbSys Model_ConvertBytes Spec_ConvertBytes Model_LmdbBytes Spec_LmdbBytes
  Model_LmdbFile Spec_Lmdb Spec_LmdbFile Ex_ConvertBytes Ex_CopyBytes Ex_Lmdb Ex_LmdbBytes.
Import ListNotations.
Open Scope list_scope.
Open Scope Z_scope.

Definition opb (cfs : list conf) (o : op) : bool :=
  match o with
  | OCleanup now =>
      forallb (fun c => forallb (fun p => match pt_limit p with
                                          | Some lm => optb (fun d => tsb (ts_add now (- d)%Q)) (lm_duration lm) && optb (Z.leb 0) (lm_min lm)
                                          | None => true end) (cf_parts c)) cfs
  | OServer _ p => u64b (qs_server p) && (u64b (qs_server p + 1) && optb eidb (qs_last p))
  | OTs _ p => optb tsb (qt_from p) && (optb tsb (qt_to p) && (optb tsb (qt_sfrom p) && optb tsb (qt_sto p)))
  | _ => true
  end.
Definition traceb (cf : conf) (tr : list (op * out)) : bool :=
  forallb payb (events_of tr) &&
  (((Z.of_nat (List.length (events_of tr)) + 1) * (parts_of (cf :: confs_of tr) + 2) <? 2 ^ 64) && forallb (fun ox => opb (cf :: confs_of tr) (fst ox)) tr).

Lemma opt_b : forall t, optb tsb t = true -> opt_fits t.
Proof. intros t H x ->. now apply ts_b. Qed.
Lemma op_b : forall cfs o, opb cfs o = true -> op_fits cfs o.
Proof.
  intros cfs o H. destruct o; try exact I; cbn [opb op_fits] in *.
  - intros c p lm Hc Hp El. rewrite forallb_forall in H. apply H in Hc. rewrite forallb_forall in Hc. apply Hc in Hp. rewrite El in Hp.
    apply andb_prop in Hp. destruct Hp as [A B]. split.
    + intros d E. rewrite E in A. now apply ts_b.
    + intros n E. rewrite E in B. now apply Z.leb_le in B.
  - apply andb_prop in H. destruct H as [A H]. apply andb_prop in H. destruct H as [B D]. split; [now apply u64_b|]. split; [now apply u64_b|].
    intros i E. rewrite E in D. now apply eid_b.
  - repeat (apply andb_prop in H; let A := fresh "A" in destruct H as [A H]). split; [now apply opt_b|]. split; [now apply opt_b|]. split; now apply opt_b.
Qed.
Lemma trace_b : forall cf tr, traceb cf tr = true -> trace_fits anyfloat cf tr.
Proof.
  intros cf tr H. apply andb_prop in H. destruct H as [A H]. apply andb_prop in H. destruct H as [B D]. rewrite forallb_forall in *. split.
  - apply Forall_forall. intros x Hx. apply pay_b. now apply A.
  - now apply Z.ltb_lt.
  - apply Forall_forall. intros x Hx. apply op_b. now apply D.
Qed.

(** The operations of [ex_ops], a server query, a restart and a timeseries
    query. *)
Definition lf_ops : list op :=
  ex_ops ++ [OServer 0 (QServer 1 true (Some 2) None); OFlush; OWork; OWork; ODeliver 0; OReopen ex_conf;
             OTs 1 (QTimeseries None (Some (Ts 2 0)) None None None DESCENDING TIMESTAMP None None); OWork; ODeliver 1].
Definition lf_tr := trace_of (plays ex_oracle ex_conf lf_ops).
Definition lf_s := end_of ex_conf (plays ex_oracle ex_conf lf_ops).

(** A server that goes on from the file [env9], which was converted from an older
    version. *)
Definition lg_db : ldb := match read9 xc env9 with Some d => d | None => empty_db end.
Definition lg_conf : conf := mk_conf "0.9" (Some "id"%string) (fun _ => true) [["*"%string]] [(TIMESTAMP, [["*"%string]], Some (Limit None (Some 1) None None))] 10.
Definition lg_start : sys := let b := opened lg_conf lg_db in Sys lg_conf (fst b) (snd b) [] no_changes [] [].
Definition lg_ops : list op :=
  [ORegister [ev 1 3 1 ["a"; "b"]%string 11 None; ev 1 3 2 ["c"]%string 12 None]; OFlush; OWork; OCleanup (Ts 20 0); OWork; OServer 0 (QServer 1 true None None); OWork; ODeliver 0].
Definition lg_tr := trace_of (play ex_oracle lg_start lg_ops).
Definition lg_s := end_of lg_conf (play ex_oracle lg_start lg_ops).
Definition eventb (x : event) : bool := eidb (ev_id x) && (tsb (ev_ts x) && (optb tsb (ev_src x) && payb x)).
Definition contentb (N P : Z) (d : ldb) : bool :=
  ((0 <=? N) && (0 <=? P)) && (forallb (fun kt => (1 <=? fst kt) && (fst kt <=? N)) (db_types d) && (forallb (fun kx => eventb (snd kx)) (db_latest d) &&
  (forallb (fun px => (1 <=? fst px) && (fst px <=? P)) (db_parts d) && forallb (fun pn => (0 <=? snd pn) && (snd pn <=? N * P)) (db_counts d)))).
Lemma content_b : forall N P d, contentb N P d = true -> content_fits anyfloat N P d.
Proof.
  intros N P d H. unfold contentb in H. repeat (apply andb_prop in H; let A := fresh "A" in destruct H as [A H]). rewrite forallb_forall in *. split.
  - apply andb_prop in A. destruct A as [A B]. apply Z.leb_le in A, B. auto.
  - intros k t Hi. apply A0 in Hi. apply andb_prop in Hi. destruct Hi as [B D]. apply Z.leb_le in B, D. auto.
  - intros k x Hi. apply A1 in Hi. unfold eventb in Hi. cbn [snd] in Hi. repeat (apply andb_prop in Hi; let B := fresh "B" in destruct Hi as [B Hi]).
    split; [now apply eid_b|]. split; [now apply ts_b|]. split; [now apply opt_b|now apply pay_b].
  - intros k t Hi. apply A2 in Hi. apply andb_prop in Hi. destruct Hi as [B D]. apply Z.leb_le in B, D. auto.
  - intros k t Hi. apply H in Hi. apply andb_prop in Hi. destruct Hi as [B D]. apply Z.leb_le in B, D. auto.
Qed.
