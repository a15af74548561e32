(** Concrete databases of former versions and a server that goes on from them,
    used by examples. *)
From Coq Require Import String Bool ZArith Lia List.
From Verif Require Import Base Kv Model_Types Model_Subscription Model_Codec Keys Model_Lmdb Model_LmdbSys Spec_Order Spec_Lmdb Spec_LmdbContent Spec_Copy
  Model_Convert Spec_Convert Ex_Lmdb Ex_Convert Proof_Lmdb9 Spec_Resume.
Import ListNotations.
Open Scope string_scope.
Open Scope list_scope.
Open Scope Z_scope.

Definition rs_part : partition := Partition TIMESTAMP (sub_of [["*"]]) None.
Lemma rs_part_ok : py_subscription (pt_sub rs_part).
Proof. apply sub_of_ok. reflexivity. Qed.

Lemma ev6_cases : forall e, event_of6 ex6 e -> e = a1 \/ e = a2 \/ e = a3.
Proof. intros e [H|H]; cbn in H; intuition congruence. Qed.

Lemma rs6_sound : sound6 ex6 1.
Proof.
  constructor.
  - exact ex6_valid.
  - left. split; reflexivity.
  - intros e H. destruct (ev6_cases _ H) as [->|[->| ->]]; cbn; lia.
  - intros e H. destruct (ev6_cases _ H) as [->|[->| ->]]; (split; [apply event_okb_ok; vm_compute; reflexivity|]); unfold ts_le, ts_lt; vm_compute; first [left; left; reflexivity|auto].
  - intros a b Ha Hb E. destruct (ev6_cases _ Ha) as [->|[->| ->]], (ev6_cases _ Hb) as [->|[->| ->]]; auto; discriminate.
  - intros a b Ha Hb L. destruct (ev6_cases _ Ha) as [->|[->| ->]], (ev6_cases _ Hb) as [->|[->| ->]]; cbn in L; try lia; left; left; cbn; lia.
  - cbn. constructor; [intros []|constructor].
  - intros p t n e H. exists rs_part, (Part7 1 [["*"]]). cbn in H.
    destruct H as [H|[H|[H|[]]]]; injection H as <- <- <- <-; (split; [exact rs_part_ok|]); (split; [now left|]); (split; [split; [reflexivity|left; split; reflexivity]|]); vm_compute; reflexivity.
  - intros p n. unfold counter6, entries_in6. cbn [ex6 db_of d6_counts d6_data map filter fst].
    destruct (Z.eqb_spec 1 p) as [<-|N].
    + cbn. split; [intros [[[= <-]|[]]|[_ X]]; [reflexivity|exfalso; auto]|intros ->; left; left; reflexivity].
    + cbn. split; [intros [[[= X _]|[]]|[-> _]]; [congruence|reflexivity]|intros ->; right; split; [reflexivity|intros [X|[]]; congruence]].
Qed.

(** A database of version 0.7 with events of two servers; the only event of a
    third server is not in it any more. *)
Definition x1 : event7 := Ev7 (Eid 1 1 1) ["a"] (Ts 1 0) None (Some (P7Json (JInt 5))).
Definition x2 : event7 := Ev7 (Eid 2 1 1) ["b"] (Ts 5 0) None None.
Definition x3 : event7 := Ev7 (Eid 1 1 2) ["a"] (Ts 2 0) None (Some (P7Sbs (Some "M") "T" [1; 2])).
Definition x4 : event7 := Ev7 (Eid 3 1 4) ["c"] (Ts 6 0) None None.
Definition rs7 : db7 :=
  Db7 [(1, (Eid 1 1 2, Ts 2 0)); (2, (Eid 2 1 1, Ts 5 0)); (3, (Eid 3 1 4, Ts 6 0))]
      [(Eid 1 1 1, [TimeseriesRef (7, Ts 1 0, Eid 1 1 1)]);
       (Eid 1 1 2, [LatestRef 1; TimeseriesRef (7, Ts 2 0, Eid 1 1 2)]);
       (Eid 2 1 1, [TimeseriesRef (7, Ts 5 0, Eid 2 1 1); LatestRef 2])]
      [(1, x3); (2, x2)] [(1, ["a"]); (2, ["b"])]
      [((7, Ts 1 0, Eid 1 1 1), x1); ((7, Ts 2 0, Eid 1 1 2), x3); ((7, Ts 5 0, Eid 2 1 1), x2)]
      [(7, Part7 1 [["*"]])] [(7, 3)].

Lemma ev7_cases : forall e, stored7 rs7 e -> e = x1 \/ e = x2 \/ e = x3.
Proof. intros e [H|H]; cbn in H; intuition congruence. Qed.

Lemma once7_cases : forall e, once_stored7 rs7 [x4] e -> e = x1 \/ e = x2 \/ e = x3 \/ e = x4.
Proof. intros e [H|[<-|[]]]; [|auto]. destruct (ev7_cases _ H) as [->|[->| ->]]; auto. Qed.

Lemma rs7_valid : valid7 rs7.
Proof.
  constructor; cbn; try nodup. intros p x [[= <- <-]|[]]. now left.
Qed.

Ltac last7 := split; [first [right; now left|left; left; cbn; now auto|left; right; cbn; now auto 6]|split; [reflexivity|]];
  let y := fresh in let H := fresh in let E := fresh in intros y H E; destruct (once7_cases _ H) as [->|[->|[->| ->]]]; try discriminate E; unfold eid_le, eid_lt; cbn; first [right; reflexivity|left; lia].

Lemma rs7_sound : sound7 rs7.
Proof.
  exists [x4]. constructor.
  - exact rs7_valid.
  - intros e [<-|[]] [H|H]; cbn in H; intuition discriminate.
  - intros e H. destruct (once7_cases _ H) as [->|[->|[->| ->]]]; (split; [apply event_okb_ok; vm_compute; reflexivity|]); (split; [unfold eid_lt; cbn; lia|]); unfold ts_le, ts_lt; vm_compute; left; left; reflexivity.
  - intros a b Ha Hb E. destruct (once7_cases _ Ha) as [->|[->|[->| ->]]], (once7_cases _ Hb) as [->|[->|[->| ->]]]; auto; discriminate.
  - intros a b Ha Hb E L. destruct (once7_cases _ Ha) as [->|[->|[->| ->]]], (once7_cases _ Hb) as [->|[->|[->| ->]]]; try discriminate E; unfold eid_lt in L; cbn in L; try lia; left; left; cbn; lia.
  - intros s i t. split.
    + cbn. intros [[= <- <- <-]|[[= <- <- <-]|[[= <- <- <-]|[]]]]; [exists x3|exists x2|exists x4]; (split; [last7|split; reflexivity]).
    + intros (e & (A & B & D) & <- & <-). destruct (once7_cases _ A) as [->|[->|[->| ->]]]; cbn in B; subst s; cbn; auto.
      exfalso. assert (X : eid_le (e7_id x3) (e7_id x1)) by (apply D; [left; left; cbn; now auto|reflexivity]). unfold eid_le, eid_lt in X. cbn in X. destruct X as [X|X]; [lia|discriminate].
  - intros r t. cbn. split.
    + intros [[= <- <-]|[[= <- <-]|[]]]; [exists x3|exists x2]; auto.
    + intros (e & [[= <- <-]|[[= <- <-]|[]]] & <-); cbn; auto.
  - cbn. nodup.
  - cbn. nodup.
  - intros p t i e H. cbn in H. destruct H as [H|[H|[H|[]]]]; injection H as <- <- <- <-; (split; [reflexivity|]); exists rs_part, (Part7 1 [["*"]]);
      (split; [exact rs_part_ok|]); (split; [now left|]); (split; [split; [reflexivity|left; split; reflexivity]|]); vm_compute; reflexivity.
  - intros i r. unfold listed7. split.
    + intros (rs & H & R). cbn in H. destruct H as [[= <- <-]|[[= <- <-]|[[= <- <-]|[]]]]; cbn in R;
        repeat match goal with R : _ \/ _ |- _ => destruct R as [<-|R] | R : False |- _ => destruct R end; cbn;
        first [exists x1; split; [now auto|reflexivity]|exists x2; split; [now auto|reflexivity]|exists x3; split; [now auto|reflexivity]].
    + destruct r as [k|k]; cbn; intros (e & H & <-).
      * destruct H as [[= <- <-]|[[= <- <-]|[]]]; [exists [LatestRef 1; TimeseriesRef (7, Ts 2 0, Eid 1 1 2)]|exists [TimeseriesRef (7, Ts 5 0, Eid 2 1 1); LatestRef 2]]; cbn; auto.
      * destruct H as [[= <- <-]|[[= <- <-]|[[= <- <-]|[]]]];
          [exists [TimeseriesRef (7, Ts 1 0, Eid 1 1 1)]|exists [LatestRef 1; TimeseriesRef (7, Ts 2 0, Eid 1 1 2)]|exists [TimeseriesRef (7, Ts 5 0, Eid 2 1 1); LatestRef 2]]; cbn; auto.
  - intros i rs H. cbn in H. destruct H as [[= <- <-]|[[= <- <-]|[[= <- <-]|[]]]]; discriminate.
  - intros p n. unfold counter7, entries_in7. cbn [rs7 d7_counts d7_data map filter fst].
    destruct (Z.eqb_spec 7 p) as [<-|N].
    + cbn. split; [intros [[[= <-]|[]]|[_ X]]; [reflexivity|exfalso; auto]|intros ->; left; left; reflexivity].
    + cbn. split; [intros [[[= X _]|[]]|[-> _]]; [congruence|reflexivity]|intros ->; right; split; [reflexivity|intros [X|[]]; congruence]].
Qed.

(** A server is started on the converted database; an event of server 1 with an
    old id is refused, one with a new id accepted. *)
Definition rs_conf : conf := mk_conf "0.9" (Some "id") (fun _ => true) [["*"]] [(TIMESTAMP, [["*"]], None)] 10.
Lemma rs_conf_ok : conf_ok rs_conf.
Proof. apply conf_ok_of; reflexivity. Qed.

Definition rs_db : ldb := match convert (V07 rs7) with Some c => c | None => empty_db end.
Definition rs_start : sys := match open_db rs_conf rs_db with Some (d, m) => Sys rs_conf d m [] no_changes [] [] | None => end_of rs_conf None end.
Definition rs_old : event := ev 1 1 2 ["c"] 9 None.
Definition rs_new : event := ev 1 2 1 ["a"] 9 None.
Definition rs_ops : list op := [ORegister [rs_old; rs_new]; OFlush; OWork; OLatest (QLatest None)].
Definition rs_tr := trace_of (play ex_oracle rs_start rs_ops).
Definition rs_end := end_of rs_conf (play ex_oracle rs_start rs_ops).

Lemma rs_run : resumed ex_oracle rs_conf rs_db rs_tr rs_end.
Proof.
  assert (E : (if play ex_oracle rs_start rs_ops then true else false) = true) by (vm_compute; reflexivity). unfold rs_tr, rs_end.
  destruct (play ex_oracle rs_start rs_ops) as [[tr s]|] eqn:P; [|discriminate E]. cbn [trace_of end_of]. apply play_runs in P as (A & B & C).
  assert (F : (if open_db rs_conf rs_db then true else false) = true) by (vm_compute; reflexivity). unfold rs_start in A.
  destruct (open_db rs_conf rs_db) as [[d m]|] eqn:O; [|discriminate F]. exists d, m. split; auto. split; auto. rewrite B, C. cbn [op_confs op_events rs_ops flat_map app]. split.
  - constructor; [exact rs_conf_ok|constructor].
  - apply Forall_forall. intros e H. apply event_okb_ok. destruct H as [<-|[<-|[]]]; vm_compute; reflexivity.
Qed.
