(** Lemmas for C85: servers on files that exist. *)
From Coq Require Import String Ascii Bool ZArith QArith Lia List.
From Verif Require Import Base Kv Model_Types Model_Time Model_Subscription Model_Codec Spec_Codec Keys Model_Sbs Model_Lmdb Model_LmdbSys Model_ConvertBytes Spec_ConvertBytes
  Model_CopyBytes Spec_CopyBytes Model_LmdbBytes Spec_LmdbBytes Model_LmdbFile Spec_Lmdb Spec_LmdbFile Proof_LmdbFile Proof_LmdbFile2 Proof_LmdbFile3 Proof_LmdbFile4.
Import ListNotations.
Open Scope list_scope.
Open Scope Z_scope.

Lemma final_C85_from : forall C F, codecs_ok C F -> decode_event C [] = None -> forall O size,
    (forall s e d, read9 C e = Some d -> size s e = or_size O s d) -> (forall l r, or_pick O l = Some r -> In r l) ->
    forall e d N P cf db m tr s, file_ok e -> read9 C e = Some d -> content_fits F N P d ->
      open_db cf d = Some (db, m) -> runs O (Sys cf db m [] no_changes [] []) tr s -> trace_fits_from F N P cf tr ->
    exists s0 e0 s' e', file_open C cf e = Some (s0, e0) /\ file_runs C O size s0 e0 tr s' e' /\
      in_memory s' = in_memory s /\ file_ok e' /\ read9 C e' = Some (s_disk s).
Proof.
  intros C F HC HE O size HS HP e d N P cf db m tr s K R [[B1 B2] K1 K2 K3 K4] E X [T0 T1 T2 T3].
  assert (Q : parts_of (cf :: confs_of tr) = zlen (cf_parts cf) + parts_of (confs_of tr)) by reflexivity.
  assert (0 <= zlen (cf_parts cf)) by (unfold zlen; lia).
  assert (0 <= parts_of (confs_of tr)) by (clear; unfold parts_of; induction (confs_of tr); cbn [fold_right]; lia).
  assert (0 <= zlen (events_of tr)) by (unfold zlen; lia). fold (zlen (events_of tr)) in T2.
  assert (Hf : txn_fits F d (TOpen cf)).
  { cbn [txn_fits]. fold (zlen (cf_parts cf)). split; [nia|]. intros p x Hi. apply K3 in Hi. nia. }
  assert (V : sinv F (cf :: confs_of tr) N (P + zlen (cf_parts cf)) (Sys cf db m [] no_changes [] [])).
  { apply (open_inv F _ cf d db m N P); auto; try (now left); try (apply Forall_forall; intros [k x] Hi).
    - exact (K1 _ _ Hi).
    - exact (K2 _ _ Hi).
    - exact (K3 _ _ Hi).
    - exact (K4 _ _ Hi). }
  assert (Hr : run_fits F O (Sys cf db m [] no_changes [] []) tr).
  { apply (run_inv F (cf :: confs_of tr) O (N + zlen (events_of tr)) (P + parts_of (cf :: confs_of tr)) ltac:(lia) tr N (P + zlen (cf_parts cf)) _ V).
    - lia.
    - lia.
    - exact T3.
    - rewrite Forall_forall in *. intros x Hx. apply event_sound; [now apply T0|now apply T1].
    - intros c Hc. now right. }
  destruct (open_file C F HC cf e d db m K R Hf E) as (e0 & A & A1 & A2).
  destruct (runs_file C F HC HE O size HS HP _ _ _ X e0 A1 A2 Hr) as (e' & D & D1 & D2).
  exists (hide (Sys cf db m [] no_changes [] [])), e0, (hide s), e'. split; [exact A|]. split; [exact D|]. split; [reflexivity|auto].
Qed.
