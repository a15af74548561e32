From Coq Require Import String Bool ZArith Lia List.
From Verif Require Import Base Kv Model_Types Model_Codec Keys Model_Lmdb Spec_Order Proof_Order Spec_LmdbContent Spec_Copy
  Model_Convert Spec_Convert Proof_Convert Proof_Convert2 Proof_Convert3.
Import ListNotations.
Open Scope list_scope.
Open Scope Z_scope.

Lemma eid_le_antisym : forall a b, eid_le a b -> eid_le b a -> a = b.
Proof.
  intros [s u i] [s' u' i'] [H|H] [K|K]; auto. unfold eid_lt in *. cbn in *. lia.
Qed.

Lemma final_C58_one : forall d s c, valid6 d -> own d s -> convert (V06 d) = Some c ->
  (forall e, event_of6 d e -> (e6_server e = 0 \/ e6_server e = s) /\ 0 < e6_instance e) ->
  (forall sv i, In (sv, i) (db_ids c) <-> exists e, last_of c sv e /\ ev_id e = i) /\
  (forall sv t, In (sv, t) (db_tss c) -> exists e, last_of c sv e /\ ev_ts e = t).
Proof.
  intros d s c V O H X. pose proof (stored_conv d s c V O H) as S.
  assert (Q : forall e, stored_event c e -> server_of e = s /\ eid_lt (Eid s 0 0) (ev_id e)).
  { intros e I. apply S in I. destruct I as (a & I & M & _). apply X in I. destruct I as [Y Z].
    unfold server_of. rewrite M. unfold new_server, eid_lt. cbn.
    destruct (Z.eqb_spec (e6_server a) 0); [|destruct Y as [Y|Y]; [congruence|]]; lia. }
  destruct (final_C46_last d s c V O H) as [(e & [G1 G2] & L & Ei & Et)|(N & Ei & Et)]; rewrite Ei, Et.
  - assert (LE : last_of c s e) by (split; [exact G1|split; [now apply Q|auto]]). split.
    + intros sv i. cbn [In]. split.
      * intros [[= <- <-]|[]]. eauto.
      * intros (e' & (A & B & C) & <-). left. destruct (Q e' A) as [D _]. f_equal; [congruence|].
        apply eid_le_antisym; [|now apply G2]. apply C; auto. destruct (Q e G1) as [F _]. congruence.
    + intros sv t [[= <- <-]|[]]. eauto.
  - split; [|intros sv t []]. intros sv i. cbn [In]. split; [intros []|].
    intros (e & (A & _) & _). apply (N e A). now apply Q.
Qed.

Lemma eid_lt_server : forall i j, eid_server i < eid_server j -> eid_lt i j.
Proof. intros i j H. unfold eid_lt. now left. Qed.

Lemma dset_fold_single : forall A (k : Z) (v : A), fold_left (fun d kv => dset Z.eqb (fst kv) (snd kv) d) [(k, v)] [] = [(k, v)].
Proof. reflexivity. Qed.

(** Events of a server with a greater number stop the server itself. *)
Lemma final_C58_refused : forall d s c a, valid6 d -> own d s -> convert (V06 d) = Some c ->
  event_of6 d a -> s < e6_server a ->
  forall cf db m, open_db cf c = Some (db, m) ->
  forall es, (forall e, In e es -> server_of e = s) -> forall ch, register_events cf m ch es = Some (m, ch).
Proof.
  intros d s c a V O H Ia Ha cf db m Ho.
  assert (P : 1 <= s) by (destruct O as [[_ ->]|[_ ?]]; lia).
  pose proof (stored_conv d s c V O H) as S.
  destruct (moved_ex s a) as [a' Ma]. assert (I : stored_event c a') by (apply S; eauto).
  assert (Sa : server_of a' = e6_server a).
  { destruct Ma as (Ma & _). unfold server_of. rewrite Ma. unfold new_server. cbn.
    destruct (Z.eqb_spec (e6_server a) 0); lia. }
  assert (L : eid_lt (Eid s 0 0) (ev_id a')) by (apply eid_lt_server; cbn; unfold server_of in Sa; lia).
  destruct (final_C46_last d s c V O H) as [(g & [G1 G2] & _ & Ei & Et)|(N & _)]; [|exfalso; now apply (N a')].
  assert (Gs : s < eid_server (ev_id g)).
  { specialize (G2 a' I). unfold server_of in Sa. unfold eid_le, eid_lt in G2. destruct G2 as [G2|G2]; [|rewrite <- G2]; lia. }
  assert (M : get_last_event_id (m_sys m) s = ev_id g).
  { unfold open_db in Ho. destruct (validate_settings _ _ _); [|discriminate].
    destruct (init_partitions _ _) as [q1 q2]. injection Ho as _ <-. cbn [m_sys]. rewrite Ei, Et, !dset_fold_single.
    unfold get_last_event_id. cbn. now rewrite Z.eqb_refl. }
  induction es as [|e es IH]; intros E ch; [reflexivity|]. cbn [register_events].
  assert (R : register_event cf m ch e = Some (m, ch)).
  { unfold register_event. assert (Es : eid_server (ev_id e) = s) by (apply E; now left). rewrite Es, M.
    replace (eid_leb (ev_id e) (ev_id g)) with true; auto. symmetry. apply eid_leb_spec.
    left. apply eid_lt_server. lia. }
  rewrite R. apply IH. intros x J. apply E. now right.
Qed.
