(** Lemmas for C85. *)
From Coq Require Import String Ascii Bool ZArith QArith Lia List.
From Verif Require Import Base Kv Model_Types Model_Subscription Model_Codec Spec_Codec Keys Model_Sbs Model_Lmdb Model_LmdbSys Model_Convert Model_ConvertBytes Spec_ConvertBytes
  Model_ConvertCut Model_CopyBytes Spec_CopyBytes Model_LmdbBytes Spec_LmdbBytes Proof_LmdbBytes Proof_LmdbBytes2 Proof_LmdbBytes3 Model_LmdbFile Spec_Lmdb Spec_LmdbFile.
Import ListNotations.
Open Scope list_scope.
Open Scope Z_scope.

Definition hide (s : sys) : sys := Sys (s_conf s) empty_db (s_mem s) (s_old s) (s_cur s) (s_jobs s) (s_ready s).

Lemma stored_file : forall C cond e d part p sub f, file_ok e -> read9 C e = Some d -> u64 part ->
    opt_fits (qt_from p) -> opt_fits (qt_to p) -> opt_fits (qt_sfrom p) -> opt_fits (qt_sto p) ->
    raw_query_stored C cond e part p sub f = Some (query_stored cond d part p sub f).
Proof.
  intros C cond e d part p sub f K R U A B A' B'. unfold raw_query_stored, query_stored. destruct (qt_order_by p).
  - rewrite (final_C84_query C e d part _ _ _ K R U A B). reflexivity.
  - rewrite (final_C84_query C e d part _ _ _ K R U A' B'). reflexivity.
Qed.

Section Sim.
  Variables (C : codecs) (F : Z -> Z -> Prop).
  Hypothesis HC : codecs_ok C F.
  Hypothesis HE : decode_event C [] = None.
  Variables (O : oracle) (size : Z -> env -> option Z).
  Hypothesis HS : forall s e d, read9 C e = Some d -> size s e = or_size O s d.
  Hypothesis HP : forall l r, or_pick O l = Some r -> In r l.

  Lemma open_file : forall cf e d db m, file_ok e -> read9 C e = Some d -> txn_fits F d (TOpen cf) -> open_db cf d = Some (db, m) ->
      exists e', file_open C cf e = Some (Sys cf empty_db m [] no_changes [] [], e') /\ file_ok e' /\ read9 C e' = Some db.
  Proof.
    intros cf e d db m K R [N P] E. destruct (final_C84_open C F HC e d cf (db, m) K R N P E) as (e' & A & B & D).
    exists e'. split; [|split; [exact B|exact D]]. unfold file_open. rewrite A. cbn [obind]. rewrite R. cbn [obind fst snd].
    unfold open_db in E. destruct (validate_settings _ _ _) as [st|]; [|discriminate]. destruct (init_partitions _ _) as [pd ps].
    injection E as <- <-. cbn [m_parts]. reflexivity.
  Qed.

  Lemma exec_hide : forall s o s1 x, match o with OWork | OReopen _ => False | _ => True end -> exec O s o = Some (s1, x) ->
      exec O (hide s) o = Some (hide s1, x) /\ s_disk s1 = s_disk s.
  Proof.
    intros [cf d m old cur js rs] o s1 x Ho E. destruct o; try contradiction; cbn [exec] in *.
    - cbn [s_conf s_mem s_cur s_old s_disk s_jobs s_ready hide] in *. destruct (register_events cf m cur es) as [[m' c']|]; [|discriminate].
      injection E as <- <-. split; reflexivity.
    - injection E as <- <-. split; reflexivity.
    - injection E as <- <-. split; reflexivity.
    - injection E as <- <-. split; reflexivity.
    - destruct (server_query_start p) as [mx|]; injection E as <- <-; split; reflexivity.
    - unfold ts_query_step in *. cbn [s_conf s_mem s_cur s_old s_disk s_jobs s_ready hide cur_gen] in *.
      destruct (ts_query_start O cf (m_parts m) p) as [[[sub mx] [part|]]|]; [|injection E as <- <-; split; reflexivity|injection E as <- <-; split; reflexivity].
      destruct (qt_order p).
      + destruct (query_pending _ _ _ _) as [es f]. destruct (filter_done f); injection E as <- <-; split; reflexivity.
      + injection E as <- <-. split; reflexivity.
    - cbn [s_conf s_mem s_cur s_old s_disk s_jobs s_ready hide] in *. destruct (take_ready q rs) as [[r rs']|]; [|discriminate]. injection E as <- <-. split; reflexivity.
  Qed.

  Lemma work_file : forall s e s1 x, file_ok e -> read9 C e = Some (s_disk s) -> step_fits F s OWork -> work O s = Some (s1, x) ->
      exists e1, file_work C O size (hide s) e = Some (hide s1, e1, x) /\ file_ok e1 /\ read9 C e1 = Some (s_disk s1).
  Proof.
    intros [cf d m old cur js rs] e s1 x K R Hf E. unfold work, file_work, step_fits in *. cbn [s_conf s_mem s_cur s_old s_disk s_jobs s_ready hide] in *.
    destruct js as [|j js].
    - injection E as <- <-. exists e. split; [reflexivity|auto].
    - destruct j as [c|now|q p mx g|q p part sub mx g pre f]; cbn [job_fits s_disk s_mem] in Hf.
      + injection E as <- <-. destruct (final_C84_flush C F HC e d c K R Hf) as (e' & A & B & D). rewrite A. exists e'. split; [reflexivity|auto].
      + destruct Hf as [H1 H2]. destruct (final_C84_cleanup C F HC O size HS (m_parts m) now e d K R H1 H2) as (e' & A & B & D). rewrite A.
        destruct (cleanup O (m_parts m) now d) as [db ks]. injection E as <- <-. exists e'. split; [reflexivity|auto].
      + destruct Hf as (H1 & H2 & H3). rewrite (final_C84_server C HE O e d _ (mx + 1) _ K R HP H1 H2 H3). cbn [obind].
        destruct (query_refs O d (qs_server p) (mx + 1) (qs_last p)) as [es|]; [|discriminate]. injection E as <- <-. exists e. split; [reflexivity|auto].
      + destruct Hf as (H1 & H2 & H3 & H4 & H5). rewrite (stored_file C _ e d part p sub f K R H1 H2 H3 H4 H5). cbn [obind].
        destruct (query_stored (cf_cond cf) d part p sub f) as [es f']. injection E as <- <-. exists e. split; [reflexivity|auto].
  Qed.

  Lemma step_file : forall s e o s1 x, file_ok e -> read9 C e = Some (s_disk s) -> step_fits F s o -> exec O s o = Some (s1, x) ->
      exists e1, file_exec C O size (hide s) e o = Some (hide s1, e1, x) /\ file_ok e1 /\ read9 C e1 = Some (s_disk s1).
  Proof.
    intros s e o s1 x K R Hf E.
    assert (G : match o with OWork | OReopen _ => False | _ => True end ->
      exists e1, (do r <- exec O (hide s) o; Some (fst r, e, snd r)) = Some (hide s1, e1, x) /\ file_ok e1 /\ read9 C e1 = Some (s_disk s1)).
    { intros Ho. destruct (exec_hide s o s1 x Ho E) as [A B]. rewrite A, B. exists e. split; [reflexivity|auto]. }
    destruct o; try exact (G I).
    - exact (work_file s e s1 x K R Hf E).
    - cbn [exec step_fits file_exec] in *. destruct (open_db cf (s_disk s)) as [[db m]|] eqn:Q; [|discriminate]. injection E as <- <-.
      destruct (open_file cf e (s_disk s) db m K R Hf Q) as (e' & A & B & D). rewrite A. exists e'. split; [reflexivity|auto].
  Qed.

  Lemma runs_file : forall s tr s', runs O s tr s' -> forall e, file_ok e -> read9 C e = Some (s_disk s) -> run_fits F O s tr ->
      exists e', file_runs C O size (hide s) e tr (hide s') e' /\ file_ok e' /\ read9 C e' = Some (s_disk s').
  Proof.
    induction 1 as [s|s o x s1 tr s2 E H IH]; intros e K R Hf.
    - exists e. split; [apply file_nil|auto].
    - cbn [run_fits] in Hf. destruct Hf as [H1 H2]. rewrite E in H2. destruct (step_file s e o s1 x K R H1 E) as (e1 & A & B & D).
      destruct (IH e1 B D H2) as (e2 & A' & B' & D'). exists e2. split; [eapply file_cons; eassumption|auto].
  Qed.

  Lemma final_C85_execution : forall cf tr s, execution O cf tr s -> execution_fits F O cf tr ->
      exists s0 e0 s' e, file_start C cf = Some (s0, e0) /\ file_runs C O size s0 e0 tr s' e /\
        in_memory s' = in_memory s /\ file_ok e /\ read9 C e = Some (s_disk s).
  Proof.
    intros cf tr s (s0 & S & R & _) [H1 H2]. rewrite S in H2. unfold start in S. destruct (open_db cf empty_db) as [[db m]|] eqn:Q; [|discriminate]. injection S as <-.
    destruct (final_C84_created C) as [K R0]. destruct (open_file cf (opened9 9) empty_db db m K R0 H1 Q) as (e0 & A & B & D).
    destruct (runs_file _ _ _ R e0 B D H2) as (e & A' & B' & D'). exists (hide (Sys cf db m [] no_changes [] [])), e0, (hide s), e.
    split; [exact A|]. split; [exact A'|]. split; [reflexivity|auto].
  Qed.
End Sim.

(** Runs on files are determined by the operations. *)
Lemma final_C85_same : forall C O size s e tr s1 e1, file_runs C O size s e tr s1 e1 -> forall tr' s2 e2, file_runs C O size s e tr' s2 e2 ->
    map fst tr = map fst tr' -> tr = tr' /\ s1 = s2 /\ e1 = e2.
Proof.
  induction 1 as [s e|s e o x s1 e1 tr s2 e2 E H IH]; intros tr' t2 f2 H' M.
  - inversion H'; subst; [auto|discriminate].
  - inversion H' as [|? ? o' x' t1 f1 tr1 ? ? E' H1]; subst; [discriminate|]. cbn [map fst] in M. injection M as <- M. rewrite E in E'. injection E' as <- <- <-.
    destruct (IH _ _ _ H1 M) as (-> & -> & ->). auto.
Qed.

Lemma final_C85_seen : forall C F, codecs_ok C F -> decode_event C [] = None -> forall O size,
    (forall s e d, read9 C e = Some d -> size s e = or_size O s d) -> (forall l r, or_pick O l = Some r -> In r l) ->
    forall cf tr s, execution O cf tr s -> execution_fits F O cf tr ->
    forall s0 e0 tr' s' e, file_start C cf = Some (s0, e0) -> file_runs C O size s0 e0 tr' s' e -> map fst tr' = map fst tr ->
      tr' = tr /\ in_memory s' = in_memory s /\ file_ok e /\ read9 C e = Some (s_disk s).
Proof.
  intros C F HC HE O size HS HP cf tr s X Hf s0 e0 tr' s' e S R M.
  destruct (final_C85_execution C F HC HE O size HS HP cf tr s X Hf) as (t0 & f0 & t & f & S' & R' & A & B & D).
  rewrite S in S'. injection S' as <- <-. destruct (final_C85_same C O size _ _ _ _ _ R _ _ _ R' M) as (-> & -> & ->). auto.
Qed.
