(** Lemmas for C85: all numbers fit if those of the configuration, of events and
    of queries do. *)
From Coq Require Import String Ascii Bool ZArith QArith Lia List.
From Verif Require Import Base Kv Model_Types Model_Time Model_Subscription Model_Codec Spec_Codec Keys Model_Sbs Model_Lmdb Model_LmdbSys Model_ConvertBytes Spec_ConvertBytes
  Model_CopyBytes Spec_CopyBytes Model_LmdbBytes Spec_LmdbBytes Model_LmdbFile Spec_Lmdb Spec_LmdbFile Proof_LmdbFile Proof_LmdbFile2 Proof_LmdbFile3.
Import ListNotations.
Open Scope list_scope.
Open Scope Z_scope.

Definition job_amount (j : job) : Z := match j with JFlush c => amount (ch_ts c) | _ => 0 end.
Definition jobs_amount (js : list job) : Z := fold_right (fun j n => job_amount j + n) 0 js.
Definition pend (s : sys) : Z := jobs_amount (s_jobs s) + amount (ch_ts (s_cur s)).
Lemma jobs_app : forall a b, jobs_amount (a ++ b) = jobs_amount a + jobs_amount b.
Proof. intros a b. unfold jobs_amount. induction a as [|j a IH]; cbn [app fold_right]; lia. Qed.
Lemma job_nonneg : forall j, 0 <= job_amount j.
Proof. intros [c| | |]; cbn [job_amount]; try lia. apply amount_nonneg. Qed.
Lemma jobs_nonneg : forall js, 0 <= jobs_amount js.
Proof. intros js. unfold jobs_amount. induction js as [|j js IH]; cbn [fold_right]; [lia|]. pose proof (job_nonneg j). lia. Qed.

Section Fits.
  Variables (F : Z -> Z -> Prop) (CS : list conf) (O : oracle).

  Definition jfit (N : Z) (j : job) : Prop :=
    match j with
    | JFlush c => cfit F N c
    | JCleanup now => op_fits CS (OCleanup now)
    | JServer q p _ _ => op_fits CS (OServer q p)
    | JTs q p part _ _ _ _ _ => u64 part /\ op_fits CS (OTs q p)
    end.
  Lemma jfit_mono : forall N N' j, N <= N' -> jfit N j -> jfit N' j.
  Proof. intros N N' j H Hj. destruct j; cbn [jfit] in *; auto. now apply (cfit_mono F N). Qed.

  Definition from_conf (P : Z) (ip : Z * partition) : Prop := 1 <= fst ip <= P /\ exists c, In c CS /\ In (snd ip) (cf_parts c).
  Record sinv (N P : Z) (s : sys) : Prop := {
    v_N : 0 <= N; v_P : 0 <= P;
    v_cur : cfit F N (s_cur s);
    v_jobs : Forall (jfit N) (s_jobs s);
    v_latest : latest_ok F N (m_latest (s_mem s));
    v_parts : Forall (from_conf P) (m_parts (s_mem s));
    v_len : zlen (m_parts (s_mem s)) <= P;
    v_types : types_fit N (db_types (s_disk s));
    v_data : Forall (fun kx : Z * event => sound F (snd kx)) (db_latest (s_disk s));
    v_dparts : Forall (fun kp : Z * part_data => 1 <= fst kp <= P) (db_parts (s_disk s));
    v_counts : Forall (fun pn : Z * Z => 0 <= snd pn /\ snd pn + pend s <= N * P) (db_counts (s_disk s));
    v_pend : pend s <= N * P }.

  Definition n_events (o : op) : Z := match o with ORegister es => zlen es | _ => 0 end.
  Definition n_parts (o : op) : Z := match o with OReopen c => zlen (cf_parts c) | _ => 0 end.

  Lemma open_inv : forall c d db m N P, In c CS -> 0 <= N -> 0 <= P -> types_fit N (db_types d) -> Forall (fun kx : Z * event => sound F (snd kx)) (db_latest d) ->
      Forall (fun kp : Z * part_data => 1 <= fst kp <= P) (db_parts d) -> Forall (fun pn : Z * Z => 0 <= snd pn <= N * P) (db_counts d) -> open_db c d = Some (db, m) ->
      sinv N (P + zlen (cf_parts c)) (Sys c db m [] no_changes [] []).
  Proof.
    intros c d db m N P Hc HN HP Ht Hl Hp Hn E. unfold open_db in E. destruct (validate_settings _ _ _) as [st|]; [|discriminate].
    destruct (init_partitions (db_parts d) (cf_parts c)) as [pd ps] eqn:I. injection E as <- <-. destruct (init_fits CS c (db_parts d) P pd ps Hc HP Hp I) as (A & B & D).
    assert (0 <= zlen (cf_parts c)) by (unfold zlen; lia).
    assert (N * P <= N * (P + zlen (cf_parts c))) by nia.
    split; cbn [s_cur s_jobs s_mem s_disk m_latest m_parts db_types db_latest db_parts db_counts]; auto; try lia.
    - apply cfit_none.
    - now apply latest_open_fits.
    - eapply Forall_impl; [|exact Hn]. intros a Ha. cbn beta in *. unfold pend, jobs_amount, amount. cbn [s_jobs s_cur no_changes ch_ts fold_right]. lia.
    - unfold pend, jobs_amount, amount. cbn [s_jobs s_cur no_changes ch_ts fold_right]. nia.
  Qed.

  (** Steps that add a job, or take one away and leave the file as it is. *)
  Lemma jobs_inv : forall N P s js rs, sinv N P s -> Forall (jfit N) js -> jobs_amount js <= jobs_amount (s_jobs s) ->
      sinv N P (Sys (s_conf s) (s_disk s) (s_mem s) (s_old s) (s_cur s) js rs).
  Proof.
    intros N P s js rs [V1 V2 V3 V4 V5 V6 V7 V8 V9 V10 V11 V12] Hj Ha.
    split; cbn [s_cur s_jobs s_mem s_disk]; auto.
    - eapply Forall_impl; [|exact V11]. intros a H. cbn beta in *. unfold pend in *. cbn [s_jobs s_cur]. lia.
    - unfold pend in *. cbn [s_jobs s_cur]. lia.
  Qed.
  Lemma push_inv : forall N P s j, sinv N P s -> jfit N j -> job_amount j = 0 -> sinv N P (push s j).
  Proof.
    intros N P s j V Hj Ha. apply jobs_inv; [exact V| |].
    - apply Forall_app. split; [apply (v_jobs _ _ _ V)|constructor; [exact Hj|constructor]].
    - rewrite jobs_app. unfold jobs_amount at 2. cbn [fold_right]. lia.
  Qed.

  Lemma choose_in : forall ps ob sub i, choose_partition O ps ob sub = Some i -> In i (map fst ps).
  Proof.
    induction ps as [|[j pt] ps IH]; intros ob sub i H; cbn [choose_partition] in H; [discriminate|]. cbn [map fst].
    destruct (negb (order_by_eqb (pt_order pt) ob)); [right; eauto|]. destruct (match sub with Some n => or_disj O n (pt_sub pt) | None => false end); [right; eauto|].
    injection H as <-. now left.
  Qed.

  Variables Nm Pm : Z.
  Hypothesis HM : (Nm + 1) * (Pm + 2) < 2 ^ 64.

  Lemma step_inv : forall N P s o, sinv N P s -> N + n_events o <= Nm -> P + n_parts o <= Pm -> op_fits CS o ->
      match o with ORegister es => Forall (sound F) es | OReopen c => In c CS | _ => True end ->
      step_fits F s o /\ forall s1 x, exec O s o = Some (s1, x) -> sinv (N + n_events o) (P + n_parts o) s1.
  Proof.
    intros N P s o V HN HP Hf Ho. assert (W := V). destruct W as [V1 V2 V3 V4 V5 V6 V7 V8 V9 V10 V11 V12].
    assert (E0 : 0 <= n_events o) by (destruct o; cbn [n_events]; unfold zlen; lia). assert (P0 : 0 <= n_parts o) by (destruct o; cbn [n_parts]; unfold zlen; lia).
    assert (X1 : N + n_events o + 1 < 2 ^ 64) by nia. assert (X2 : P + n_parts o + 1 < 2 ^ 64) by nia. assert (X3 : N * P < 2 ^ 64) by nia.
    assert (Z0 : 0 <= pend s) by (unfold pend; pose proof (jobs_nonneg (s_jobs s)); pose proof (amount_nonneg (ch_ts (s_cur s))); lia).
    assert (U : Forall (fun ip : Z * partition => u64 (fst ip)) (m_parts (s_mem s))).
    { eapply Forall_impl; [|exact V6]. intros a [H _]. unfold u64. lia. }
    destruct o as [es| |now|p|q p|q p| |q|c]; cbn [n_events n_parts step_fits] in *; rewrite ?Z.add_0_r in *.
    - split; [exact I|]. intros s1 x E. cbn [exec] in E. destruct (register_events (s_conf s) (s_mem s) (s_cur s) es) as [[m ch]|] eqn:R; [|discriminate]. injection E as <- <-.
      destruct (registers_fits F (s_conf s) es N (s_mem s) (s_cur s) m ch ltac:(lia) V3 V5 U Ho R) as (A & B & D & G).
      assert (Q : zlen es * zlen (m_parts (s_mem s)) <= zlen es * P) by nia.
      split; cbn [s_cur s_jobs s_mem s_disk]; auto; try lia; try (rewrite D; assumption).
      + eapply Forall_impl; [|exact V4]. intros j. apply jfit_mono. lia.
      + apply (types_mono N); [lia|exact V8].
      + eapply Forall_impl; [|exact V11]. intros a H. cbn beta in *. unfold pend in *. cbn [s_jobs s_cur]. lia.
      + unfold pend in *. cbn [s_jobs s_cur]. lia.
    - split; [exact I|]. intros s1 x E. cbn [exec] in E. injection E as <- <-.
      assert (Q : pend (Sys (s_conf s) (s_disk s) (s_mem s) (s_old s ++ [s_cur s]) no_changes (s_jobs s ++ [JFlush (s_cur s)]) (s_ready s)) = pend s).
      { unfold pend. cbn [s_jobs s_cur no_changes ch_ts]. rewrite jobs_app. unfold jobs_amount at 2. cbn [fold_right job_amount]. unfold amount at 2. cbn [fold_right]. lia. }
      split; cbn [s_cur s_jobs s_mem s_disk]; auto; try (rewrite Q; assumption).
      + apply cfit_none.
      + apply Forall_app. split; [exact V4|]. constructor; [exact V3|constructor].
    - split; [exact I|]. intros s1 x E. cbn [exec] in E. injection E as <- <-. apply push_inv; [exact V|exact Hf|reflexivity].
    - split; [exact I|]. intros s1 x E. cbn [exec] in E. injection E as <- <-. exact V.
    - split; [exact I|]. intros s1 x E. cbn [exec] in E. destruct (server_query_start p) as [mx|]; injection E as <- <-; [|exact V]. apply push_inv; [exact V|exact Hf|reflexivity].
    - split; [exact I|]. intros s1 x E. cbn [exec] in E. unfold ts_query_step, ts_query_start in E.
      destruct (match qt_types p with None => Some None | Some ts => match py_create ts with Some n => Some (Some n) | None => None end end) as [sub|]; [|injection E as <- <-; exact V].
      destruct (choose_partition O (m_parts (s_mem s)) (qt_order_by p) sub) as [part|] eqn:Ch; [|injection E as <- <-; exact V].
      assert (Up : u64 part).
      { apply choose_in in Ch. apply in_map_iff in Ch as (ip & <- & Hi). rewrite Forall_forall in U. now apply U. }
      destruct (qt_order p).
      + destruct (query_pending _ _ _ _) as [es f]. destruct (filter_done f); injection E as <- <-; [exact V|]. apply push_inv; [exact V|split; [exact Up|exact Hf]|reflexivity].
      + injection E as <- <-. apply push_inv; [exact V|split; [exact Up|exact Hf]|reflexivity].
    - destruct (s_jobs s) as [|j js] eqn:J.
      + split; [exact I|]. intros s1 x E. cbn [exec] in E. unfold work in E. rewrite J in E. injection E as <- <-. exact V.
      + assert (Ja : pend s = job_amount j + (jobs_amount js + amount (ch_ts (s_cur s)))) by (unfold pend; rewrite J; unfold jobs_amount; cbn [fold_right]; lia).
        pose proof (jobs_nonneg js) as Jn. pose proof (amount_nonneg (ch_ts (s_cur s))) as Jc. pose proof (job_nonneg j) as Jj. inversion V4 as [|? ? Hj Hjs]; subst.
        assert (K : forall rs, sinv N P (Sys (s_conf s) (s_disk s) (s_mem s) (s_old s) (s_cur s) js rs)).
        { intros rs. apply jobs_inv; [exact V|exact Hjs|]. rewrite J. unfold jobs_amount at 2. cbn [fold_right]. fold (jobs_amount js). lia. }
        destruct j as [c|now|q p mx g|q p part sub mx g pre f]; cbn [job_fits jfit job_amount] in *.
        * split.
          -- apply (changes_of_cfit F N (s_disk s) c (N * P)); [lia|lia|exact Hj| |lia]. eapply Forall_impl; [|exact V11]. intros a H. cbn beta in *. lia.
          -- intros s1 x E. cbn [exec] in E. unfold work in E. rewrite J in E. injection E as <- <-. destruct Hj as [_ _ D T _ _].
             split; cbn [s_cur s_jobs s_mem s_disk done_ flush_write ref_write ts_write latest_write system_write db_types db_latest db_parts db_counts]; auto.
             ++ apply F_kputs; [exact T|exact V8].
             ++ apply F_kputs; [|exact V9]. eapply Forall_impl; [|exact D]. intros a [_ H]. exact H.
             ++ unfold pend. cbn [s_jobs s_cur done_]. apply (inc_fits (N * P) (jobs_amount js + amount (ch_ts (s_cur s)))); [lia| |lia].
                eapply Forall_impl; [|exact V11]. intros a H. cbn beta in *. lia.
             ++ unfold pend. cbn [s_jobs s_cur done_]. lia.
        * assert (Hm : mins_ok (m_parts (s_mem s))).
          { intros i p lm n Hi El En. rewrite Forall_forall in V6. destruct (V6 _ Hi) as (_ & c & Hc & Hp). cbn [snd] in Hp. exact (proj2 (Hj c p lm Hc Hp El) n En). }
          split.
          -- cbn [txn_fits]. split.
             ++ intros p n Hi. rewrite Forall_forall in V11. apply V11 in Hi. cbn [snd] in Hi. unfold u64. lia.
             ++ intros i p lm Hi El. rewrite Forall_forall in V6. destruct (V6 _ Hi) as (Hr & c & Hc & Hp). cbn [fst snd] in *. destruct (Hj c p lm Hc Hp El) as [L1 L2].
                split; [unfold u64; lia|]. split; [unfold u64; lia|]. split; assumption.
          -- intros s1 x E. cbn [exec] in E. unfold work in E. rewrite J in E.
             assert (Ci : counts_in (N * P - pend s) (s_disk s)) by (eapply Forall_impl; [|exact V11]; intros a H; cbn beta in *; lia).
             destruct (clean_fits O now (m_parts (s_mem s)) (s_disk s) (N * P - pend s) Hm Ci) as [(A1 & A2 & A3) B].
             destruct (cleanup O (m_parts (s_mem s)) now (s_disk s)) as [db ks]. cbn [fst] in *. injection E as <- <-.
             split; cbn [s_cur s_jobs s_mem s_disk done_]; auto; try (rewrite ?A1, ?A2, ?A3; assumption).
             ++ unfold pend at 1. cbn [s_jobs s_cur done_]. eapply Forall_impl; [|exact B]. intros a H. cbn beta in *. lia.
             ++ unfold pend. cbn [s_jobs s_cur done_]. lia.
        * split; [exact Hj|]. intros s1 x E. cbn [exec] in E. unfold work in E. rewrite J in E.
          destruct (query_refs O (s_disk s) (qs_server p) (mx + 1) (qs_last p)) as [es|]; [|discriminate]. injection E as <- <-. apply K.
        * split; [exact Hj|]. intros s1 x E. cbn [exec] in E. unfold work in E. rewrite J in E.
          destruct (query_stored (cf_cond (s_conf s)) (s_disk s) part p sub f) as [es f']. injection E as <- <-. apply K.
    - split; [exact I|]. intros s1 x E. cbn [exec] in E. destruct (take_ready q (s_ready s)) as [[r rs]|]; [|discriminate]. injection E as <- <-.
      apply jobs_inv; [exact V|exact V4|lia].
    - split.
      + cbn [txn_fits]. fold (zlen (cf_parts c)). split; [lia|]. intros p y Hi. rewrite Forall_forall in V10. apply V10 in Hi. cbn [fst] in Hi. lia.
      + intros s1 x E. cbn [exec] in E. destruct (open_db c (s_disk s)) as [[db m]|] eqn:Q; [|discriminate]. injection E as <- <-.
        apply (open_inv c (s_disk s)); auto. eapply Forall_impl; [|exact V11]. intros a H. cbn beta in *. lia.
  Qed.

  Lemma run_inv : forall tr N P s, sinv N P s -> N + zlen (events_of tr) <= Nm -> P + parts_of (confs_of tr) <= Pm ->
      Forall (fun ox => op_fits CS (fst ox)) tr -> Forall (sound F) (events_of tr) -> (forall c, In c (confs_of tr) -> In c CS) -> run_fits F O s tr.
  Proof.
    induction tr as [|[o x] tr IH]; intros N P s V HN HP Hf He Hc; [exact I|]. cbn [run_fits]. inversion Hf as [|? ? H1 H2]; subst. cbn [fst] in H1.
    assert (A : events_of ((o, x) :: tr) = match o with ORegister es => es | _ => [] end ++ events_of tr) by reflexivity.
    assert (B : confs_of ((o, x) :: tr) = match o with OReopen c => [c] | _ => [] end ++ confs_of tr) by reflexivity.
    assert (A' : zlen (events_of ((o, x) :: tr)) = n_events o + zlen (events_of tr)).
    { rewrite A. unfold zlen. rewrite app_length. destruct o; cbn [n_events List.length]; unfold zlen; lia. }
    assert (B' : parts_of (confs_of ((o, x) :: tr)) = n_parts o + parts_of (confs_of tr)).
    { rewrite B. unfold parts_of. destruct o; cbn [n_parts app fold_right]; unfold zlen; lia. }
    assert (0 <= zlen (events_of tr)) by (unfold zlen; lia).
    assert (0 <= parts_of (confs_of tr)) by (clear; unfold parts_of; induction (confs_of tr); cbn [fold_right]; lia).
    rewrite A in He. apply Forall_app in He as [He1 He2].
    destruct (step_inv N P s o V ltac:(lia) ltac:(lia) H1) as [S1 S2].
    { destruct o; auto. apply Hc. rewrite B. now left. }
    split; [exact S1|]. destruct (exec O s o) as [[s1 y]|]; [|exact I]. apply (IH (N + n_events o) (P + n_parts o)); auto; try lia.
    - exact (S2 _ _ eq_refl).
    - intros c Hi. apply Hc. rewrite B. apply in_or_app. now right.
  Qed.
End Fits.

Lemma event_sound : forall F x, event_ok x -> payload_ok F x -> sound F x.
Proof.
  intros F x (Hi & _ & Ht & Hs) Hp. split; [exact Hi|]. split; [destruct Ht; split; [assumption|lia]|]. split; [|exact Hp].
  intros t Et. destruct (Hs t Et). split; [assumption|lia].
Qed.

Lemma final_C85_fits : forall F O cf tr s, execution O cf tr s -> trace_fits F cf tr -> execution_fits F O cf tr.
Proof.
  intros F O cf tr s (s0 & S & _ & _ & He) [T1 T2 T3].
  assert (Q : parts_of (cf :: confs_of tr) = zlen (cf_parts cf) + parts_of (confs_of tr)) by reflexivity.
  assert (0 <= zlen (cf_parts cf)) by (unfold zlen; lia).
  assert (0 <= parts_of (confs_of tr)) by (clear; unfold parts_of; induction (confs_of tr); cbn [fold_right]; lia).
  assert (0 <= zlen (events_of tr)) by (unfold zlen; lia). fold (zlen (events_of tr)) in T2.
  split.
  - cbn [txn_fits]. fold (zlen (cf_parts cf)). split; [nia|]. intros p x [].
  - rewrite S. unfold start in S. destruct (open_db cf empty_db) as [[db m]|] eqn:E; [|discriminate]. injection S as <-.
    apply (run_inv F (cf :: confs_of tr) O (zlen (events_of tr)) (parts_of (cf :: confs_of tr)) T2 tr 0 (0 + zlen (cf_parts cf))).
    + apply (open_inv F _ cf empty_db db m 0 0); try constructor; try lia; try exact E. reflexivity.
    + lia.
    + lia.
    + exact T3.
    + rewrite Forall_forall in *. intros x Hx. apply event_sound; [now apply He|now apply T1].
    + intros c Hc. now right.
Qed.

Lemma final_C85_execution_obs : forall C F, codecs_ok C F -> decode_event C [] = None -> forall O size,
    (forall s e d, read9 C e = Some d -> size s e = or_size O s d) -> (forall l r, or_pick O l = Some r -> In r l) ->
    forall cf tr s, execution O cf tr s -> trace_fits F cf tr ->
    exists s0 e0 s' e, file_start C cf = Some (s0, e0) /\ file_runs C O size s0 e0 tr s' e /\
      in_memory s' = in_memory s /\ file_ok e /\ read9 C e = Some (s_disk s).
Proof. intros C F HC HE O size HS HP cf tr s X T. exact (final_C85_execution C F HC HE O size HS HP cf tr s X (final_C85_fits F O cf tr s X T)). Qed.
Lemma final_C85_seen_obs : forall C F, codecs_ok C F -> decode_event C [] = None -> forall O size,
    (forall s e d, read9 C e = Some d -> size s e = or_size O s d) -> (forall l r, or_pick O l = Some r -> In r l) ->
    forall cf tr s, execution O cf tr s -> trace_fits F cf tr ->
    forall s0 e0 tr' s' e, file_start C cf = Some (s0, e0) -> file_runs C O size s0 e0 tr' s' e -> map fst tr' = map fst tr ->
      tr' = tr /\ in_memory s' = in_memory s /\ file_ok e /\ read9 C e = Some (s_disk s).
Proof.
  intros C F HC HE O size HS HP cf tr s X T. exact (final_C85_seen C F HC HE O size HS HP cf tr s X (final_C85_fits F O cf tr s X T)).
Qed.
