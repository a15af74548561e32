(** LMDB backend: registration accepts exactly the events it should. *)
From Coq Require Import String Bool ZArith Lia Sorted List.
From Verif Require Import Base Kv Model_Types Model_Subscription Model_Order Model_Codec Keys
  Proof_Subscription Proof_Subscription2 Proof_Order Model_Lmdb Model_LmdbSys Spec_Lmdb Proof_Lmdb1 Proof_Lmdb2 Proof_Lmdb3.
Import ListNotations.
Open Scope list_scope.
Open Scope Z_scope.

Definition places_of (parts : list (Z * partition)) (e : event) : list (Z * timestamp) :=
  flat_map (fun pp => match place (snd pp) e with Some t => [(fst pp, t)] | None => [] end) parts.

Lemma ts_add_event_eq : forall parts c e,
    ts_add_event parts c e =
    (fold_left (ts_add1 e) (places_of parts e) c, map (fun pt => TimeseriesRef (place_key e pt)) (places_of parts e)).
Proof.
  intros parts c e. unfold ts_add_event.
  assert (Hg : forall parts c refs,
    fold_left (fun acc pp => let '(c, refs) := acc in
       if node_matches (pt_sub (snd pp)) (ev_type e) then
         match part_ts (snd pp) e with
         | None => (c, refs)
         | Some t =>
             let old := match dget Z.eqb (fst pp) c with Some l => l | None => [] end in
             (dset Z.eqb (fst pp) (old ++ [(t, e)]) c, refs ++ [TimeseriesRef (fst pp, t, ev_id e)])
         end
       else (c, refs)) parts (c, refs) =
    (fold_left (ts_add1 e) (places_of parts e) c, refs ++ map (fun pt => TimeseriesRef (place_key e pt)) (places_of parts e))).
  { clear. induction parts as [|[p pt] parts IH]; intros c refs.
    - cbn. now rewrite app_nil_r.
    - cbn [fold_left fst snd]. unfold places_of. cbn [flat_map fst snd]. fold (places_of parts e).
      assert (Hp : place pt e = if node_matches (pt_sub pt) (ev_type e) then part_ts pt e else None).
      { unfold place, part_ts. destruct (node_matches _ _); auto. }
      rewrite Hp. destruct (node_matches (pt_sub pt) (ev_type e)); [|apply IH].
      destruct (part_ts pt e) as [t|]; [|apply IH].
      rewrite IH. cbn [app fold_left map]. rewrite <- app_assoc. reflexivity. }
  now rewrite Hg.
Qed.

Lemma In_places : forall parts e p t, In (p, t) (places_of parts e) <->
    exists pt, In (p, pt) parts /\ place pt e = Some t.
Proof.
  intros parts e p t. unfold places_of. rewrite in_flat_map. split.
  - intros ([q pt] & Hin & H). cbn [fst snd] in H. destruct (place pt e) as [u|] eqn:E; [|destruct H].
    destruct H as [[= -> ->]|[]]. eauto.
  - intros (pt & Hin & E). exists (p, pt). split; auto. cbn [fst snd]. rewrite E. now left.
Qed.

Lemma NoDup_places : forall parts e, NoDup (keys parts) -> NoDup (map fst (places_of parts e)).
Proof.
  unfold keys, places_of. induction parts as [|[p pt] parts IH]; intros e Hnd; [constructor|].
  cbn [map fst flat_map snd] in *. inversion Hnd as [|? ? Hni Hnd']; subst.
  destruct (place pt e) as [t|]; cbn [app map fst]; auto. constructor; auto.
  intros Hin. apply Hni. apply in_map_iff in Hin as ([q u] & <- & Hin). apply In_places in Hin as (pt' & Hin & _).
  apply in_map_iff. exists (q, pt'). auto.
Qed.

Lemma visible_next : forall H cf e t, cf_cond cf e = true ->
    visible cf (H ++ [Entry cf e]) t =
    if etype_eqb (ev_type e) t && becomes_latest H cf e then Some e else visible cf H t.
Proof.
  intros H cf e t Hc. unfold visible. rewrite latest_of_next. cbn [en_ev en_conf].
  destruct (etype_eqb (ev_type e) t && becomes_latest H cf e) eqn:E; auto.
  apply andb_prop in E as [E1 E2]. apply etype_eqb_spec in E1. subst t.
  unfold becomes_latest in E2. apply andb_prop in E2 as [E2 _]. now rewrite E2, Hc.
Qed.

Lemma has_place_places : forall m d H cf e, mem_repr m d H cf -> conf_ok cf ->
    has_place cf e = match places_of (m_parts m) e with [] => false | _ => true end.
Proof.
  intros m d H cf e Hm Hco. apply eq_true_iff_eq. unfold has_place. rewrite existsb_exists. split.
  - intros (pt & Hin & Hp). destruct (place pt e) as [t|] eqn:Ep; [|discriminate].
    destruct (mr_pall _ _ _ _ Hm pt Hin) as (p & pt' & Hin' & Hk).
    destruct (mr_pin _ _ _ _ Hm _ _ Hin') as [Hin2 Hk2].
    assert (Hpd : part_data_of pt = part_data_of pt') by congruence.
    rewrite (part_data_place pt pt') in Ep by (eauto using nth_wf).
    assert (Hi : In (p, t) (places_of (m_parts m) e)) by (apply In_places; eauto).
    destruct (places_of (m_parts m) e); [destruct Hi|auto].
  - intros Hp. destruct (places_of (m_parts m) e) as [|[p t] l] eqn:E; [discriminate|].
    assert (Hi : In (p, t) (places_of (m_parts m) e)) by (rewrite E; now left).
    apply In_places in Hi as (pt & Hin & Hpl). exists pt. split; [eapply (mr_pin _ _ _ _ Hm); eauto|]. now rewrite Hpl.
Qed.

Lemma places_plan : forall m d H cf e p t, mem_repr m d H cf -> conf_ok cf ->
    (forall p p' x, kget zord p (db_parts d) = Some x -> kget zord p' (db_parts d) = Some x -> p = p') ->
    (In (p, t) (places_of (m_parts m) e) <->
     exists pt, In pt (cf_parts cf) /\ kget zord p (db_parts d) = Some (part_data_of pt) /\ place pt e = Some t).
Proof.
  intros m d H cf e p t Hm Hco Hinj. rewrite In_places. split.
  - intros (pt & Hin & Hp). exists pt. destruct (mr_pin _ _ _ _ Hm _ _ Hin). auto.
  - intros (pt & Hin & Hk & Hp). destruct (mr_pall _ _ _ _ Hm pt Hin) as (q & pt' & Hin' & Hk').
    assert (q = p) by (eapply Hinj; eauto). subst q. exists pt'. split; auto.
    destruct (mr_pin _ _ _ _ Hm _ _ Hin') as [Hin2 Hk2].
    rewrite <- Hp. apply part_data_place; eauto using nth_wf. congruence.
Qed.

Lemma register_spec : forall cf m ch e d H K, repr d H K -> mem_repr m d H cf -> conf_ok cf ->
    if accepts H cf e then
      exists pl m', register_event cf m ch e = Some (m', apply_plan ch pl) /\
        plan_for d H (Entry cf e) pl /\ mem_repr m' (store_plan d pl) (H ++ [Entry cf e]) cf
    else register_event cf m ch e = Some (m, ch).
Proof.
  intros cf m ch e d H K Hr Hm Hco.
  set (s := eid_server (ev_id e)).
  assert (Hlast : get_last_event_id (m_sys m) s = match last_ev H s with Some l => ev_id l | None => Eid s 0 0 end).
  { unfold get_last_event_id. rewrite (mr_ids _ _ _ _ Hm), (rp_ids _ _ _ Hr). destruct (last_ev H s); auto. }
  assert (Hlts : get_last_timestamp (m_sys m) s = match last_ev H s with Some l => ev_ts l | None => min_timestamp end).
  { unfold get_last_timestamp. rewrite (mr_tss _ _ _ _ Hm), (rp_tss _ _ _ Hr). destruct (last_ev H s); auto. }
  assert (Hfo : follows H e = negb (eid_leb (ev_id e) (get_last_event_id (m_sys m) s)) && negb (ts_ltb (ev_ts e) (get_last_timestamp (m_sys m) s))).
  { rewrite follows_eq by apply Hr. fold s. rewrite Hlast, Hlts, eid_leb_ltb, negb_involutive, <- ts_leb_ltb.
    destruct (last_ev H s) as [l|] eqn:El; [|now rewrite andb_true_r].
    destruct (eid_ltb (ev_id l) (ev_id e) && ts_leb (ev_ts l) (ev_ts e)) eqn:E; [|apply andb_false_r].
    rewrite andb_true_r. apply andb_prop in E as [E1 E2].
    pose proof (last_ev_server _ _ _ El) as Hs. apply last_ev_In in El as (en & Hin & <-).
    apply in_split in Hin as (H1 & H2 & E). pose proof (rp_ok _ _ _ Hr _ _ _ E) as Ha.
    apply goes_follows in Ha. unfold follows in Ha. apply andb_prop in Ha as [Ha _]. apply andb_prop in Ha as [Ha1 Ha2].
    rewrite Hs in Ha1. apply andb_true_intro. split; [eapply eid_ltb_trans; eauto|eapply ts_leb_trans; eauto]. }
  unfold register_event. fold s. unfold accepts. rewrite Hfo.
  destruct (eid_leb (ev_id e) (get_last_event_id (m_sys m) s)) eqn:E1; [reflexivity|].
  destruct (ts_ltb (ev_ts e) (get_last_timestamp (m_sys m) s)) eqn:E2; [reflexivity|].
  destruct (cf_cond cf e) eqn:E3; [|reflexivity]. cbn [negb andb].
  rewrite (has_place_places m d H cf e Hm Hco).
  rewrite ts_add_event_eq.
  set (pts := places_of (m_parts m) e).
  assert (Hnew : forall i, eid_server i = s -> known d i -> eid_ltb (ev_id e) i = false).
  { intros i Es (l & Hl & Hle). rewrite Es, (rp_ids _ _ _ Hr) in Hl. rewrite Hlast in E1.
    destruct (last_ev H s) as [x|]; [|discriminate]. injection Hl as <-.
    rewrite eid_leb_ltb in E1. apply negb_false_iff in E1.
    destruct (eid_ltb (ev_id e) i) eqn:Elt; auto.
    apply eid_leb_lt in Hle as [Hle|Hle].
    - pose proof (eid_ltb_trans _ _ _ Elt Hle) as Hx. rewrite (eid_ltb_asym _ _ Hx) in E1. discriminate.
    - rewrite Hle in Elt. rewrite (eid_ltb_asym _ _ Elt) in E1. discriminate. }
  assert (Hradd : forall c refs, ref_add (m_ref_last m) c e refs =
    Some (dset Z.eqb s (ev_id e) (m_ref_last m),
          dset Z.eqb s (ServerChanges (dset eid_eqb (ev_id e) (e, sof reford refs) (rc_added (server_changes_of c s))) (rc_removed (server_changes_of c s))) c)).
  { intros c refs. unfold ref_add. fold s. destruct (dget Z.eqb s (m_ref_last m)) as [i|] eqn:El; auto.
    apply (mr_last _ _ _ _ Hm) in El as [El1 El2]. now rewrite (Hnew i El1 El2). }
  (* the latest database *)
  assert (Hvis : dget etype_eqb (ev_type e) (ld_events (m_latest m)) = visible cf H (ev_type e)) by apply Hm.
  unfold latest_add. rewrite Hvis.
  assert (Hgt : match visible cf H (ev_type e) with Some p => ev_gt p e | None => false end =
                negb match visible cf H (ev_type e) with Some p => negb (newer p e) | None => true end).
  { destruct (visible cf H (ev_type e)); auto. now rewrite ev_gt_newer, negb_involutive. }
  rewrite Hgt.
  (* common part of the new memory *)
  assert (Hmem : forall pl ld', pl_ev pl = e -> plan_ok d pl ->
     (forall t r, dget etype_eqb t (ld_refs ld') = Some r <-> kget zord r (db_types (store_plan d pl)) = Some t) ->
     (forall t, dget etype_eqb t (ld_events ld') = visible cf (H ++ [Entry cf e]) t) ->
     NoDup (keys (ld_events ld')) ->
     (forall r t, kget zord r (db_types (store_plan d pl)) = Some t -> r < ld_next ld') ->
     mem_repr (Mem (SystemDb (dset Z.eqb s (ev_id e) (sd_ids (m_sys m))) (dset Z.eqb s (ev_ts e) (sd_tss (m_sys m))))
                   ld' (dset Z.eqb s (ev_id e) (m_ref_last m)) (m_parts m)) (store_plan d pl) (H ++ [Entry cf e]) cf).
  { intros pl ld' Ee Hpo H1 H2 H3 H4. constructor; cbn [m_sys m_latest m_ref_last m_parts sd_ids sd_tss]; auto.
    - intros s'. cbn [store_plan db_ids]. rewrite kget_kput, Ee. fold s. cbn [oeqb zord].
      destruct (s' =? s) eqn:E.
      + apply Z.eqb_eq in E. subst s'. now rewrite (dget_dset_same zeqb_spec).
      + apply Z.eqb_neq in E. rewrite (dget_dset_other zeqb_spec) by auto. apply Hm.
    - intros s'. cbn [store_plan db_tss]. rewrite kget_kput, Ee. fold s. cbn [oeqb zord].
      destruct (s' =? s) eqn:E.
      + apply Z.eqb_eq in E. subst s'. now rewrite (dget_dset_same zeqb_spec).
      + apply Z.eqb_neq in E. rewrite (dget_dset_other zeqb_spec) by auto. apply Hm.
    - intros s' i. destruct (Z.eq_dec s' s) as [->|Es].
      + rewrite (dget_dset_same zeqb_spec). intros [= <-]. split; auto. rewrite <- Ee. apply known_new.
      + rewrite (dget_dset_other zeqb_spec) by auto. intros Hl. apply (mr_last _ _ _ _ Hm) in Hl as [Hl1 Hl2].
        split; auto. apply known_store; auto. apply Hr.
    - apply Hm.
    - apply Hm.
    - apply Hm. }
  assert (Hparts : forall pt, In pt (cf_parts cf) -> exists p, kget zord p (db_parts d) = Some (part_data_of pt)).
  { intros pt Hin. destruct (mr_pall _ _ _ _ Hm pt Hin) as (p & _ & _ & Hp). eauto. }
  assert (Hpl : forall pl, pl_ev pl = e -> pl_places pl = pts ->
     match pl_latest pl with
              | None => becomes_latest H cf e = false
              | Some (r, new, prev) =>
                  becomes_latest H cf e = true /\
                  (if new : bool then (forall r', kget zord r' (db_types d) <> Some (ev_type e)) /\ kget zord r (db_types d) = None
                   else kget zord r (db_types d) = Some (ev_type e)) /\
                  prev = option_map ev_id (visible cf H (ev_type e))
              end -> plan_for d H (Entry cf e) pl).
  { intros pl Ee Ep El. constructor; cbn [en_ev en_conf]; auto.
    - rewrite Ep. apply NoDup_places. apply Hm.
    - intros p t. rewrite Ep. apply (places_plan m d H cf e p t Hm Hco). apply Hr. }
  assert (Hacc : accepts H cf e = becomes_latest H cf e || match pts with [] => false | _ => true end).
  { unfold accepts. rewrite Hfo, E3, (has_place_places m d H cf e Hm Hco). reflexivity. }
  destruct (becomes_latest H cf e) eqn:Eb; cbn [orb] in *.
  - (* becomes the latest one *)
    pose proof Eb as Eb'. unfold becomes_latest in Eb'. apply andb_prop in Eb' as [Ec Ev].
    unfold covers in Ec. rewrite Ec, Ev. cbn [negb].
    destruct (dget etype_eqb (ev_type e) (ld_refs (m_latest m))) as [r|] eqn:Er.
    + pose proof (proj1 (mr_refs _ _ _ _ Hm _ _) Er) as Hty.
      set (pl := Plan e (Some (r, false, option_map ev_id (visible cf H (ev_type e)))) pts).
      assert (Hpf : plan_for d H (Entry cf e) pl) by (apply Hpl; cbn; auto).
      assert (Hpo : plan_ok d pl) by (eapply plan_for_ok; eauto).
      exists pl. eexists. split; [|split].
      * cbn [rc_added]. unfold apply_plan. cbn [pl pl_ev pl_latest pl_places].
        destruct (visible cf H (ev_type e)) as [p|]; cbn [option_map]; rewrite Hradd; reflexivity.
      * exact Hpf.
      * apply Hmem; auto; cbn [ld_refs ld_events ld_next].
        -- intros t r'. apply Hm.
        -- intros t. rewrite (visible_next H cf e t E3), Eb, andb_true_r.
           destruct (etype_eqb (ev_type e) t) eqn:Et.
           ++ apply etype_eqb_spec in Et. subst t. apply (dget_dset_same etype_eqb_spec).
           ++ rewrite (dget_dset_other etype_eqb_spec); [apply Hm|]. intros ->.
              rewrite (eqb_refl' etype_eqb_spec) in Et. discriminate.
        -- apply (NoDup_dset etype_eqb_spec). apply Hm.
        -- apply Hm.
    + set (r := ld_next (m_latest m)).
      assert (Hfr : kget zord r (db_types d) = None).
      { destruct (kget zord r (db_types d)) as [t|] eqn:Ek; auto. apply (mr_next _ _ _ _ Hm) in Ek. unfold r in Ek. lia. }
      assert (Hno : forall r', kget zord r' (db_types d) <> Some (ev_type e)).
      { intros r' Hk. apply (mr_refs _ _ _ _ Hm) in Hk. congruence. }
      set (pl := Plan e (Some (r, true, option_map ev_id (visible cf H (ev_type e)))) pts).
      assert (Hpf : plan_for d H (Entry cf e) pl) by (apply Hpl; cbn; auto).
      assert (Hpo : plan_ok d pl) by (eapply plan_for_ok; eauto).
      exists pl. eexists. split; [|split].
      * cbn [rc_added]. unfold apply_plan. cbn [pl pl_ev pl_latest pl_places].
        destruct (visible cf H (ev_type e)) as [p|]; cbn [option_map]; rewrite Hradd; reflexivity.
      * exact Hpf.
      * apply Hmem; auto; cbn [ld_refs ld_events ld_next].
        -- intros t r'. cbn [store_plan db_types pl_latest pl_ev pl]. rewrite kget_kput. cbn [oeqb zord].
           destruct (etype_eqb (ev_type e) t) eqn:Et.
           ++ apply etype_eqb_spec in Et. subst t. rewrite (dget_dset_same etype_eqb_spec).
              destruct (r' =? r) eqn:E; [apply Z.eqb_eq in E; subst; tauto|].
              apply Z.eqb_neq in E. split; [intros [= <-]; congruence|]. intros Hk. exfalso. eapply Hno; eauto.
           ++ rewrite (dget_dset_other etype_eqb_spec).
              ** rewrite (mr_refs _ _ _ _ Hm). destruct (r' =? r) eqn:E; [|tauto].
                 apply Z.eqb_eq in E. subst. rewrite Hfr. split; [discriminate|]. intros [= <-].
                 rewrite (eqb_refl' etype_eqb_spec) in Et. discriminate.
              ** intros ->. rewrite (eqb_refl' etype_eqb_spec) in Et. discriminate.
        -- intros t. rewrite (visible_next H cf e t E3), Eb, andb_true_r.
           destruct (etype_eqb (ev_type e) t) eqn:Et.
           ++ apply etype_eqb_spec in Et. subst t. apply (dget_dset_same etype_eqb_spec).
           ++ rewrite (dget_dset_other etype_eqb_spec); [apply Hm|]. intros ->.
              rewrite (eqb_refl' etype_eqb_spec) in Et. discriminate.
        -- apply (NoDup_dset etype_eqb_spec). apply Hm.
        -- intros r' t. cbn [store_plan db_types pl_latest pl_ev pl]. rewrite kget_kput. cbn [oeqb zord].
           destruct (r' =? r) eqn:E; [apply Z.eqb_eq in E; subst; lia|]. intros Hk.
           apply (mr_next _ _ _ _ Hm) in Hk. unfold r. lia.
  - (* does not *)
    assert (Hna : (if negb (node_matches (cf_latest cf) (ev_type e)) then (m_latest m, ch_latest ch, None, None)
       else if negb match visible cf H (ev_type e) with Some p => negb (newer p e) | None => true end
            then (m_latest m, ch_latest ch, None, None)
            else
             let '(r, d1, c1) :=
               match dget etype_eqb (ev_type e) (ld_refs (m_latest m)) with
               | Some r => (r, m_latest m, ch_latest ch)
               | None => (ld_next (m_latest m), LatestDb (dset etype_eqb (ev_type e) (ld_next (m_latest m)) (ld_refs (m_latest m))) (ld_events (m_latest m)) (ld_next (m_latest m) + 1),
                   LatestChanges (lc_data (ch_latest ch)) (dset Z.eqb (ld_next (m_latest m)) (ev_type e) (lc_types (ch_latest ch))))
               end in
             (LatestDb (ld_refs d1) (dset etype_eqb (ev_type e) e (ld_events d1)) (ld_next d1),
              LatestChanges (dset Z.eqb r e (lc_data c1)) (lc_types c1), Some (LatestRef r),
              match visible cf H (ev_type e) with Some p => Some (ev_id p, LatestRef r) | None => None end))
       = (m_latest m, ch_latest ch, None, None)).
    { unfold becomes_latest, covers in Eb. destruct (node_matches (cf_latest cf) (ev_type e)); auto.
      cbn [andb negb] in *. now rewrite Eb. }
    rewrite Hna. clear Hna.
    destruct pts as [|pt pts'] eqn:Epts.
    + cbn. destruct m, ch; reflexivity.
    + set (pl := Plan e None pts).
      assert (Hpf : plan_for d H (Entry cf e) pl) by (apply Hpl; cbn; auto; now rewrite Epts).
      assert (Hpo : plan_ok d pl) by (eapply plan_for_ok; eauto).
      exists pl. eexists. split; [|split].
      * cbn [map]. rewrite Hradd. unfold apply_plan, plan_refs. cbn [pl pl_ev pl_latest pl_places app]. rewrite Epts. reflexivity.
      * exact Hpf.
      * apply Hmem; auto.
        -- intros t r'. apply Hm.
        -- intros t. rewrite (visible_next H cf e t E3), Eb, andb_false_r. apply Hm.
        -- apply Hm.
        -- apply Hm.
Qed.
