(** LMDB backend: the database as determined by a history of accepted events. *)
From Coq Require Import String Bool ZArith Lia Sorted List.
From Verif Require Import Base Kv Model_Types Model_Subscription Model_Order Model_Codec Keys
  Proof_Subscription Proof_Subscription2 Proof_Order Model_Lmdb Model_LmdbSys Spec_Lmdb Proof_Lmdb1 Proof_Lmdb2.
Import ListNotations.
Open Scope list_scope.
Open Scope Z_scope.

(** ** Orders *)

Lemma eid_ltb_trans : forall a b c, eid_ltb a b = true -> eid_ltb b c = true -> eid_ltb a c = true.
Proof. exact (otrans eidord). Qed.
Lemma eid_ltb_irrefl : forall a, eid_ltb a a = false.
Proof. exact (oirrefl eidord). Qed.
Lemma eid_ltb_asym : forall a b, eid_ltb a b = true -> eid_ltb b a = false.
Proof. exact (olt_asym eidord). Qed.
Lemma eid_leb_ltb : forall a b, eid_leb a b = negb (eid_ltb b a).
Proof.
  intros a b. destruct (eid_leb a b) eqn:E.
  - apply eid_leb_lt in E as [E| ->]; [now rewrite (eid_ltb_asym _ _ E)|now rewrite eid_ltb_irrefl].
  - destruct (ototal eidord a b) as [H|[H|H]]; cbn [oltb eidord] in H.
    + rewrite (proj2 (eid_leb_lt a b) (or_introl H)) in E. discriminate.
    + rewrite (proj2 (eid_leb_lt a b) (or_intror H)) in E. discriminate.
    + now rewrite H.
Qed.
Lemma ts_leb_ltb : forall a b, ts_leb a b = negb (ts_ltb b a).
Proof.
  intros [a1 a2] [b1 b2]. unfold ts_leb, ts_ltb. cbn [ts_s ts_us].
  destruct (a1 <? b1) eqn:E1; destruct (a1 =? b1) eqn:E2; destruct (a2 <=? b2) eqn:E3;
    destruct (b1 <? a1) eqn:E4; destruct (b1 =? a1) eqn:E5; destruct (b2 <? a2) eqn:E6; cbn; lia.
Qed.
Lemma ts_leb_trans : forall a b c, ts_leb a b = true -> ts_leb b c = true -> ts_leb a c = true.
Proof.
  intros [a1 a2] [b1 b2] [c1 c2]. unfold ts_leb. cbn [ts_s ts_us]. lia.
Qed.
Lemma ts_leb_refl : forall a, ts_leb a a = true.
Proof. intros [a1 a2]. unfold ts_leb. cbn [ts_s ts_us]. lia. Qed.

Lemma ev_gt_newer : forall a b, ev_gt a b = newer a b.
Proof.
  intros a b. unfold ev_gt, newer, server_eqb.
  destruct (eid_eqb (ev_id a) (ev_id b)) eqn:E.
  - apply eid_eqb_spec in E. rewrite E, Z.eqb_refl. now rewrite eid_ltb_irrefl.
  - destruct (eid_server (ev_id a) =? eid_server (ev_id b)); auto.
    destruct (ts_eqb (ev_ts a) (ev_ts b)) eqn:E2; cbn; auto.
    apply ts_eqb_spec in E2. rewrite E2. symmetry.
    destruct (ev_ts b) as [x y]. unfold ts_ltb. cbn [ts_s ts_us]. lia.
Qed.

(** ** Histories *)

(** Entries follow each other and meet their conditions.  (They need not have a
    place in the database.) *)
Definition goes_on (H : history) (cf : conf) (e : event) : bool := follows H e && cf_cond cf e.
Definition hist_ok (H : history) : Prop :=
  forall H1 en H2, H = H1 ++ en :: H2 -> goes_on H1 (en_conf en) (en_ev en) = true.

Lemma hist_ok_nil : hist_ok [].
Proof. intros [|] ? ? [=]. Qed.

Lemma snoc_split : forall (A : Type) (l l1 l2 : list A) x y, l ++ [x] = l1 ++ y :: l2 ->
    (l2 = [] /\ l = l1 /\ x = y) \/ exists l3, l2 = l3 ++ [x] /\ l = l1 ++ y :: l3.
Proof.
  intros A l l1 l2 x y H. destruct (@exists_last _ (y :: l2)) as (l' & a & E); [discriminate|].
  destruct l2 as [|z l2].
  - left. apply app_inj_tail in H as [-> ->]. auto.
  - right. destruct (@exists_last _ (z :: l2)) as (l3 & b & E3); [discriminate|]. rewrite E3 in *.
    exists l3. change (y :: l3 ++ [b]) with ((y :: l3) ++ [b]) in H. rewrite app_assoc in H.
    apply app_inj_tail in H as [-> ->]. auto.
Qed.

Lemma hist_ok_snoc : forall H en, hist_ok (H ++ [en]) <-> hist_ok H /\ goes_on H (en_conf en) (en_ev en) = true.
Proof.
  intros H en. split.
  - intros Hk. split; [|apply (Hk H en []); auto]. intros H1 en' H2 ->. apply (Hk H1 en' (H2 ++ [en])).
    now rewrite <- app_assoc.
  - intros [Hk Ha] H1 en' H2 E. apply snoc_split in E as [(-> & -> & ->)|(H3 & -> & ->)]; auto.
    eapply Hk; eauto.
Qed.

Lemma hist_ok_app : forall H1 H2, hist_ok (H1 ++ H2) -> hist_ok H1.
Proof.
  intros H1 H2 Hk A en B ->. apply (Hk A en (B ++ H2)). now rewrite <- app_assoc.
Qed.

Definition last_step (s : Z) (cur : option event) (en : entry) : option event :=
  if eid_server (ev_id (en_ev en)) =? s then Some (en_ev en) else cur.
Definition last_ev (H : history) (s : Z) : option event := fold_left (last_step s) H None.

Lemma last_ev_snoc : forall H en s, last_ev (H ++ [en]) s = last_step s (last_ev H s) en.
Proof. intros. unfold last_ev. now rewrite fold_left_app. Qed.
Lemma latest_of_snoc : forall H en t, latest_of (H ++ [en]) t = latest_step t (latest_of H t) en.
Proof. intros. unfold latest_of. now rewrite fold_left_app. Qed.

Lemma accepts_follows : forall H cf e, accepts H cf e = true -> follows H e = true.
Proof. intros H cf e Ha. unfold accepts in Ha. apply andb_prop in Ha as [Ha _]. apply andb_prop in Ha. tauto. Qed.
Lemma accepts_goes : forall H cf e, accepts H cf e = true -> goes_on H cf e = true.
Proof. intros H cf e Ha. unfold accepts in Ha. now apply andb_prop in Ha as [Ha _]. Qed.
Lemma goes_follows : forall H cf e, goes_on H cf e = true -> follows H e = true.
Proof. intros H cf e Ha. unfold goes_on in Ha. now apply andb_prop in Ha as [Ha _]. Qed.

Lemma last_ev_server : forall H s l, last_ev H s = Some l -> eid_server (ev_id l) = s.
Proof.
  intros H s. induction H as [|en H IH] using rev_ind; intros l; [discriminate|].
  rewrite last_ev_snoc. unfold last_step. destruct (_ =? s) eqn:E; auto.
  apply Z.eqb_eq in E. intros [= <-]. auto.
Qed.

Lemma last_ev_In : forall H s l, last_ev H s = Some l -> exists en, In en H /\ en_ev en = l.
Proof.
  intros H s. induction H as [|en H IH] using rev_ind; intros l; [discriminate|].
  rewrite last_ev_snoc. unfold last_step. destruct (_ =? s) eqn:E.
  - intros [= <-]. exists en. rewrite in_app_iff. cbn. auto.
  - intros Hl. apply IH in Hl as (x & Hx & <-). exists x. rewrite in_app_iff. auto.
Qed.

Lemma server_eqb_iff : forall a b, server_eqb a b = true <-> eid_server (ev_id a) = eid_server (ev_id b).
Proof. intros. unfold server_eqb. apply Z.eqb_eq. Qed.

Lemma last_ev_max : forall H, hist_ok H -> forall en, In en H -> exists l,
    last_ev H (eid_server (ev_id (en_ev en))) = Some l /\
    eid_leb (ev_id (en_ev en)) (ev_id l) = true /\ ts_leb (ev_ts (en_ev en)) (ev_ts l) = true.
Proof.
  induction H as [|x H IH] using rev_ind; intros Hk en Hin; [easy|].
  apply hist_ok_snoc in Hk as [Hk Ha]. rewrite last_ev_snoc. unfold last_step.
  destruct (eid_server (ev_id (en_ev x)) =? eid_server (ev_id (en_ev en))) eqn:E.
  - eexists. split; eauto. apply in_app_or in Hin as [Hin|[->|[]]].
    + apply goes_follows in Ha. unfold follows in Ha. apply andb_prop in Ha as [_ Ha].
      rewrite forallb_forall in Ha. specialize (Ha _ Hin). apply orb_prop in Ha as [Ha|Ha].
      * apply Z.eqb_eq in E. apply negb_true_iff in Ha. apply not_true_iff_false in Ha. exfalso. apply Ha.
        apply server_eqb_iff. auto.
      * apply andb_prop in Ha as [Ha1 Ha2]. split; auto. apply eid_leb_lt. auto.
    + split; [apply eid_leb_lt; auto|apply ts_leb_refl].
  - apply Z.eqb_neq in E. apply in_app_or in Hin as [Hin|[->|[]]]; [auto|congruence].
Qed.

Lemma follows_eq : forall H e, hist_ok H -> follows H e =
    eid_ltb (Eid (eid_server (ev_id e)) 0 0) (ev_id e) && ts_leb min_timestamp (ev_ts e) &&
    match last_ev H (eid_server (ev_id e)) with
    | Some l => eid_ltb (ev_id l) (ev_id e) && ts_leb (ev_ts l) (ev_ts e)
    | None => true
    end.
Proof.
  intros H e Hk. unfold follows. f_equal. apply eq_true_iff_eq. rewrite forallb_forall. split.
  - intros Hf. destruct (last_ev H (eid_server (ev_id e))) as [l|] eqn:El; auto.
    pose proof (last_ev_server _ _ _ El) as Hs. apply last_ev_In in El as (en & Hin & <-).
    specialize (Hf _ Hin). apply orb_prop in Hf as [Hf|Hf]; auto.
    apply negb_true_iff, not_true_iff_false in Hf. exfalso. apply Hf. now apply server_eqb_iff.
  - intros Hl en Hin. destruct (server_eqb (en_ev en) e) eqn:E; auto. cbn [negb orb].
    apply server_eqb_iff in E. destruct (last_ev_max H Hk en Hin) as (l & H1 & H2 & H3).
    rewrite E in H1. rewrite H1 in Hl. apply andb_prop in Hl as [Hl1 Hl2]. apply andb_true_intro. split.
    + apply eid_leb_lt in H2 as [H2|H2]; [eapply eid_ltb_trans; eauto|congruence].
    + eapply ts_leb_trans; eauto.
Qed.

Lemma latest_of_In : forall H t e, latest_of H t = Some e ->
    exists en, In en H /\ en_ev en = e /\ ev_type e = t /\ covers (en_conf en) t = true.
Proof.
  induction H as [|en H IH] using rev_ind; intros t e; [discriminate|].
  rewrite latest_of_snoc. unfold latest_step.
  destruct (etype_eqb (ev_type (en_ev en)) t && covers (en_conf en) t) eqn:E.
  - apply andb_prop in E as [E1 E2]. apply etype_eqb_spec in E1.
    assert (Hn : Some (en_ev en) = Some e -> exists en0, In en0 (H ++ [en]) /\ en_ev en0 = e /\ ev_type e = t /\ covers (en_conf en0) t = true).
    { intros [= <-]. exists en. rewrite in_app_iff. cbn. auto. }
    destruct (latest_of H t) as [p|] eqn:El; auto.
    destruct (cf_cond (en_conf en) p && newer p (en_ev en)); auto.
    intros [= <-]. destruct (IH _ _ El) as (x & Hx & Hy). exists x. rewrite in_app_iff. auto.
  - intros Hl. destruct (IH _ _ Hl) as (x & Hx & Hy). exists x. rewrite in_app_iff. auto.
Qed.

(** ** Partitions *)

Lemma In_etype_insert : forall t l x, In x (etype_insert t l) <-> x = t \/ In x l.
Proof.
  intros t l x. induction l as [|u l IH]; cbn [etype_insert]; [cbn; intuition|].
  destruct (etype_leb t u); cbn [In]; [intuition|]. rewrite IH. cbn [In]. intuition.
Qed.

Lemma In_etype_sort : forall l x, In x (etype_sort l) <-> In x l.
Proof.
  induction l as [|t l IH]; intros x; cbn [etype_sort fold_right]; [easy|].
  rewrite In_etype_insert. fold (etype_sort l). rewrite IH. cbn [In]. intuition.
Qed.

Lemma existsb_same : forall (A : Type) (f : A -> bool) l l', (forall x, In x l <-> In x l') -> existsb f l = existsb f l'.
Proof.
  intros A f l l' H. apply eq_true_iff_eq. rewrite !existsb_exists. split; intros (x & Hx & Hf); exists x; split; auto; now apply H.
Qed.

Lemma part_data_place : forall a b e, wf (pt_sub a) -> wf (pt_sub b) -> part_data_of a = part_data_of b -> place a e = place b e.
Proof.
  intros a b e Ha Hb [= Ho Hq]. unfold place.
  assert (Hm : node_matches (pt_sub a) (ev_type e) = node_matches (pt_sub b) (ev_type e)).
  { rewrite !to_qts_matches by auto. apply existsb_same. intros x. rewrite <- (In_etype_sort _ x), Hq. apply In_etype_sort. }
  rewrite Hm. destruct (pt_order a), (pt_order b); try discriminate; reflexivity.
Qed.

(** ** The content of the database *)

Definition cnt (p : Z) (m : list (ts_key * event)) : Z :=
  zlen (filter (fun kv => fst (fst (fst kv)) =? p) m).

(** An event is kept under a key. *)
Definition kept (d : ldb) (H : history) (k : ts_key) (e : event) : Prop :=
  exists cf pt, In (Entry cf e) H /\ In pt (cf_parts cf) /\
    kget zord (fst (fst k)) (db_parts d) = Some (part_data_of pt) /\
    place pt e = Some (snd (fst k)) /\ snd k = ev_id e.

Definition no_hidden (H : history) : Prop :=
  forall H1 en H2, H = H1 ++ en :: H2 -> forall p, latest_of H1 (ev_type (en_ev en)) = Some p ->
    covers (en_conf en) (ev_type (en_ev en)) = true -> cf_cond (en_conf en) p = true.

(** The places in which an event with an id is stored. *)
Definition stored_at (d : ldb) (r : event_ref) (i : event_id) : Prop :=
  match r with
  | LatestRef k => exists e, kget zord k (db_latest d) = Some e /\ ev_id e = i
  | TimeseriesRef k => exists e, kget keyord k (db_ts d) = Some e /\ ev_id e = i
  end.

Record repr (d : ldb) (H : history) (K : list ts_key) : Prop := {
  rp_ok : hist_ok H;
  rp_base : base d;
  rp_conf : forall en, In en H -> conf_ok (en_conf en);
  rp_evs : forall en, In en H -> event_ok (en_ev en);
  rp_ids : forall s, kget zord s (db_ids d) = option_map ev_id (last_ev H s);
  rp_tss : forall s, kget zord s (db_tss d) = option_map ev_ts (last_ev H s);
  rp_inj : forall r r' t, kget zord r (db_types d) = Some t -> kget zord r' (db_types d) = Some t -> r = r';
  rp_types : forall t, latest_of H t <> None <-> exists r, kget zord r (db_types d) = Some t;
  rp_latest : forall r e, kget zord r (db_latest d) = Some e <->
      kget zord r (db_types d) = Some (ev_type e) /\ latest_of H (ev_type e) = Some e;
  rp_psorted : ksorted zord (db_parts d);
  rp_pinj : forall p p' x, kget zord p (db_parts d) = Some x -> kget zord p' (db_parts d) = Some x -> p = p';
  rp_parts : forall en pt, In en H -> In pt (cf_parts (en_conf en)) ->
      exists p, kget zord p (db_parts d) = Some (part_data_of pt);
  rp_ts : forall k e, kget keyord k (db_ts d) = Some e <-> kept d H k e /\ ~ In k K;
  rp_counts : forall p, partition_count (db_counts d) p = cnt p (db_ts d);
  rp_gone : forall k, In k K -> known d (snd k);
  rp_refs : forall r i, stored_at d r i -> In r (refs_at (db_ref d) i);
  rp_exact : no_hidden H -> forall r i, In r (refs_at (db_ref d) i) -> stored_at d r i }.

(** What memory knows of a database and a history. *)
Record mem_repr (m : mem) (d : ldb) (H : history) (cf : conf) : Prop := {
  mr_ids : forall s, dget Z.eqb s (sd_ids (m_sys m)) = kget zord s (db_ids d);
  mr_tss : forall s, dget Z.eqb s (sd_tss (m_sys m)) = kget zord s (db_tss d);
  mr_refs : forall t r, dget etype_eqb t (ld_refs (m_latest m)) = Some r <-> kget zord r (db_types d) = Some t;
  mr_events : forall t, dget etype_eqb t (ld_events (m_latest m)) = visible cf H t;
  mr_nodup : NoDup (keys (ld_events (m_latest m)));
  mr_next : forall r t, kget zord r (db_types d) = Some t -> r < ld_next (m_latest m);
  mr_last : forall s i, dget Z.eqb s (m_ref_last m) = Some i -> eid_server i = s /\ known d i;
  mr_pnodup : NoDup (keys (m_parts m));
  mr_pin : forall p pt, In (p, pt) (m_parts m) -> In pt (cf_parts cf) /\ kget zord p (db_parts d) = Some (part_data_of pt);
  mr_pall : forall pt, In pt (cf_parts cf) ->
      exists p pt', In (p, pt') (m_parts m) /\ kget zord p (db_parts d) = Some (part_data_of pt) }.

(** The plan of an event after a history. *)
Record plan_for (d : ldb) (H : history) (en : entry) (pl : plan) : Prop := {
  pf_ev : pl_ev pl = en_ev en;
  pf_latest : match pl_latest pl with
              | None => becomes_latest H (en_conf en) (en_ev en) = false
              | Some (r, new, prev) =>
                  becomes_latest H (en_conf en) (en_ev en) = true /\
                  (if new : bool then (forall r', kget zord r' (db_types d) <> Some (ev_type (en_ev en))) /\ kget zord r (db_types d) = None
                   else kget zord r (db_types d) = Some (ev_type (en_ev en))) /\
                  prev = option_map ev_id (visible (en_conf en) H (ev_type (en_ev en)))
              end;
  pf_nodup : NoDup (map fst (pl_places pl));
  pf_places : forall p t, In (p, t) (pl_places pl) <->
      exists pt, In pt (cf_parts (en_conf en)) /\ kget zord p (db_parts d) = Some (part_data_of pt) /\
                 place pt (en_ev en) = Some t }.

Lemma nth_wf : forall cf pt, conf_ok cf -> In pt (cf_parts cf) -> wf (pt_sub pt).
Proof. intros cf pt [_ H] Hin. rewrite Forall_forall in H. apply py_subscription_wf. auto. Qed.

(** ** Storing an event *)

Lemma latest_of_next : forall H en t, latest_of (H ++ [en]) t =
    if etype_eqb (ev_type (en_ev en)) t && becomes_latest H (en_conf en) (en_ev en) then Some (en_ev en) else latest_of H t.
Proof.
  intros H en t. rewrite latest_of_snoc. unfold latest_step, becomes_latest, visible.
  destruct (etype_eqb (ev_type (en_ev en)) t) eqn:E; auto. apply etype_eqb_spec in E. subst t. cbn [andb].
  destruct (covers (en_conf en) (ev_type (en_ev en))) eqn:Ec; auto. cbn [andb].
  destruct (latest_of H (ev_type (en_ev en))) as [p|] eqn:El; auto.
  destruct (cf_cond (en_conf en) p) eqn:Ep; cbn [andb]; auto.
  destruct (newer p (en_ev en)); reflexivity.
Qed.

Lemma becomes_visible : forall H cf e, becomes_latest H cf e = false ->
    covers cf (ev_type e) = true -> latest_of H (ev_type e) <> None.
Proof.
  intros H cf e Hb Hc. unfold becomes_latest, visible in Hb. rewrite Hc in Hb. cbn [andb] in Hb.
  destruct (latest_of H (ev_type e)); [discriminate|discriminate].
Qed.

Lemma cnt_kput : forall p k (e : event) m, kget keyord k m = None ->
    cnt p (kput keyord k e m) = cnt p m + (if fst (fst k) =? p then 1 else 0).
Proof.
  unfold cnt, zlen. intros p k e m. induction m as [|[k' e'] m IH]; intros Hf.
  - cbn. destruct (fst (fst k) =? p); cbn [List.length]; lia.
  - cbn [kput]. unfold kget in Hf. cbn [dget] in Hf. destruct (oeqb keyord k k') eqn:E1; [discriminate|].
    destruct (oltb keyord k k') eqn:E2; cbn [filter fst].
    + destruct (fst (fst k) =? p); destruct (fst (fst k') =? p); cbn [List.length]; lia.
    + assert (E3 : oltb keyord k' k = true).
      { destruct (oltb_false keyord _ _ E2) as [->|]; auto. now rewrite (eqb_refl' (oeqb_spec keyord)) in E1. }
      rewrite E3. cbn [filter fst].
      specialize (IH Hf). destruct (fst (fst k') =? p); cbn [List.length]; lia.
Qed.

Lemma partition_count_inc : forall m pt p, partition_count (inc_count m pt) p =
    partition_count m p + (if fst pt =? p then 1 else 0).
Proof.
  intros. unfold inc_count. rewrite partition_count_kput. rewrite (Z.eqb_sym p).
  destruct (fst pt =? p) eqn:E; [|lia]. apply Z.eqb_eq in E. rewrite E. reflexivity.
Qed.

Lemma counts_places : forall e pts m c, NoDup (map fst pts) ->
    (forall pt, In pt pts -> kget keyord (place_key e pt) m = None) ->
    (forall p, partition_count c p = cnt p m) ->
    forall p, partition_count (fold_left inc_count pts c) p =
              cnt p (fold_left (fun m pt => kput keyord (place_key e pt) e m) pts m).
Proof.
  intros e pts. induction pts as [|pt pts IH]; cbn [fold_left map]; intros m c Hnd Hf Hc; auto.
  inversion Hnd as [|? ? Hni Hnd']; subst. apply IH; auto.
  - intros pt' Hin. rewrite kget_kput_other; [apply Hf; now right|].
    unfold place_key. intros [= E _]. apply Hni. rewrite <- E. now apply in_map.
  - intros p. rewrite partition_count_inc, cnt_kput by (apply Hf; now left). rewrite Hc. reflexivity.
Qed.

Lemma hist_known : forall d H K en, repr d H K -> In en H -> known d (ev_id (en_ev en)).
Proof.
  intros d H K en Hr Hin. destruct (last_ev_max H (rp_ok _ _ _ Hr) en Hin) as (l & Hl & Hle & _).
  exists (ev_id l). rewrite (rp_ids _ _ _ Hr), Hl. auto.
Qed.

Lemma place_keys : forall e pts k, existsb (fun pt => key_eqb k (place_key e pt)) pts = true <->
    In (fst k) pts /\ snd k = ev_id e.
Proof.
  intros e pts [[p t] i]. rewrite existsb_exists. split.
  - intros ([q u] & Hin & E). apply key_eqb_spec in E. injection E as -> -> ->. auto.
  - intros [Hin E]. exists (p, t). split; auto. apply key_eqb_spec. cbn in E. subst. reflexivity.
Qed.

Lemma plan_for_ok : forall d H K en pl, repr d H K -> plan_for d H en pl ->
    accepts H (en_conf en) (en_ev en) = true ->
    (forall pt, In pt (cf_parts (en_conf en)) -> exists p, kget zord p (db_parts d) = Some (part_data_of pt)) ->
    plan_ok d pl.
Proof.
  intros d H K en pl Hr Hf Ha Hparts. constructor.
  - intros l. rewrite (pf_ev _ _ _ _ Hf), (rp_ids _ _ _ Hr). intros Hl.
    pose proof (accepts_follows _ _ _ Ha) as Hfo. rewrite follows_eq in Hfo by apply Hr.
    destruct (last_ev H (eid_server (ev_id (en_ev en)))) as [x|]; [|discriminate].
    injection Hl as <-. apply andb_prop in Hfo as [_ Hfo]. apply andb_prop in Hfo. tauto.
  - apply Hf.
  - intros H0. unfold plan_refs in H0. apply app_eq_nil in H0 as [H1 H2].
    pose proof (pf_latest _ _ _ _ Hf) as Hl.
    destruct (pl_latest pl) as [[[r n] i]|]; [discriminate|].
    unfold accepts in Ha. rewrite Hl in Ha. apply andb_prop in Ha as [_ Ha]. cbn [orb] in Ha.
    apply existsb_exists in Ha as (pt & Hin & Hp). destruct (place pt (en_ev en)) as [t|] eqn:Ep; [|discriminate].
    destruct (Hparts pt Hin) as (p & Hk).
    assert (Hi : In (p, t) (pl_places pl)) by (apply (pf_places _ _ _ _ Hf); eauto).
    destruct (pl_places pl); [destruct Hi|discriminate].
  - intros r n i El. pose proof (pf_latest _ _ _ _ Hf) as Hl. rewrite El in Hl.
    destruct Hl as (_ & _ & Hv). unfold visible in Hv.
    destruct (latest_of H (ev_type (en_ev en))) as [x|] eqn:Ex; [|discriminate].
    destruct (covers (en_conf en) (ev_type (en_ev en)) && cf_cond (en_conf en) x); [|discriminate].
    injection Hv as ->. apply latest_of_In in Ex as (en' & Hin & <- & _).
    eapply hist_known; eauto.
Qed.

Lemma no_hidden_snoc : forall H en, no_hidden (H ++ [en]) -> no_hidden H /\
    forall p, latest_of H (ev_type (en_ev en)) = Some p -> covers (en_conf en) (ev_type (en_ev en)) = true -> cf_cond (en_conf en) p = true.
Proof.
  intros H en Hn. split.
  - intros H1 en' H2 ->. apply (Hn H1 en' (H2 ++ [en])). now rewrite <- app_assoc.
  - apply (Hn H en []). reflexivity.
Qed.

Lemma store_repr : forall d H K en pl, repr d H K -> plan_for d H en pl ->
    accepts H (en_conf en) (en_ev en) = true -> conf_ok (en_conf en) -> event_ok (en_ev en) ->
    (forall pt, In pt (cf_parts (en_conf en)) -> exists p, kget zord p (db_parts d) = Some (part_data_of pt)) ->
    repr (store_plan d pl) (H ++ [en]) K.
Proof.
  intros d H K en pl Hr Hf Ha Hco Hev Hparts.
  pose proof (plan_for_ok _ _ _ _ _ Hr Hf Ha Hparts) as Hpo.
  pose proof (pf_ev _ _ _ _ Hf) as Ee. pose proof (pf_latest _ _ _ _ Hf) as Hl.
  pose proof (rp_base _ _ _ Hr) as Hb.
  assert (Hnk : ~ known d (ev_id (en_ev en))).
  { intros Hk. rewrite <- Ee in Hk. apply (known_neq _ _ _ Hk Hpo). reflexivity. }
  assert (Hkmono : forall i, known d i -> known (store_plan d pl) i).
  { intros i. now apply known_store. }
  assert (Htg : forall k, kget keyord k (db_ts (store_plan d pl)) =
                if existsb (fun pt => key_eqb k (place_key (en_ev en) pt)) (pl_places pl) then Some (en_ev en) else kget keyord k (db_ts d)).
  { intros k. cbn [store_plan db_ts]. rewrite kget_places, Ee. reflexivity. }
  assert (Hlat : forall k, kget zord k (db_latest (store_plan d pl)) =
      match pl_latest pl with Some (r, _, _) => if k =? r then Some (en_ev en) else kget zord k (db_latest d) | None => kget zord k (db_latest d) end).
  { intros k. cbn [store_plan db_latest]. destruct (pl_latest pl) as [[[r n] o]|]; auto. rewrite kget_kput, Ee. reflexivity. }
  assert (Htyp : forall k, kget zord k (db_types (store_plan d pl)) =
      match pl_latest pl with Some (r, true, _) => if k =? r then Some (ev_type (en_ev en)) else kget zord k (db_types d) | _ => kget zord k (db_types d) end).
  { intros k. cbn [store_plan db_types]. destruct (pl_latest pl) as [[[r []] o]|]; auto. rewrite kget_kput, Ee. reflexivity. }
  assert (Htyr : forall r n o, pl_latest pl = Some (r, n, o) -> kget zord r (db_types (store_plan d pl)) = Some (ev_type (en_ev en))).
  { intros r n o El. rewrite Htyp. rewrite El in *. destruct Hl as (_ & Hl & _). destruct n; auto.
    now rewrite Z.eqb_refl. }
  assert (Hold : forall r n o r', pl_latest pl = Some (r, n, o) -> r' <> r -> kget zord r' (db_types d) <> Some (ev_type (en_ev en))).
  { intros r n o r' El Hne Hr'. rewrite El in Hl. destruct Hl as (_ & Hl & _). destruct n.
    - destruct Hl as [Hl _]. now apply (Hl r').
    - apply Hne. eapply (rp_inj _ _ _ Hr); eauto. }
  constructor.
  - apply hist_ok_snoc. split; [apply Hr|now apply accepts_goes].
  - now apply base_store.
  - intros x Hin. apply in_app_or in Hin as [Hin|[<-|[]]]; auto. now apply (rp_conf _ _ _ Hr).
  - intros x Hin. apply in_app_or in Hin as [Hin|[<-|[]]]; auto. now apply (rp_evs _ _ _ Hr).
  - intros s. cbn [store_plan db_ids]. rewrite kget_kput, last_ev_snoc, Ee. unfold last_step. cbn [oeqb zord].
    rewrite (Z.eqb_sym s). destruct (_ =? s); auto. apply Hr.
  - intros s. cbn [store_plan db_tss]. rewrite kget_kput, last_ev_snoc, Ee. unfold last_step. cbn [oeqb zord].
    rewrite (Z.eqb_sym s). destruct (_ =? s); auto. apply Hr.
  - intros r r' t. rewrite !Htyp. destruct (pl_latest pl) as [[[r0 []] o]|] eqn:El; try apply (rp_inj _ _ _ Hr).
    destruct Hl as (_ & [Hl _] & _).
    destruct (r =? r0) eqn:E1; destruct (r' =? r0) eqn:E2; try apply (rp_inj _ _ _ Hr).
    + apply Z.eqb_eq in E1, E2. congruence.
    + intros [= <-] Hr'. exfalso. eapply Hl; eauto.
    + intros Hr' [= <-]. exfalso. eapply Hl; eauto.
  - intros t. rewrite latest_of_next.
    destruct (pl_latest pl) as [[[r0 n] o]|] eqn:El.
    + destruct Hl as (Hbl & Hl & _). rewrite Hbl, andb_true_r.
      destruct (etype_eqb (ev_type (en_ev en)) t) eqn:Et.
      * apply etype_eqb_spec in Et. subst t. split; [|discriminate]. intros _. exists r0. eauto.
      * rewrite (rp_types _ _ _ Hr). assert (Hne : ev_type (en_ev en) <> t).
        { intros <-. rewrite (eqb_refl' etype_eqb_spec) in Et. discriminate. }
        split; intros [r Hk]; exists r; rewrite Htyp in *; destruct n; auto.
        -- destruct (r =? r0) eqn:E; auto. apply Z.eqb_eq in E. subst. destruct Hl as [_ Hl]. congruence.
        -- destruct (r =? r0) eqn:E; auto. congruence.
    + rewrite Hl, andb_false_r. rewrite (rp_types _ _ _ Hr).
      split; intros [r Hk]; exists r; rewrite Htyp in *; auto.
  - intros r e. rewrite latest_of_next. destruct (pl_latest pl) as [[[r0 n] o]|] eqn:El.
    + pose proof (Htyr _ _ _ eq_refl) as Ht0. destruct Hl as (Hbl & Hl & _). rewrite Hbl, andb_true_r.
      rewrite Hlat. destruct (r =? r0) eqn:E.
      * apply Z.eqb_eq in E. subst r0. rewrite Ht0. split.
        -- intros [= <-]. now rewrite (eqb_refl' etype_eqb_spec).
        -- intros [[= E1] H2]. rewrite E1, (eqb_refl' etype_eqb_spec) in H2. congruence.
      * apply Z.eqb_neq in E. rewrite Htyp.
        assert (Hn : (if n then (if r =? r0 then Some (ev_type (en_ev en)) else kget zord r (db_types d)) else kget zord r (db_types d)) = kget zord r (db_types d)).
        { destruct n; auto. apply Z.eqb_neq in E. now rewrite E. }
        rewrite Hn, (rp_latest _ _ _ Hr). split; intros [H1 H2]; split; auto.
        -- destruct (etype_eqb (ev_type (en_ev en)) (ev_type e)) eqn:Et; auto.
           apply etype_eqb_spec in Et. exfalso. eapply (Hold _ _ _ r eq_refl E). congruence.
        -- destruct (etype_eqb (ev_type (en_ev en)) (ev_type e)) eqn:Et; auto.
           apply etype_eqb_spec in Et. exfalso. eapply (Hold _ _ _ r eq_refl E). congruence.
    + rewrite Hl, andb_false_r, Hlat, Htyp. apply (rp_latest _ _ _ Hr).
  - apply Hr.
  - apply Hr.
  - intros x pt Hin Hpt. apply in_app_or in Hin as [Hin|[<-|[]]]; [|now apply Hparts].
    apply (rp_parts _ _ _ Hr _ _ Hin Hpt).
  - intros k e. rewrite Htg. destruct (existsb _ (pl_places pl)) eqn:Ex.
    + apply place_keys in Ex as [Hin Hid].
      assert (HnK : ~ In k K). { intros Hk. apply (rp_gone _ _ _ Hr) in Hk. congruence. }
      destruct k as [[p t] i]. cbn [fst snd] in *.
      apply (pf_places _ _ _ _ Hf) in Hin as (pt & Hpt & Hpd & Hpl). split.
      * intros [= <-]. split; auto. exists (en_conf en), pt. cbn [fst snd].
        rewrite in_app_iff. cbn. destruct en. cbn in *. auto 10.
      * intros [(cf & pt' & Hin' & _ & _ & _ & Hid') _]. cbn [snd] in Hid'.
        apply in_app_or in Hin' as [Hin'|[->|[]]]; auto.
        exfalso. apply Hnk. rewrite <- Hid, Hid'. apply (hist_known _ _ _ _ Hr Hin').
    + rewrite (rp_ts _ _ _ Hr). split; intros [(cf & pt & Hin & Hpt & Hpd & Hpl & Hid) HnK]; split; auto.
      * exists cf, pt. rewrite in_app_iff. auto 10.
      * exists cf, pt. apply in_app_or in Hin as [Hin|[->|[]]]; [auto 10|].
        exfalso. apply not_true_iff_false in Ex. apply Ex. apply place_keys. cbn [en_ev en_conf] in *.
        split; auto. destruct k as [[p t] i]. cbn [fst snd] in *. apply (pf_places _ _ _ _ Hf). exists pt. auto.
  - intros p. cbn [store_plan db_counts db_ts]. apply counts_places; try apply Hpo.
    + intros pt _. destruct (kget keyord (place_key (pl_ev pl) pt) (db_ts d)) as [x|] eqn:Ex; auto.
      apply (ba_ts _ Hb) in Ex as [E1 E2]. cbn in E1. rewrite Ee in E1. congruence.
    + apply Hr.
  - intros k Hk. apply Hkmono. now apply (rp_gone _ _ _ Hr).
  - intros r i Hs. cbn [store_plan db_ref]. fold (store_refs d pl). rewrite refs_at_kput, Ee.
    destruct (eid_eqb i (ev_id (en_ev en))) eqn:Ei.
    + apply eid_eqb_spec in Ei. apply In_sof. unfold plan_refs. apply in_or_app. destruct r as [k|k]; cbn [stored_at] in Hs.
      * left. destruct Hs as (e & He & <-). rewrite Hlat in He.
        assert (Hc : kget zord k (db_latest d) = Some e -> False).
        { intros Hk. apply (rp_latest _ _ _ Hr) in Hk as [_ Hk]. apply latest_of_In in Hk as (en' & Hin & <- & _).
          apply Hnk. rewrite <- Ei. eapply hist_known; eauto. }
        destruct (pl_latest pl) as [[[r0 n] o]|]; [|tauto].
        destruct (k =? r0) eqn:E; [|tauto]. apply Z.eqb_eq in E. subst. now left.
      * right. destruct Hs as (e & He & <-). rewrite Htg in He.
        destruct (existsb _ (pl_places pl)) eqn:Ex.
        -- apply place_keys in Ex as [Hin Hid]. apply in_map_iff. exists (fst k). split; auto.
           rewrite Ee. destruct k as [[p t] j]. cbn in *. unfold place_key. cbn. now subst.
        -- apply (ba_ts _ Hb) in He as [_ He]. congruence.
    + assert (Hne : i <> ev_id (en_ev en)). { intros ->. rewrite (eqb_refl' eid_eqb_spec) in Ei. discriminate. }
      assert (Hso : In r (refs_at (db_ref d) i) /\ match r, pl_latest pl with LatestRef k, Some (r0, _, _) => k <> r0 | _, _ => True end).
      { destruct r as [k|k]; cbn [stored_at] in Hs; destruct Hs as (e & He & <-).
        - rewrite Hlat in He. destruct (pl_latest pl) as [[[r0 n] o]|] eqn:El.
          + destruct (k =? r0) eqn:E; [injection He as <-; congruence|]. apply Z.eqb_neq in E. split; auto.
            apply (rp_refs _ _ _ Hr). cbn. eauto.
          + split; auto. apply (rp_refs _ _ _ Hr). cbn. eauto.
        - split; auto. rewrite Htg in He. destruct (existsb _ (pl_places pl)); [injection He as <-; congruence|].
          apply (rp_refs _ _ _ Hr). cbn. eauto. }
      unfold store_refs. destruct (pl_latest pl) as [[[r0 n] [j|]]|]; try tauto.
      rewrite refs_at_drop by apply (ba_wf _ Hb). destruct (eid_eqb i j) eqn:Ej; [|tauto].
      apply eid_eqb_spec in Ej. subst j. apply In_sdel. split; [|tauto].
      destruct Hso as [Hso1 Hso2]. intros ->. congruence.
  - intros Hnh r i. apply no_hidden_snoc in Hnh as [Hnh Hen].
    cbn [store_plan db_ref]. fold (store_refs d pl). rewrite refs_at_kput, Ee.
    destruct (eid_eqb i (ev_id (en_ev en))) eqn:Ei.
    + apply eid_eqb_spec in Ei. subst i. rewrite In_sof. unfold plan_refs. rewrite in_app_iff. intros [Hin|Hin].
      * destruct (pl_latest pl) as [[[r0 n] o]|] eqn:El; [|destruct Hin]. destruct Hin as [<-|[]]. cbn [stored_at].
        exists (en_ev en). rewrite Hlat, Z.eqb_refl. auto.
      * apply in_map_iff in Hin as (pt & <- & Hin). cbn [stored_at]. exists (en_ev en). rewrite Htg, Ee.
        split; auto. assert (Hx : existsb (fun pt0 => key_eqb (place_key (en_ev en) pt) (place_key (en_ev en) pt0)) (pl_places pl) = true).
        { apply place_keys. destruct pt. auto. }
        now rewrite Hx.
    + assert (Hne : i <> ev_id (en_ev en)). { intros ->. rewrite (eqb_refl' eid_eqb_spec) in Ei. discriminate. }
      intros Hin.
      assert (Hin0 : In r (refs_at (db_ref d) i) /\
        match pl_latest pl with Some (r0, _, Some j) => ~ (i = j /\ r = LatestRef r0) | _ => True end).
      { unfold store_refs in Hin. destruct (pl_latest pl) as [[[r0 n] [j|]]|]; auto.
        rewrite refs_at_drop in Hin by apply (ba_wf _ Hb). destruct (eid_eqb i j) eqn:Ej.
        - apply eid_eqb_spec in Ej. subst j. apply In_sdel in Hin. split; [tauto|]. intros [_ ->]. tauto.
        - split; auto. intros [-> _]. rewrite (eqb_refl' eid_eqb_spec) in Ej. discriminate. }
      destruct Hin0 as [Hin0 Hnd].
      apply (rp_exact _ _ _ Hr Hnh) in Hin0. destruct r as [k|k]; cbn [stored_at] in *; destruct Hin0 as (e & He & <-).
      * exists e. split; auto. rewrite Hlat. destruct (pl_latest pl) as [[[r0 n] o]|] eqn:El; auto.
        destruct (k =? r0) eqn:E; auto. apply Z.eqb_eq in E. subst r0. exfalso.
        apply (rp_latest _ _ _ Hr) in He as [H1 H2]. destruct Hl as (Hbl & Hl & Hpv).
        assert (Ht : ev_type e = ev_type (en_ev en)).
        { destruct n; [|congruence]. destruct Hl as [_ Hl]. congruence. }
        rewrite Ht in H2. unfold becomes_latest in Hbl. apply andb_prop in Hbl as [Hcv _].
        specialize (Hen _ H2 Hcv). unfold visible in Hpv. rewrite H2, Hcv, Hen in Hpv. cbn in Hpv.
        subst o. apply Hnd. auto.
      * exists e. split; auto. rewrite Htg. destruct (existsb _ (pl_places pl)) eqn:Ex; auto.
        apply place_keys in Ex as [_ Hid]. apply (ba_ts _ Hb) in He as [He _]. congruence.
Qed.
