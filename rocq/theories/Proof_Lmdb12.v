(** LMDB backend: the database part of server queries. *)
From Coq Require Import String Bool ZArith Lia Sorted Permutation List.
From Verif Require Import Base Kv Model_Types Model_Subscription Model_Order Spec_Order Model_Codec Keys
  Spec_Subscription Proof_Subscription Proof_Subscription2 Proof_Order Model_Lmdb Model_LmdbSys Spec_Lmdb Spec_LmdbContent Spec_LmdbQuery
  Proof_Lmdb1 Proof_Lmdb2 Proof_Lmdb3 Proof_Lmdb4 Proof_Lmdb5 Proof_Lmdb6 Proof_Lmdb7 Proof_Lmdb8 Proof_Lmdb9 Proof_Lmdb10 Proof_Lmdb11.
Import ListNotations.
Open Scope list_scope.
Open Scope Z_scope.

(** ** Sorted lists *)

Lemma SS_app : forall (A : Type) (R : A -> A -> Prop) l1 l2, StronglySorted R l1 -> StronglySorted R l2 ->
    (forall a b, In a l1 -> In b l2 -> R a b) -> StronglySorted R (l1 ++ l2).
Proof.
  induction l1 as [|x l1 IH]; intros l2 H1 H2 H; cbn [app]; auto.
  inversion H1 as [|? ? Ha Hb]; subst. constructor.
  - apply IH; auto. intros a b Hia Hib. apply H; auto. now right.
  - apply Forall_app. split; auto. apply Forall_forall. intros b Hib. apply H; auto. now left.
Qed.

Lemma SS_filter : forall (A : Type) (R : A -> A -> Prop) f l, StronglySorted R l -> StronglySorted R (filter f l).
Proof.
  induction l as [|x l IH]; intros H; cbn; auto. inversion H as [|? ? Ha Hb]; subst. destruct (f x); auto.
  constructor; auto. apply Forall_forall. intros y Hy. apply filter_In in Hy. rewrite Forall_forall in Hb. now apply Hb.
Qed.

(** On a sorted list, [dropwhile] of a downward closed test is a filter. *)
Lemma dropwhile_filter : forall (A : Type) (R : A -> A -> Prop) (f : A -> bool) l, StronglySorted R l ->
    (forall a b, R a b -> f b = true -> f a = true) -> dropwhile f l = filter (fun x => negb (f x)) l.
Proof.
  induction l as [|x l IH]; intros Hs Hf; cbn; auto. inversion Hs as [|? ? Ha Hb]; subst.
  destruct (f x) eqn:E; cbn; [now apply IH|]. f_equal. symmetry.
  clear IH Ha Hs. induction l as [|y l IH]; cbn; auto. inversion Hb as [|? ? Hy Hl]; subst.
  destruct (f y) eqn:Ey; cbn; [|f_equal; now apply IH]. exfalso. rewrite (Hf x y) in E; auto. discriminate.
Qed.

Lemma takewhile_filter : forall (A : Type) (R : A -> A -> Prop) (f : A -> bool) l, StronglySorted R l ->
    (forall a b, R a b -> f b = true -> f a = true) -> takewhile f l = filter f l.
Proof.
  induction l as [|x l IH]; intros Hs Hf; cbn; auto. inversion Hs as [|? ? Ha Hb]; subst.
  destruct (f x) eqn:E; cbn; [f_equal; now apply IH|].
  clear IH Ha Hs. induction l as [|y l IH]; cbn; auto. inversion Hb as [|? ? Hy Hl]; subst.
  destruct (f y) eqn:Ey; cbn; [|now apply IH]. exfalso. rewrite (Hf x y) in E; auto. discriminate.
Qed.

Lemma filter_ext_in' : forall (A : Type) (f g : A -> bool) l, (forall x, In x l -> f x = g x) -> filter f l = filter g l.
Proof.
  induction l as [|x l IH]; intros H; cbn; auto. rewrite (H x) by now left. rewrite IH; auto. intros y Hy. apply H. now right.
Qed.

Lemma filter_filter' : forall (A : Type) (f g : A -> bool) l, filter f (filter g l) = filter (fun x => g x && f x) l.
Proof. induction l as [|x l IH]; cbn; auto. destruct (g x); cbn; [destruct (f x)|]; now rewrite ?IH. Qed.

(** ** The scan *)

Lemma scan_takewhile : forall O db stop l max, 
    (forall k rs, In (k, rs) l -> exists r e, or_pick O rs = Some r /\ get_event db r = Some e /\ ev_id e = k) ->
    exists es, scan_refs O db stop max l = Some (firstn (Z.to_nat max) es) /\
      Forall2 (fun kv e => ev_id e = fst kv /\ exists r, In r [snd kv] /\ or_pick O (snd kv) = or_pick O r /\
                 exists x, or_pick O r = Some x /\ get_event db x = Some e)
              (takewhile (fun kv => eid_ltb (fst kv) stop) l) es.
Proof.
  intros O db stop. induction l as [|[k rs] l IH]; intros max Hl; cbn [scan_refs takewhile fst].
  - exists []. rewrite firstn_nil. split; auto.
  - destruct (IH (max - 1)) as (es & E & F); [intros; eapply Hl; right; eauto|].
    destruct (eid_ltb k stop) eqn:Ek.
    + destruct (Hl k rs) as (r & e & Hp & Hg & He); [now left|]. exists (e :: es). split.
      * cbn [negb]. rewrite Hp, Hg, E. destruct (max <=? 0) eqn:Em.
        -- apply Z.leb_le in Em. replace (Z.to_nat max) with 0%nat by lia. reflexivity.
        -- apply Z.leb_gt in Em. replace (Z.to_nat max) with (S (Z.to_nat (max - 1))) by lia. reflexivity.
      * constructor; auto. cbn [fst snd]. split; auto. exists rs. split; [now left|]. split; auto. eauto.
    + exists []. rewrite firstn_nil. cbn [negb]. destruct (max <=? 0); auto.
Qed.

Definition eid_nonneg (i : event_id) : Prop := 0 <= eid_session i /\ 0 <= eid_instance i.

Lemma eid_ltb_stop : forall i s, eid_nonneg i -> eid_ltb i (Eid (s + 1) 0 0) = (eid_server i <=? s).
Proof.
  intros [a b c] s [H1 H2]. cbn [eid_session eid_instance eid_server] in *.
  apply eq_true_iff_eq. rewrite eid_ltb_spec, Z.leb_le. unfold eid_lt. cbn [eid_session eid_instance eid_server]. lia.
Qed.

Lemma stored_hist : forall d H K e, repr d H K -> stored_event d e -> exists en, In en H /\ en_ev en = e.
Proof. intros d H K e Hr Hs. eapply content_stored; eauto using repr_content. Qed.

Lemma get_event_stored : forall d r e, db_wf d -> get_event d r = Some e -> stored_event d e.
Proof.
  intros d r e Hw Hg. unfold stored_event. rewrite !vals_In. destruct r as [k|k]; cbn [get_event] in Hg.
  - left. exists k. now apply (kget_In zord); [apply Hw|].
  - right. exists k. now apply (kget_In keyord); [apply Hw|].
Qed.

Lemma stored_refs : forall d H K e, repr d H K -> stored_event d e -> exists r, stored_at d r (ev_id e).
Proof.
  intros d H K e Hr [Hs|Hs]; apply vals_In in Hs as (k & Hs).
  - exists (LatestRef k), e. split; auto. apply (kget_In zord); auto. apply (ba_wf _ (rp_base _ _ _ Hr)).
  - exists (TimeseriesRef k), e. split; auto. apply (kget_In keyord); auto. apply (ba_wf _ (rp_base _ _ _ Hr)).
Qed.

(** What is stored of a server, after an id. *)
Lemma query_refs_spec : forall O d H K srv last, pick_ok O -> repr d H K -> no_hidden H ->
    (forall i, last = Some i -> eid_server i = srv) ->
    exists L, by_id L /\
      (forall e, In e L <-> eid_server (ev_id e) = srv /\ after last e /\ stored_event d e) /\
      forall max, query_refs O d srv max last = Some (firstn (Z.to_nat max) L).
Proof.
  intros O d H K srv last HO Hr Hn Hlast.
  pose proof (ba_wf _ (rp_base _ _ _ Hr)) as Hw. destruct (dw_ref _ Hw) as [Hso Hne].
  assert (Hpick : forall k rs, In (k, rs) (db_ref d) -> exists r e, or_pick O rs = Some r /\ get_event d r = Some e /\ ev_id e = k).
  { intros k rs Hin. apply (kget_In eidord) in Hin; auto. destruct (Hne _ _ Hin) as [Hne' _].
    destruct (HO rs Hne') as (r & Hp & Hir).
    assert (Hst : stored_at d r k). { apply (rp_exact _ _ _ Hr Hn). unfold refs_at. now rewrite Hin. }
    destruct r as [r|r]; destruct Hst as (e & Hg & He); [exists (LatestRef r), e|exists (TimeseriesRef r), e]; auto. }
  assert (Hid : forall k rs, In (k, rs) (db_ref d) -> exists e, stored_event d e /\ ev_id e = k).
  { intros k rs Hin. destruct (Hpick _ _ Hin) as (r & e & _ & Hg & He). eauto using get_event_stored. }
  assert (Hinj : forall a b, stored_event d a -> stored_event d b -> ev_id a = ev_id b -> a = b).
  { intros a b Ha Hb E. destruct (stored_hist _ _ _ _ Hr Ha) as (x & Hx & <-). destruct (stored_hist _ _ _ _ Hr Hb) as (y & Hy & <-).
    f_equal. apply (hist_id_inj H); auto. apply Hr. }
  set (start := match last with Some i => i | None => Eid srv 0 0 end).
  assert (Hss : eid_server start = srv). { unfold start. destruct last; auto. }
  (* the entries that are scanned *)
  set (l1 := dropwhile (fun kv : event_id * list event_ref => eid_ltb (fst kv) start) (db_ref d)).
  set (l := match l1 with (k, _) :: l' => if eid_eqb k start then l' else l1 | [] => [] end).
  set (R := fun a b : event_id * list event_ref => eid_ltb (fst a) (fst b) = true).
  assert (HR : StronglySorted R (db_ref d)).
  { unfold ksorted, keys in Hso. clear -Hso. induction (db_ref d) as [|x m IH]; constructor.
    - apply IH. inversion Hso; auto.
    - inversion Hso as [|? ? Ha Hb]; subst. apply Forall_forall. intros y Hy. rewrite Forall_forall in Hb. apply Hb. now apply in_map. }
  assert (El : l = filter (fun kv => eid_ltb start (fst kv)) (db_ref d)).
  { assert (E1 : l1 = filter (fun kv => negb (eid_ltb (fst kv) start)) (db_ref d)).
    { apply (dropwhile_filter _ R); auto. intros a b Hab Hb. unfold R in Hab. eapply eid_ltb_trans; eauto. }
    assert (E2 : filter (fun kv => eid_ltb start (fst kv)) (db_ref d) = filter (fun kv => eid_ltb start (fst kv)) l1).
    { rewrite E1, filter_filter'. apply filter_ext_in'. intros x _. destruct (eid_ltb start (fst x)) eqn:E; [|now rewrite andb_false_r].
      now rewrite (eid_ltb_asym _ _ E). }
    rewrite E2. unfold l.
    assert (H1 : StronglySorted R l1) by (rewrite E1; now apply SS_filter).
    assert (H2 : forall x, In x l1 -> eid_ltb (fst x) start = false).
    { intros x Hx. rewrite E1 in Hx. apply filter_In in Hx as [_ Hx]. now apply negb_true_iff. }
    clearbody l1. clear -H1 H2. destruct l1 as [|[k v] m]; auto. inversion H1 as [|? ? Ha Hb]; subst.
    assert (Hall : forall y, In y m -> eid_ltb start (fst y) = true).
    { intros y Hy. rewrite Forall_forall in Hb. specialize (Hb _ Hy). unfold R in Hb. cbn [fst] in Hb.
      assert (Hk : eid_ltb k start = false) by (apply (H2 (k, v)); now left).
      destruct (oltb_false eidord _ _ Hk) as [->|Hk']; auto. eapply eid_ltb_trans; eauto. }
    assert (Efm : filter (fun kv => eid_ltb start (fst kv)) m = m).
    { clear -Hall. induction m as [|y m IH]; cbn; auto. rewrite (Hall y) by now left. f_equal. apply IH. intros z Hz. apply Hall. now right. }
    cbn [filter fst]. rewrite Efm. destruct (eid_eqb k start) eqn:E.
    - apply eid_eqb_spec in E. subst. now rewrite eid_ltb_irrefl.
    - assert (Hk : eid_ltb k start = false) by (apply (H2 (k, v)); now left).
      destruct (oltb_false eidord _ _ Hk) as [->|Hk']; [rewrite (eqb_refl' eid_eqb_spec) in E; discriminate|].
      cbn [oltb eidord] in Hk'. now rewrite Hk'. }
  assert (Hnonneg : forall k rs, In (k, rs) (db_ref d) -> eid_nonneg k /\ eid_ltb (Eid (eid_server k) 0 0) k = true).
  { intros k rs Hin. destruct (Hid _ _ Hin) as (e & Hs & <-). destruct (stored_hist _ _ _ _ Hr Hs) as (en & Hen & <-).
    destruct (rp_evs _ _ _ Hr _ Hen) as ((_ & A & B) & _). split; [split; lia|].
    apply in_split in Hen as (H1 & H2 & ->). pose proof (rp_ok _ _ _ Hr H1 en H2 eq_refl) as Hacc.
    apply goes_follows in Hacc. unfold follows in Hacc. apply andb_prop in Hacc as [Hacc _]. now apply andb_prop in Hacc as [Hacc _]. }
  assert (Hscan : forall k rs, In (k, rs) l -> In (k, rs) (db_ref d)). { rewrite El. intros k rs Hin. now apply filter_In in Hin. }
  assert (Htw : takewhile (fun kv => eid_ltb (fst kv) (Eid (srv + 1) 0 0)) l =
                filter (fun kv => (eid_server (fst kv) =? srv) && eid_ltb start (fst kv)) (db_ref d)).
  { rewrite El. rewrite (takewhile_filter _ R).
    - rewrite filter_filter'. apply filter_ext_in'. intros [k rs] Hin. cbn [fst]. destruct (Hnonneg _ _ Hin) as [Hnn _].
      rewrite eid_ltb_stop by auto. destruct (eid_ltb start k) eqn:E; [|now rewrite andb_false_r]. rewrite andb_true_r, andb_true_l.
      assert (srv <= eid_server k). { apply eid_ltb_spec in E. unfold eid_lt in E. rewrite Hss in E. lia. }
      apply eq_true_iff_eq. rewrite Z.leb_le, Z.eqb_eq. lia.
    - now apply SS_filter.
    - intros a b Hab Hb. unfold R in Hab. eapply eid_ltb_trans; eauto. }
  set (m := filter (fun kv => (eid_server (fst kv) =? srv) && eid_ltb start (fst kv)) (db_ref d)) in *.
  assert (Hm : exists L, Forall2 (fun (kv : event_id * list event_ref) e => ev_id e = fst kv /\ stored_event d e) m L).
  { assert (Hin : forall x, In x m -> In x (db_ref d)) by (intros x Hx; now apply filter_In in Hx).
    clearbody m. clear -Hid Hin. induction m as [|[k rs] m IH]; [exists []; constructor|].
    destruct IH as (L & HL); [intros; apply Hin; now right|]. destruct (Hid k rs) as (e & Hs & He); [apply Hin; now left|].
    exists (e :: L). constructor; auto. }
  destruct Hm as (L & HL). exists L.
  assert (HmR : StronglySorted R m) by now apply SS_filter.
  assert (HLk : map ev_id L = map fst m).
  { clear -HL. induction HL as [|x e m L [H1 _] HL IH]; cbn; auto. now rewrite H1, IH. }
  split; [|split].
  - unfold by_id. clear -HL HmR. induction HL as [|x e m L [H1 H1'] HL IH]; [constructor|].
    inversion HmR as [|? ? Ha Hb]; subst. constructor; auto.
    apply Forall_forall. intros b Hb'. rewrite H1.
    clear -HL Hb Hb'. induction HL as [|y f m L [H2 _] HL IH]; [destruct Hb'|]. inversion Hb as [|? ? Hc Hd]; subst.
    destruct Hb' as [<-|Hb']; [rewrite H2; exact Hc|auto].
  - intros e. split.
    + intros He. assert (Hs : stored_event d e).
      { clear -HL He. induction HL as [|y f m L [_ H2] HL IH]; [destruct He|destruct He as [<-|He]; auto]. }
      assert (Hk : In (ev_id e) (map fst m)). { rewrite <- HLk. now apply in_map. }
      apply in_map_iff in Hk as ([k rs] & E & Hk). cbn [fst] in E. subst k. apply filter_In in Hk as [Hk1 Hk]. cbn [fst] in Hk.
      apply andb_prop in Hk as [E1 E2]. apply Z.eqb_eq in E1. split; auto. split; auto. unfold after, start in *. destruct last; auto.
    + intros (Es & Ha & Hs). destruct (stored_refs _ _ _ _ Hr Hs) as (r & Hst). apply (rp_refs _ _ _ Hr) in Hst.
      unfold refs_at in Hst. destruct (kget eidord (ev_id e) (db_ref d)) as [rs|] eqn:Eg; [|destruct Hst].
      apply (kget_Some_In eidord) in Eg. destruct (Hnonneg _ _ Eg) as [_ Hpos].
      assert (Hk : In (ev_id e) (map fst m)).
      { apply in_map_iff. exists (ev_id e, rs). split; auto. apply filter_In. split; auto. cbn [fst].
        rewrite Es, Z.eqb_refl. cbn [andb]. unfold start, after in *. destruct last; auto. now rewrite Es in Hpos. }
      rewrite <- HLk in Hk. apply in_map_iff in Hk as (e' & E & Hk).
      assert (Hs' : stored_event d e'). { clear -HL Hk. induction HL as [|y f m L [_ H2] HL IH]; [destruct Hk|destruct Hk as [<-|Hk]; auto]. }
      now rewrite <- (Hinj e' e Hs' Hs E).
  - intros max. unfold query_refs. fold start l1 l.
    destruct (scan_takewhile O d (Eid (srv + 1) 0 0) l max) as (es & E & F); [intros; eapply Hpick; eauto|].
    rewrite E. do 2 f_equal. rewrite Htw in F. clear -F HL Hinj Hw.
    revert es F. induction HL as [|x e m L [H1 H2] HL IH]; intros es F; inversion F as [|? e' ? es' (G1 & r & Hr & G2 & y & G3 & G4) F']; subst; auto.
    f_equal; [|now apply IH]. apply Hinj; [eapply get_event_stored; eauto|auto|congruence].
Qed.
