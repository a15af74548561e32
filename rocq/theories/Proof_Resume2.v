(** Lemmas for C81: the history represents the database. *)
From Coq Require Import String Bool ZArith Lia Sorted List.
From Verif Require Import Base Kv Model_Types Model_Subscription Spec_Subscription Proof_Subscription Proof_Subscription2 Model_Codec Keys Model_Lmdb Model_LmdbSys Spec_Order Proof_Order Spec_Lmdb Spec_LmdbContent Spec_Copy
  Model_Convert Spec_Convert Proof_Lmdb1 Proof_Lmdb2 Proof_Lmdb3 Proof_Lmdb7 Proof_Lmdb8 Proof_Lmdb9 Spec_Resume Proof_Resume.
Import ListNotations.
Open Scope list_scope.
Open Scope Z_scope.

Lemma NoDup_map_eq : forall (A B : Type) (f : A -> B) l a b, NoDup (map f l) -> In a l -> In b l -> f a = f b -> a = b.
Proof.
  intros A B f l a b. induction l as [|x l IH]; intros N Ha Hb E; [easy|]. cbn [map] in N. inversion N as [|? ? N1 N2]; subst.
  destruct Ha as [<-|Ha], Hb as [<-|Hb]; auto.
  - exfalso. apply N1. rewrite E. now apply in_map.
  - exfalso. apply N1. rewrite <- E. now apply in_map.
Qed.

Section History.
  Variable c : ldb.
  Variable G : list event.
  Hypothesis HC : consistent_without c G.

  Lemma latest_prefix : forall H, Forall (entry_for c G) H -> forall t e,
      latest_of H t = Some e <-> (exists en, In en H /\ en_ev en = e) /\ In e (vals (db_latest c)) /\ ev_type e = t.
  Proof.
    induction H as [|en H IH] using rev_ind; intros F t e.
    - split; [discriminate|]. intros [(x & [] & _) _].
    - apply Forall_app in F as [F Fe]. inversion Fe as [|? ? (S & Ok & Cd & Cv & _) _]; subst. specialize (IH F t). rewrite latest_of_snoc. unfold latest_step.
      destruct (etype_eqb (ev_type (en_ev en)) t && covers (en_conf en) t) eqn:E.
      + apply andb_prop in E as [E1 E2]. apply etype_eqb_spec in E1. subst t. apply Cv in E2.
        assert (X : match latest_of H (ev_type (en_ev en)) with
                    | Some p => if cf_cond (en_conf en) p && newer p (en_ev en) then latest_of H (ev_type (en_ev en)) else Some (en_ev en)
                    | None => Some (en_ev en) end = Some (en_ev en)).
        { destruct (latest_of H (ev_type (en_ev en))) as [p|] eqn:El; auto. destruct (proj1 (IH p) eq_refl) as (_ & Lp & Et). destruct (cf_cond (en_conf en) p && newer p (en_ev en)); auto.
          f_equal. now apply (NoDup_map_eq _ _ _ _ _ _ (cs_latest _ _ HC)). }
        rewrite X. split.
        * intros [= <-]. split; [|auto]. exists en. split; auto. apply in_or_app. right. now left.
        * intros (_ & L & Et). f_equal. symmetry. now apply (NoDup_map_eq _ _ _ _ _ _ (cs_latest _ _ HC)).
      + rewrite IH. split; intros ((x & Hx & Ex) & L & Et); (split; [|auto]); exists x; (split; [|auto]).
        * apply in_or_app. auto.
        * apply in_app_or in Hx as [Hx|[<-|[]]]; auto. exfalso. rewrite Ex in *. rewrite <- Et in E. apply Cv in L. rewrite L in E.
          rewrite (proj2 (etype_eqb_spec _ _) eq_refl) in E. discriminate.
  Qed.

  Section Order.
  Variable H : history.
  Hypothesis HF : Forall (entry_for c G) H.
  Hypothesis HO : in_order H.
  Hypothesis HA : forall e, once_stored c G e -> exists en, In en H /\ en_ev en = e.

  Lemma entry_in : forall en, In en H -> entry_for c G en.
  Proof. intros en Hin. rewrite Forall_forall in HF. now apply HF. Qed.

  Lemma history_ok : hist_ok H.
  Proof.
    intros H1 en H2 E. assert (Hen : In en H) by (rewrite E; apply in_or_app; right; now left). pose proof (entry_in _ Hen) as (S & Ok & Cd & Cv & P1 & P2).
    assert (Hlt : forall x, In x H1 -> eid_lt (ev_id (en_ev x)) (ev_id (en_ev en))).
    { intros x Hx. apply in_split in Hx as (A & B & ->). apply (HO A x B en H2). rewrite E, <- app_assoc. reflexivity. }
    unfold goes_on. rewrite Cd, andb_true_r.
    destruct (cs_event _ _ HC _ S) as (_ & Ei & Et). unfold follows. apply andb_true_intro. split; [apply andb_true_intro; split|].
    + now apply eid_ltb_spec.
    + now apply ts_leb_spec.
    + apply forallb_forall. intros x Hx. pose proof (Hlt _ Hx) as Lx. unfold server_eqb. destruct (Z.eqb_spec (eid_server (ev_id (en_ev x))) (eid_server (ev_id (en_ev en)))) as [Es|]; auto.
      cbn [negb orb]. apply andb_true_intro. split; [now apply eid_ltb_spec|]. apply ts_leb_spec. apply (cs_order _ _ HC); auto.
      apply (entry_in x). rewrite E. apply in_or_app. now left.
  Qed.

  Lemma latest_all : forall t e, latest_of H t = Some e <-> In e (vals (db_latest c)) /\ ev_type e = t.
  Proof.
    intros t e. rewrite (latest_prefix _ HF). split; [tauto|]. intros [L Et]. split; auto. apply HA. left. now left.
  Qed.

  Lemma kept_all : forall k e, kept c H k e <-> In (k, e) (db_ts c).
  Proof.
    intros k e. unfold kept. split.
    - intros (cf & pt & A & B & D & E & F). apply (kget_In zord) in D; [|apply (cs_sorted _ _ HC)]. pose proof (entry_in _ A) as (_ & Ok & _ & _ & P1 & _). cbn [en_ev en_conf] in *.
      destruct (P1 _ B) as ([[p t] i] & K1 & K2 & K3). cbn [fst snd] in *. destruct (cs_ts _ _ HC _ _ _ _ K1) as (Ei & _).
      destruct k as [[p' t'] i']. cbn [fst snd] in *. assert (t' = t) by congruence. subst t' i i'.
      assert (p' = p). { apply (NoDup_map_eq _ _ snd (db_parts c) (p', part_data_of pt) (p, part_data_of pt)) in D; auto; [congruence|apply (cs_parts _ _ HC)]. } now subst.
    - intros Hk. assert (S : once_stored c G e) by (left; right; apply vals_In; eauto). destruct (HA _ S) as ([cf e'] & Hin & Ee). cbn [en_ev] in Ee. subst e'.
      pose proof (entry_in _ Hin) as (_ & Ok & _ & _ & _ & P2). cbn [en_ev en_conf] in *. destruct (P2 _ Hk) as (pt & Q1 & Q2 & Q3). exists cf, pt.
      split; auto. split; auto. split; [apply (kget_In zord); auto; apply (cs_sorted _ _ HC)|]. split; auto.
      destruct k as [[p t] i]. cbn [snd]. now apply (cs_ts _ _ HC _ _ _ _ Hk).
  Qed.

  Lemma last_all : forall s e, last_ev H s = Some e <-> last_stored c G s e.
  Proof.
    intros s e. split.
    - intros E. pose proof (last_ev_server _ _ _ E) as Es. destruct (last_ev_In _ _ _ E) as (en & Hen & Ee). split; [rewrite <- Ee; apply (entry_in _ Hen)|]. split; [exact Es|].
      intros x Sx Ex. destruct (HA _ Sx) as (y & Hy & Ey). destruct (last_ev_last _ _ _ E) as (H1 & z & H2 & EH & Ez & _ & Hn). rewrite EH in Hy.
      apply in_app_or in Hy as [Hy|[Hy|Hy]].
      + left. apply in_split in Hy as (A & B & ->). rewrite <- Ey, <- Ez. apply (HO A y B z H2). rewrite EH, <- app_assoc. reflexivity.
      + right. congruence.
      + exfalso. apply (Hn _ Hy). now rewrite Ey.
    - intros (Sx & Es & Hm). destruct (last_ev H s) as [l|] eqn:E.
      + f_equal. pose proof (last_ev_server _ _ _ E) as El. destruct (last_ev_last _ _ _ E) as (H1 & z & H2 & EH & Ez & _ & Hn).
        destruct (HA _ Sx) as (y & Hy & Ey). rewrite EH in Hy. apply in_app_or in Hy as [Hy|[Hy|Hy]].
        * exfalso. apply in_split in Hy as (A & B & ->). assert (Lt : eid_lt (ev_id e) (ev_id l)). { rewrite <- Ey, <- Ez. apply (HO A y B z H2). rewrite EH, <- app_assoc. reflexivity. }
          assert (Sl : once_stored c G l). { rewrite <- Ez. apply (entry_in z). rewrite EH. apply in_or_app. right. now left. }
          destruct (Hm _ Sl El) as [Lt'|Eq]; [apply (eid_lt_irrefl (ev_id e)); now apply (eid_lt_trans _ (ev_id l))|]. rewrite Eq in Lt. now apply eid_lt_irrefl in Lt.
        * congruence.
        * exfalso. apply (Hn _ Hy). now rewrite Ey.
      + exfalso. destruct (HA _ Sx) as (y & Hy & Ey). apply (last_ev_none _ _ E _ Hy). now rewrite Ey.
  Qed.

  Lemma known_all : forall e, once_stored c G e -> known c (ev_id e).
  Proof.
    intros e S. destruct (last_ev H (server_of e)) as [l|] eqn:E.
    - apply last_all in E as L. exists (ev_id l). destruct L as (Sl & El & Hm). split.
      + apply (kget_In zord); [apply (cs_sorted _ _ HC)|]. apply (cs_ids _ _ HC). exists l. split; auto. now split.
      + apply eid_leb_spec. now apply Hm.
    - exfalso. destruct (HA _ S) as (y & Hy & Ey). apply (last_ev_none _ _ E _ Hy). now rewrite Ey.
  Qed.

  Lemma refs_listed : forall r i, In r (refs_at (db_ref c) i) <-> listed c i r.
  Proof.
    intros r i. unfold refs_at, listed. destruct (kget eidord i (db_ref c)) as [rs|] eqn:E.
    - apply (kget_In eidord) in E; [|apply (cs_sorted _ _ HC)]. split; [eauto|]. intros (rs' & A & B).
      apply (kget_In eidord) in E; [|apply (cs_sorted _ _ HC)]. apply (kget_In eidord) in A; [|apply (cs_sorted _ _ HC)]. congruence.
    - split; [intros []|]. intros (rs & A & B). apply (kget_In eidord) in A; [congruence|apply (cs_sorted _ _ HC)].
  Qed.

  Lemma at_stored : forall r i, at_ref c r i <-> stored_at c r i.
  Proof.
    intros r i. destruct r as [k|k]; cbn [at_ref stored_at]; split; intros (e & A & B); exists e; (split; [|auto]);
      first [apply (kget_In zord); [apply (cs_sorted _ _ HC)|auto] | apply (kget_In keyord); [apply (cs_sorted _ _ HC)|auto] |
             apply (kget_In zord) in A; [auto|apply (cs_sorted _ _ HC)] | apply (kget_In keyord) in A; [auto|apply (cs_sorted _ _ HC)]].
  Qed.

  Lemma represents : repr c H [].
  Proof.
    pose proof (cs_sorted _ _ HC) as K.
    assert (Hlast : forall (V : Type) (f : event -> V) (m : list (Z * V)), ksorted zord m -> (forall s v, In (s, v) m <-> exists e, last_stored c G s e /\ f e = v) ->
              forall s, kget zord s m = option_map f (last_ev H s)).
    { intros V f m Hs Hm s. destruct (last_ev H s) as [l|] eqn:E; cbn [option_map].
      - apply (kget_In zord); auto. apply Hm. exists l. split; auto. now apply last_all.
      - destruct (kget zord s m) as [v|] eqn:Ev; auto. apply (kget_In zord) in Ev; auto. apply Hm in Ev as (e & L & _). apply last_all in L. congruence. }
    assert (Hr : forall r i, In r (refs_at (db_ref c) i) <-> stored_at c r i). { intros r i. rewrite refs_listed, (cs_refs _ _ HC). apply at_stored. }
    assert (Hst : forall r i, stored_at c r i -> exists e, once_stored c G e /\ ev_id e = i).
    { intros r i Hs. apply at_stored in Hs. destruct r as [k|k]; cbn [at_ref] in Hs; destruct Hs as (e & A & B); exists e; (split; [left|auto]); [left|right]; apply vals_In; eauto. }
    constructor.
    - exact history_ok.
    - constructor.
      + constructor; try apply K. split; [apply K|]. intros i v Hv. apply (kget_In eidord) in Hv; [|apply K]. now apply (cs_lists _ _ HC i).
      + intros i Hn. destruct (refs_at (db_ref c) i) as [|r rs] eqn:E; [congruence|]. destruct (Hst r i) as (e & S & <-); [apply Hr; rewrite E; now left|]. now apply known_all.
      + intros k e Hk. apply (kget_In keyord) in Hk; [|apply K]. destruct k as [[p t] i]. split; [now apply (cs_ts _ _ HC _ _ _ _ Hk)|]. apply known_all. left. right. apply vals_In. eauto.
      + intros s l Hl. apply (kget_In zord) in Hl; [|apply K]. apply (cs_ids _ _ HC) in Hl as (e & (_ & Es & _) & <-). exact Es.
    - intros en Hen. apply (entry_in _ Hen).
    - intros en Hen. apply (cs_event _ _ HC). apply (entry_in _ Hen).
    - apply Hlast; [apply K|apply (cs_ids _ _ HC)].
    - apply Hlast; [apply K|apply (cs_tss _ _ HC)].
    - intros r r' t A B. apply (kget_In zord) in A; [|apply K]. apply (kget_In zord) in B; [|apply K]. apply (cs_types _ _ HC) in A as (a & A1 & A2). apply (cs_types _ _ HC) in B as (b & B1 & B2).
      assert ((r, a) = (r', b)); [|congruence]. pose proof (cs_latest _ _ HC) as N. unfold vals in N. rewrite map_map in N. apply (NoDup_map_eq _ _ _ _ _ _ N); auto. cbn [snd]. congruence.
    - intros t. split.
      + intros Hn. destruct (latest_of H t) as [e|] eqn:E; [|congruence]. apply latest_all in E as [L Et]. apply vals_In in L as [r L]. exists r. apply (kget_In zord); [apply K|].
        apply (cs_types _ _ HC). eauto.
      + intros [r Hr']. apply (kget_In zord) in Hr'; [|apply K]. apply (cs_types _ _ HC) in Hr' as (e & L & Et). assert (X : latest_of H t = Some e); [|congruence].
        apply latest_all. split; auto. apply vals_In. eauto.
    - intros r e. split.
      + intros L. apply (kget_In zord) in L; [|apply K]. split; [apply (kget_In zord); [apply K|]; apply (cs_types _ _ HC); eauto|]. apply latest_all. split; auto. apply vals_In. eauto.
      + intros [T L]. apply latest_all in L as [L _]. apply (kget_In zord) in T; [|apply K]. apply (cs_types _ _ HC) in T as (x & X1 & X2).
        assert (x = e). { apply (NoDup_map_eq _ _ _ _ _ _ (cs_latest _ _ HC)); auto. apply vals_In. eauto. } subst x. apply (kget_In zord); [apply K|auto].
    - apply K.
    - intros p p' x A B. apply (kget_In zord) in A; [|apply K]. apply (kget_In zord) in B; [|apply K].
      assert ((p, x) = (p', x)); [|congruence]. now apply (NoDup_map_eq _ _ snd (db_parts c)); auto; apply (cs_parts _ _ HC).
    - intros en pt Hen Hpt. destruct (entry_in _ Hen) as (_ & _ & _ & _ & P1 & _). destruct (P1 _ Hpt) as (k & _ & P & _). exists (fst (fst k)). apply (kget_In zord); [apply K|auto].
    - intros k e. rewrite kept_all. rewrite (kget_In keyord) by apply K. cbn [In]. tauto.
    - intros p. assert (X : counter c p (partition_count (db_counts c) p)).
      { unfold counter, partition_count. destruct (kget zord p (db_counts c)) as [n|] eqn:E; [left; apply (kget_In zord) in E; [auto|apply K]|right]. split; auto. now apply (kget_None zord). }
      apply (cs_counts _ _ HC) in X. rewrite X. reflexivity.
    - intros k [].
    - intros r i Hs. now apply Hr.
    - intros _ r i Hi. now apply Hr.
  Qed.
  End Order.

  Lemma resume_without : exists H, stands_for H c /\ repr c H [] /\ (forall en x, In en H -> cf_cond (en_conf en) x = true) /\
      forall e, (exists en, In en H /\ en_ev en = e) <-> once_stored c G e.
  Proof.
    destruct (history_exists c G HC) as (H & F & O & A). pose proof (represents H F O A) as R. exists H. split; [|split; [exact R|split]].
    2: { intros en x Hen. rewrite Forall_forall in F. now apply (F _ Hen). }
    2: { intros e. split; [|apply A]. intros (en & Hen & <-). rewrite Forall_forall in F. apply (F _ Hen). }
    constructor.
    - intros e Se. apply A. now left.
    - apply (ct_ids _ _ _ (repr_content _ _ _ R)).
    - apply latest_all; auto.
    - intros k e. rewrite <- (kept_all H F A). unfold kept. split; intros (cf & pt & P1 & P2 & P3 & P4); exists cf, pt; (split; [auto|]); (split; [auto|]); (split; [|auto]).
      + apply (kget_In zord) in P3; [auto|apply (cs_sorted _ _ HC)].
      + apply (kget_In zord); [apply (cs_sorted _ _ HC)|auto].
  Qed.
End History.

Lemma resume_history_met : forall c, consistent c -> exists H, stands_for H c /\ repr c H [] /\ forall en x, In en H -> cf_cond (en_conf en) x = true.
Proof. intros c [G HC]. destruct (resume_without c G HC) as (H & A & B & C & _). eauto. Qed.

Lemma resume_history : forall c, consistent c -> exists H, stands_for H c /\ repr c H [].
Proof. intros c HC. destruct (resume_history_met c HC) as (H & A & B & _). eauto. Qed.
