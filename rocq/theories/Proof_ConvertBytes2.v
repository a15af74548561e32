(** Databases of bytes follow databases of decoded entries. *)
From Coq Require Import String Ascii Bool ZArith Lia Permutation Sorted List.
From Verif Require Import Base Kv Model_Types Spec_Order Proof_Order Model_Codec Spec_Codec Proof_Codec Keys Model_Sbs Proof_Sbs Model_Lmdb Model_Convert Spec_Convert
  Model_ConvertBytes Spec_ConvertBytes Proof_ConvertBytes.
Import ListNotations.
Open Scope string_scope.
Open Scope list_scope.
Open Scope Z_scope.

(** ** Order of keys *)

Lemma bytes_ltb_lt : forall a b, bytes_ltb a b = true <-> bytes_lt a b.
Proof.
  induction a as [|x a IH]; intros [|y b]; cbn [bytes_ltb].
  - split; [discriminate|intros H; inversion H].
  - split; [constructor|auto].
  - split; [discriminate|intros H; inversion H].
  - rewrite orb_true_iff, andb_true_iff, Z.ltb_lt, Z.eqb_eq, IH, bytes_lt_cons. tauto.
Qed.

(** Bytes of keys keep equality and order. *)
Definition emb {K} (o : ord K) (fk : K -> bytes -> Prop) : Prop :=
  forall a b x y, fk a x -> fk b y -> (x = y <-> a = b) /\ (bytes_ltb x y = true <-> oltb o a b = true).

Lemma emb_uint : emb zord (uint 8).
Proof.
  intros a b x y Ha Hb. apply uint8 in Ha. apply uint8 in Hb. destruct final_C12_uint as (_ & _ & H). destruct (H _ _ _ _ Ha Hb) as [H1 H2].
  split; auto. rewrite bytes_ltb_lt, H2. cbn [oltb zord]. now rewrite Z.ltb_lt.
Qed.
Lemma emb_eid : emb eidord eid_form.
Proof.
  intros a b x y Ha Hb. apply eid_form_enc in Ha. apply eid_form_enc in Hb. destruct final_C12_event_id as (_ & _ & H). destruct (H _ _ _ _ Ha Hb) as [H1 H2].
  split; auto. rewrite bytes_ltb_lt, H2. cbn [oltb eidord]. now rewrite eid_ltb_spec.
Qed.
Lemma emb_key : emb keyord key7_form.
Proof.
  intros a b x y Ha Hb. apply key7_form_enc in Ha. apply key7_form_enc in Hb. destruct final_C12_ts_key as (_ & _ & H). destruct (H _ _ _ _ Ha Hb) as [H1 H2].
  split; auto. rewrite bytes_ltb_lt, H2. cbn [oltb keyord]. now rewrite key_ltb_spec.
Qed.

(** ** Tables *)

Section Rep.
  Context {K V : Type}.
  Variable o : ord K.
  Variable fk : K -> bytes -> Prop.
  Variable fv : V -> bytes -> Prop.
  Hypothesis E : emb o fk.

  Definition rep (l : list (K * V)) (r : raw) : Prop := Forall2 (fun kv b => fk (fst kv) (fst b) /\ fv (snd kv) (snd b)) l r.

  Lemma emb_ltb : forall a b x y, fk a x -> fk b y -> bytes_ltb x y = oltb o a b.
  Proof.
    intros a b x y Ha Hb. destruct (E _ _ _ _ Ha Hb) as [_ H]. destruct (bytes_ltb x y), (oltb o a b); auto; destruct H as [H1 H2]; try (symmetry; now apply H1); now apply H2.
  Qed.
  Lemma emb_eqb : forall a b x y, fk a x -> fk b y -> bytes_eqb x y = oeqb o a b.
  Proof.
    intros a b x y Ha Hb. destruct (E _ _ _ _ Ha Hb) as [H _]. rewrite <- bytes_eqb_spec, <- (oeqb_spec o) in H.
    destruct (bytes_eqb x y), (oeqb o a b); auto; destruct H as [H1 H2]; try (symmetry; now apply H1); now apply H2.
  Qed.

  Lemma kput_rep : forall k v bk bv l r, fk k bk -> fv v bv -> rep l r -> rep (kput o k v l) (kput bytesord bk bv r).
  Proof.
    intros k v bk bv l r Hk Hv H. induction H as [|[k' v'] [bk' bv'] l r [H1 H2] H IH]; cbn [kput fst snd] in *.
    - repeat constructor; auto.
    - cbn [oltb bytesord]. rewrite (emb_ltb _ _ _ _ Hk H1), (emb_ltb _ _ _ _ H1 Hk).
      destruct (oltb o k k'); [repeat constructor; auto|]. destruct (oltb o k' k); constructor; auto.
  Qed.
  Lemma kget_rep : forall k bk l r, fk k bk -> rep l r ->
      match kget o k l with Some v => exists bv, kget bytesord bk r = Some bv /\ fv v bv | None => kget bytesord bk r = None end.
  Proof.
    intros k bk l r Hk H. unfold kget. induction H as [|[k' v'] [bk' bv'] l r [H1 H2] H IH]; cbn [dget fst snd] in *; auto.
    cbn [oeqb bytesord] in *. rewrite (emb_eqb _ _ _ _ Hk H1). destruct (oeqb o k k'); auto. exists bv'. auto.
  Qed.
End Rep.

Lemma table_rep : forall K V name (fk : K -> bytes -> Prop) (fv : V -> bytes -> Prop) e l,
    table name fk fv e l <-> ehas name e = true /\ rep fk fv l (eitems name e).
Proof.
  intros. unfold table, ehas, dmem, eitems, rep. destruct (dget String.eqb name e) as [r|].
  - split; [intros (r' & [= <-] & H); auto|intros [_ H]; eauto].
  - split; [intros (r' & [=] & H)|intros [[=] _]].
Qed.

Lemma ehas_eput_same : forall n k v e, ehas n (eput n k v e) = true.
Proof. intros. unfold ehas, dmem, eput. now rewrite (dget_dset_same String.eqb_eq). Qed.
Lemma ehas_eput_other : forall n n' k v e, n <> n' -> ehas n (eput n' k v e) = ehas n e.
Proof. intros. unfold ehas, dmem, eput. now rewrite (dget_dset_other String.eqb_eq). Qed.
Lemma eitems_eput_same : forall n k v e, eitems n (eput n k v e) = kput bytesord k v (eitems n e).
Proof. intros. unfold eput. unfold eitems at 1. now rewrite (dget_dset_same String.eqb_eq). Qed.
Lemma eitems_eput_other : forall n n' k v e, n <> n' -> eitems n (eput n' k v e) = eitems n e.
Proof. intros. unfold eput. unfold eitems at 1. rewrite (dget_dset_other String.eqb_eq) by auto. reflexivity. Qed.

Lemma table_put : forall K V o name (fk : K -> bytes -> Prop) (fv : V -> bytes -> Prop) e l k v bk bv, emb o fk ->
    table name fk fv e l -> fk k bk -> fv v bv -> table name fk fv (eput name bk bv e) (kput o k v l).
Proof.
  intros K V o name fk fv e l k v bk bv E H Hk Hv. apply table_rep in H as [_ H]. apply table_rep. split; [apply ehas_eput_same|].
  rewrite eitems_eput_same. now apply kput_rep.
Qed.
Lemma table_other : forall K V name name' (fk : K -> bytes -> Prop) (fv : V -> bytes -> Prop) e l bk bv, name <> name' ->
    table name fk fv e l -> table name fk fv (eput name' bk bv e) l.
Proof.
  intros K V name name' fk fv e l bk bv N H. apply table_rep in H as [H1 H]. apply table_rep. now rewrite ehas_eput_other, eitems_eput_other.
Qed.
Lemma table_open : forall K V name name' (fk : K -> bytes -> Prop) (fv : V -> bytes -> Prop) e l,
    table name fk fv e l -> table name fk fv (eopen name' e) l.
Proof.
  intros K V name name' fk fv e l (r & H1 & H). unfold eopen. destruct (ehas name' e) eqn:X; [exists r; auto|]. exists r. split; auto.
  rewrite (dget_dset_other String.eqb_eq); auto. intros ->. unfold ehas, dmem in X. now rewrite H1 in X.
Qed.
Lemma table_new : forall K V name (fk : K -> bytes -> Prop) (fv : V -> bytes -> Prop) e, dget String.eqb name e = None ->
    table name fk fv (eopen name e) [].
Proof. intros. unfold eopen, ehas, dmem. rewrite H. exists []. split; [apply (dget_dset_same String.eqb_eq)|constructor]. Qed.
Lemma none_open : forall name name' (e : env), name <> name' -> dget String.eqb name e = None -> dget String.eqb name (eopen name' e) = None.
Proof. intros name name' e N H. unfold eopen. destruct (ehas name' e); auto. now rewrite (dget_dset_other String.eqb_eq). Qed.
Lemma none_put : forall name name' k v (e : env), name <> name' -> dget String.eqb name e = None -> dget String.eqb name (eput name' k v e) = None.
Proof. intros name name' k v e N H. unfold eput. now rewrite (dget_dset_other String.eqb_eq). Qed.

(** ** Reading *)

Lemma read_rep : forall K V (fk : K -> bytes -> Prop) (fv : V -> bytes -> Prop) dk dv, (forall k b, fk k b -> dk b = Some k) ->
    (forall v b, fv v b -> dv b = Some v) -> forall name e l, table name fk fv e l -> read_db dk dv (eitems name e) = Some l.
Proof.
  intros K V fk fv dk dv Hk Hv name e l H. apply table_rep in H as [_ H]. unfold read_db. induction H as [|[k v] [bk bv] l r [H1 H2] H IH]; [reflexivity|].
  cbn [traverse fst snd] in *. rewrite (Hk _ _ H1). cbn [obind]. rewrite (Hv _ _ H2). cbn [obind]. now rewrite IH.
Qed.

(** ** The new version *)

Section New.
  Variable C : codecs.
  Variable F : Z -> Z -> Prop.
  Hypothesis HC : codecs_ok C F.

  Definition event9_form (x : event) (b : bytes) : Prop := decode_event C b = Some x.
  Definition refs9_form (rs : list event_ref) (b : bytes) : Prop := (do l <- decode_event_refs b; Some (sof reford l)) = Some rs.
  Definition str_form (s : string) (b : bytes) : Prop := json_form C (JStr s) b.
  Definition part9_form (p : part_data) (b : bytes) : Prop := decode_part C b = Some p.

  Record file9 (e : env) (d : ldb) : Prop := {
    f9_settings : table "SYSTEM_SETTINGS" (uint 8) str_form e (db_settings d);
    f9_ids : table "SYSTEM_LAST_EVENT_ID" (uint 8) eid_form e (db_ids d);
    f9_tss : table "SYSTEM_LAST_TIMESTAMP" (uint 8) ts_form e (db_tss d);
    f9_ref : table "REF" eid_form refs9_form e (db_ref d);
    f9_latest : table "LATEST_DATA" (uint 8) event9_form e (db_latest d);
    f9_types : table "LATEST_TYPE" (uint 8) (type_form C) e (db_types d);
    f9_data : table "TIMESERIES_DATA" key7_form event9_form e (db_ts d);
    f9_parts : table "TIMESERIES_PARTITION" (uint 8) part9_form e (db_parts d);
    f9_counts : table "TIMESERIES_COUNT" (uint 8) (uint 8) e (db_counts d) }.

  Lemma eid_dec9 : forall i b, eid_form i b -> decode_event_id b = Some i.
  Proof. intros i b H. apply eid_form_enc, eid_enc in H as [H ->]. now apply eid_dec_enc. Qed.
  Lemma ts_dec9 : forall i b, ts_form i b -> decode_timestamp b = Some i.
  Proof. intros i b H. apply ts_form_enc, ts_enc in H as [H ->]. now apply ts_dec_enc. Qed.
  Lemma key_dec9 : forall i b, key7_form i b -> decode_ts_key b = Some i.
  Proof. intros i b H. apply key7_form_enc, key_enc in H as [H ->]. now apply key_dec_enc. Qed.
  Lemma str_dec : forall s b, str_form s b -> (do j <- decode_json C b; of_jstr j) = Some s.
  Proof. intros s b H. rewrite (json_dec _ _ HC _ _ H) by constructor. reflexivity. Qed.

  Lemma read9_file : forall e d, file9 e d -> read9 C e = Some d.
  Proof.
    intros e d []. unfold read9.
    erewrite (read_rep _ _ _ _ _ _ uint_dec str_dec) by eassumption. cbn [obind].
    erewrite (read_rep _ _ _ _ _ _ uint_dec eid_dec9) by eassumption. cbn [obind].
    erewrite (read_rep _ _ _ _ _ _ uint_dec ts_dec9) by eassumption. cbn [obind].
    erewrite (read_rep _ _ _ refs9_form _ _ eid_dec9 (fun _ _ H => H)) by eassumption. cbn [obind].
    erewrite (read_rep _ _ _ event9_form _ _ uint_dec (fun _ _ H => H)) by eassumption. cbn [obind].
    erewrite (read_rep _ _ _ _ _ _ uint_dec (type_dec7 C F HC)) by eassumption. cbn [obind].
    erewrite (read_rep _ _ _ event9_form _ _ key_dec9 (fun _ _ H => H)) by eassumption. cbn [obind].
    erewrite (read_rep _ _ _ part9_form _ _ uint_dec (fun _ _ H => H)) by eassumption. cbn [obind].
    erewrite (read_rep _ _ _ _ _ _ uint_dec uint_dec) by eassumption. now destruct d.
  Qed.

  (** ** Loops of the conversion *)

  Lemma uint_enc : forall v b, uint 8 v b -> encode_uint v = Some b.
  Proof. intros. now apply uint8. Qed.
  Lemma event9_wf : forall x, payload_wf F (e7_payload x) -> event9_form (event_7_9 x) (encode_event C (event_7_9 x)).
  Proof. intros x H. unfold event9_form. apply (event_dec C F HC). cbn [ev_payload event_7_9]. destruct (e7_payload x) as [[b|j|m t b]|]; cbn in *; auto. Qed.

  Ltac other := eapply table_other; [discriminate|assumption].

  Lemma system_loop : forall l r, rep (uint 8) system_form l r -> forall e d, file9 e d ->
      exists e', loop raw_system r e = Some e' /\
        file9 e' (Ldb (db_settings d) (fold_left (fun m kv => kput zord (fst kv) (fst (snd kv)) m) l (db_ids d))
                      (fold_left (fun m kv => kput zord (fst kv) (snd (snd kv)) m) l (db_tss d)) (db_ref d) (db_latest d) (db_types d) (db_ts d) (db_parts d) (db_counts d)).
  Proof.
    intros l r H. induction H as [|[k [i t]] [bk bv] l r [Hk Hv] H IH]; intros e d Hf; cbn [loop fold_left fst snd] in *.
    - exists e. split; auto. now destruct d.
    - unfold raw_system at 1. cbn [fst snd]. rewrite (key_dec7 _ _ Hk). cbn [obind]. rewrite (system_dec7 _ _ Hv). cbn [obind fst snd].
      rewrite (uint_enc _ _ Hk). cbn [obind]. destruct Hv as (a & b & -> & Ha & Hb). cbn [fst snd] in *.
      rewrite (proj1 (eid_form_enc _ _) Ha). cbn [obind]. rewrite (proj1 (ts_form_enc _ _) Hb). cbn [obind].
      match goal with |- context [loop _ _ ?e1] => specialize (IH e1 (Ldb (db_settings d) (kput zord k i (db_ids d)) (kput zord k t (db_tss d))
        (db_ref d) (db_latest d) (db_types d) (db_ts d) (db_parts d) (db_counts d))) end.
      apply IH. destruct Hf. constructor; cbn [db_settings db_ids db_tss db_ref db_latest db_types db_ts db_parts db_counts]; try (do 2 (eapply table_other; [discriminate|]); assumption).
      + eapply table_other; [discriminate|]. apply table_put; auto using emb_uint.
      + apply table_put; auto using emb_uint. other.
  Qed.

  Lemma refs9_dec : forall rs l, Permutation l rs -> Forall ref_fits rs -> exists b, encode_event_refs l = Some b /\ refs9_form (sof reford rs) b.
  Proof.
    intros rs l P H. apply (Permutation_Forall (Permutation_sym P)) in H. destruct (proj1 final_C13 _ H) as (b & E & D). exists b. split; auto.
    unfold refs9_form. rewrite D. cbn [obind]. f_equal. apply (sext reford); try apply ssorted_sof.
    intros x. rewrite !In_sof. split; apply Permutation_in; auto. now apply Permutation_sym.
  Qed.

  Lemma ref_7_9_map : forall rs, map ref_7_9 rs = rs.
  Proof. induction rs as [|r rs IH]; [reflexivity|]. cbn [map]. rewrite IH. destruct r as [k|[[p t] i]]; reflexivity. Qed.
  Lemma sof_idem : forall rs, sof reford (sof reford rs) = sof reford rs.
  Proof. intros. apply (sext reford); try apply ssorted_sof. intros x. now rewrite !In_sof. Qed.

  Lemma ref_loop : forall l r, rep eid_form refs7_form l r -> forall e d, file9 e d ->
      exists e', loop (raw_ref C) r e = Some e' /\
        file9 e' (Ldb (db_settings d) (db_ids d) (db_tss d) (fold_left (fun m kv => kput eidord (fst kv) (sof reford (map ref_7_9 (snd kv))) m) l (db_ref d))
                      (db_latest d) (db_types d) (db_ts d) (db_parts d) (db_counts d)).
  Proof.
    intros l r H. induction H as [|[k rs] [bk bv] l r [Hk Hv] H IH]; intros e d Hf; cbn [loop fold_left fst snd] in *.
    - exists e. split; auto. now destruct d.
    - unfold raw_ref at 1. cbn [fst snd]. rewrite (eid_dec7_end _ _ Hk). cbn [obind fst]. rewrite (refs7_dec _ _ Hv). cbn [obind fst snd].
      rewrite (proj1 (eid_form_enc _ _) Hk). cbn [obind]. rewrite !ref_7_9_map, sof_idem.
      pose proof (refs7_fits _ _ Hv) as Hr. destruct (refs9_dec (sof reford rs) (iter C (sof reford rs))) as (b & E & D).
      { apply (ck_iter _ _ HC). } { apply Forall_forall. intros x Hx. apply In_sof in Hx. rewrite Forall_forall in Hr. auto. }
      rewrite E. cbn [obind]. rewrite sof_idem in D.
      match goal with |- context [loop _ _ ?e1] => specialize (IH e1 (Ldb (db_settings d) (db_ids d) (db_tss d) (kput eidord k (sof reford rs) (db_ref d))
        (db_latest d) (db_types d) (db_ts d) (db_parts d) (db_counts d))) end.
      apply IH. destruct Hf. constructor; cbn [db_settings db_ids db_tss db_ref db_latest db_types db_ts db_parts db_counts]; try other. apply table_put; auto using emb_eid.
  Qed.

  Lemma latest_loop : forall l r, rep (uint 8) (event7_form C) l r -> (forall x, In x (vals l) -> payload_wf F (e7_payload x)) -> forall e d, file9 e d ->
      exists e', loop (raw_latest C) r e = Some e' /\
        file9 e' (Ldb (db_settings d) (db_ids d) (db_tss d) (db_ref d) (fold_left (fun m kv => kput zord (fst kv) (event_7_9 (snd kv)) m) l (db_latest d))
                      (db_types d) (db_ts d) (db_parts d) (db_counts d)).
  Proof.
    intros l r H. induction H as [|[k x] [bk bv] l r [Hk Hv] H IH]; intros W e d Hf; cbn [loop fold_left fst snd vals map] in *.
    - exists e. split; auto. now destruct d.
    - unfold raw_latest at 1. cbn [fst snd]. rewrite (key_dec7 _ _ Hk). cbn [obind]. rewrite (event7_dec C F HC _ _ Hv) by (apply W; cbn; auto). cbn [obind fst snd].
      rewrite (uint_enc _ _ Hk). cbn [obind].
      match goal with |- context [loop _ _ ?e1] => specialize (IH (fun y Hy => W y (or_intror Hy)) e1 (Ldb (db_settings d) (db_ids d) (db_tss d) (db_ref d)
        (kput zord k (event_7_9 x) (db_latest d)) (db_types d) (db_ts d) (db_parts d) (db_counts d))) end.
      apply IH. destruct Hf. constructor; cbn [db_settings db_ids db_tss db_ref db_latest db_types db_ts db_parts db_counts]; try other. apply table_put; auto using emb_uint.
      apply event9_wf. apply W. cbn. auto.
  Qed.

  Lemma type_loop : forall l r, rep (uint 8) (type_form C) l r -> forall e d, file9 e d ->
      exists e', loop (raw_type C) r e = Some e' /\
        file9 e' (Ldb (db_settings d) (db_ids d) (db_tss d) (db_ref d) (db_latest d) (fold_left (fun m kv => kput zord (fst kv) (snd kv) m) l (db_types d))
                      (db_ts d) (db_parts d) (db_counts d)).
  Proof.
    intros l r H. induction H as [|[k x] [bk bv] l r [Hk Hv] H IH]; intros e d Hf; cbn [loop fold_left fst snd vals map] in *.
    - exists e. split; auto. now destruct d.
    - unfold raw_type at 1. cbn [fst snd]. rewrite (key_dec7 _ _ Hk). cbn [obind]. rewrite (type_dec7 C F HC _ _ Hv). cbn [obind fst snd].
      rewrite (uint_enc _ _ Hk). cbn [obind].
      match goal with |- context [loop _ _ ?e1] => specialize (IH e1 (Ldb (db_settings d) (db_ids d) (db_tss d) (db_ref d)
        (db_latest d) (kput zord k x (db_types d)) (db_ts d) (db_parts d) (db_counts d))) end.
      apply IH. destruct Hf. constructor; cbn [db_settings db_ids db_tss db_ref db_latest db_types db_ts db_parts db_counts]; try other. apply table_put; auto using emb_uint.
      reflexivity.
  Qed.

  Lemma data_loop : forall l r, rep key7_form (event7_form C) l r -> (forall x, In x (vals l) -> payload_wf F (e7_payload x)) -> forall e d, file9 e d ->
      exists e', loop (raw_data C) r e = Some e' /\
        file9 e' (Ldb (db_settings d) (db_ids d) (db_tss d) (db_ref d) (db_latest d) (db_types d)
                      (fold_left (fun m kv => kput keyord (fst kv) (event_7_9 (snd kv)) m) l (db_ts d)) (db_parts d) (db_counts d)).
  Proof.
    intros l r H. induction H as [|[k x] [bk bv] l r [Hk Hv] H IH]; intros W e d Hf; cbn [loop fold_left fst snd vals map] in *.
    - exists e. split; auto. now destruct d.
    - unfold raw_data at 1. cbn [fst snd]. rewrite (data_key_dec7 _ _ Hk). cbn [obind]. rewrite (event7_dec C F HC _ _ Hv) by (apply W; cbn; auto). cbn [obind fst snd].
      rewrite (proj1 (key7_form_enc _ _) Hk). cbn [obind].
      match goal with |- context [loop _ _ ?e1] => specialize (IH (fun y Hy => W y (or_intror Hy)) e1 (Ldb (db_settings d) (db_ids d) (db_tss d) (db_ref d)
        (db_latest d) (db_types d) (kput keyord k (event_7_9 x) (db_ts d)) (db_parts d) (db_counts d))) end.
      apply IH. destruct Hf. constructor; cbn [db_settings db_ids db_tss db_ref db_latest db_types db_ts db_parts db_counts]; try other. apply table_put; auto using emb_key.
      apply event9_wf. apply W. cbn. auto.
  Qed.

  Lemma count_loop : forall l r, rep (uint 8) (uint 8) l r -> forall e d, file9 e d ->
      exists e', loop raw_count r e = Some e' /\
        file9 e' (Ldb (db_settings d) (db_ids d) (db_tss d) (db_ref d) (db_latest d) (db_types d) (db_ts d) (db_parts d)
                      (fold_left (fun m kv => kput zord (fst kv) (snd kv) m) l (db_counts d))).
  Proof.
    intros l r H. induction H as [|[k x] [bk bv] l r [Hk Hv] H IH]; intros e d Hf; cbn [loop fold_left fst snd vals map] in *.
    - exists e. split; auto. now destruct d.
    - unfold raw_count at 1. cbn [fst snd]. rewrite (key_dec7 _ _ Hk). cbn [obind]. rewrite (key_dec7 _ _ Hv). cbn [obind fst snd].
      rewrite (uint_enc _ _ Hk). cbn [obind]. rewrite (uint_enc _ _ Hv). cbn [obind].
      match goal with |- context [loop _ _ ?e1] => specialize (IH e1 (Ldb (db_settings d) (db_ids d) (db_tss d) (db_ref d)
        (db_latest d) (db_types d) (db_ts d) (db_parts d) (kput zord k x (db_counts d)))) end.
      apply IH. destruct Hf. constructor; cbn [db_settings db_ids db_tss db_ref db_latest db_types db_ts db_parts db_counts]; try other. apply table_put; auto using emb_uint.
  Qed.

  Lemma traverse_types : forall l, of_jtypes (JArr (map (fun t => JArr (map JStr t)) l)) = Some l.
  Proof. intros. unfold of_jtypes. apply traverse_map. intros x _. apply of_jtype_jtype. Qed.
  Lemma jfield_In : forall l k v, NoDup (map fst l) -> In (k, v) l -> jfield k (JObj l) = Some v.
  Proof. intros l k v N H. unfold jfield. now apply (In_dget String.eqb_eq). Qed.

  Lemma parts_none : forall l, fold_left (fun acc (kv : Z * part7) => match acc, part_7_9 (snd kv) with Some m, Some p => Some (kput zord (fst kv) p m) | _, _ => None end) l None = None.
  Proof. induction l; auto. Qed.

  Lemma part_loop : forall l r, rep (uint 8) (part_form C F) l r -> forall e d, file9 e d -> forall m,
      fold_left (fun acc kv => match acc, part_7_9 (snd kv) with Some m, Some p => Some (kput zord (fst kv) p m) | _, _ => None end) l (Some (db_parts d)) = Some m ->
      exists e', loop (raw_part C) r e = Some e' /\
        file9 e' (Ldb (db_settings d) (db_ids d) (db_tss d) (db_ref d) (db_latest d) (db_types d) (db_ts d) m (db_counts d)).
  Proof.
    intros l r H. induction H as [|[k x] [bk bv] l r [Hk Hv] H IH]; intros e d Hf m Hm; cbn [loop fold_left fst snd vals map] in *.
    - injection Hm as <-. exists e. split; auto. now destruct d.
    - destruct Hv as (obj & Hj & Hw & Ho & Hs). unfold raw_part at 1. cbn [fst snd]. rewrite (key_dec7 _ _ Hk). cbn [obind].
      rewrite (json_dec C F HC _ _ Hj Hw). cbn [obind]. inversion Hw as [| | | | | |? Hn Hall]; subst.
      rewrite (jfield_In _ _ _ Hn Ho). cbn [obind of_jint]. rewrite (jfield_In _ _ _ Hn Hs). cbn [obind]. rewrite (uint_enc _ _ Hk).
      unfold part_7_9 in Hm at 2.
      assert (D : forall ob, decode_part C (encode_json C (JObj [("order", JStr (order_by_value ob)); ("subscriptions", JArr (map (fun t => JArr (map JStr t)) (p7_subs x)))])) =
                             Some (PartData (order_by_value ob) (p7_subs x))).
      { intros ob. unfold decode_part. rewrite (json_dec C F HC _ _ (json_enc C _)).
        - cbn [obind]. cbn [jfield dget String.eqb Ascii.eqb Bool.eqb obind of_jstr]. rewrite traverse_types. reflexivity.
        - constructor; [repeat constructor; cbn; intuition discriminate|]. repeat constructor; cbn.
          apply Forall_forall. intros y Hy. apply in_map_iff in Hy as (t & <- & _). apply wf_jtype. }
      destruct (p7_order x =? 1) eqn:E1; [|destruct (p7_order x =? 2) eqn:E2; [|now rewrite parts_none in Hm]]; cbn [obind].
      + match goal with |- context [loop _ _ ?e1] => specialize (IH e1 (Ldb (db_settings d) (db_ids d) (db_tss d) (db_ref d)
          (db_latest d) (db_types d) (db_ts d) (kput zord k (PartData (order_by_value TIMESTAMP) (p7_subs x)) (db_parts d)) (db_counts d))) end.
        apply IH; [|exact Hm]. destruct Hf. constructor; cbn [db_settings db_ids db_tss db_ref db_latest db_types db_ts db_parts db_counts]; try other.
        apply table_put; auto using emb_uint. apply D.
      + match goal with |- context [loop _ _ ?e1] => specialize (IH e1 (Ldb (db_settings d) (db_ids d) (db_tss d) (db_ref d)
          (db_latest d) (db_types d) (db_ts d) (kput zord k (PartData (order_by_value SOURCE_TIMESTAMP) (p7_subs x)) (db_parts d)) (db_counts d))) end.
        apply IH; [|exact Hm]. destruct Hf. constructor; cbn [db_settings db_ids db_tss db_ref db_latest db_types db_ts db_parts db_counts]; try other.
        apply table_put; auto using emb_uint. apply D.
  Qed.

  (** ** The whole conversion *)

  Lemma start9 : exists k, encode_uint 0 = Some k /\
      file9 (eput "SYSTEM_SETTINGS" k (encode_json C (JStr "0.9")) (fold_left (fun e n => eopen n e) names9 [])) (Ldb (kput zord 0 "0.9" []) [] [] [] [] [] [] [] []).
  Proof.
    assert (K : encode_uint 0 = Some (be 8 0)) by (vm_compute; reflexivity). exists (be 8 0). split; auto.
    constructor; cbn [db_settings db_ids db_tss db_ref db_latest db_types db_ts db_parts db_counts];
      try (eapply table_other; [discriminate|]; exists []; split; [vm_compute; reflexivity|constructor]).
    apply (table_put _ _ zord _ _ str_form); [exact emb_uint| |now apply uint8|reflexivity]. exists []. split; [vm_compute; reflexivity|constructor].
  Qed.

  Lemma raw_7_9_file : forall e d c, file7 C F e d -> wf7 F d -> convert_7_9 d = Some c -> exists e', raw_7_9 C e = Some e' /\ file9 e' c.
  Proof.
    intros e d c [_ S R L T D P N] W Hc. unfold convert_7_9 in Hc. destruct (parts_7_9 (d7_parts d)) as [parts|] eqn:EP; [|discriminate]. injection Hc as <-.
    apply table_rep in S as [_ S]. apply table_rep in R as [_ R]. apply table_rep in L as [_ L]. apply table_rep in T as [_ T].
    apply table_rep in D as [_ D]. apply table_rep in P as [_ P]. apply table_rep in N as [_ N].
    destruct start9 as (k0 & K0 & F0). unfold raw_7_9. rewrite K0. cbn [obind].
    destruct (system_loop _ _ S _ _ F0) as (e1 & Ee1 & F1). rewrite Ee1. clear Ee1. cbn [obind]. cbn [db_settings db_ids db_tss db_ref db_latest db_types db_ts db_parts db_counts] in F1.
    destruct (ref_loop _ _ R _ _ F1) as (e2 & Ee2 & F2). rewrite Ee2. clear Ee2. cbn [obind]. cbn [db_settings db_ids db_tss db_ref db_latest db_types db_ts db_parts db_counts] in F2.
    destruct (latest_loop _ _ L (fun x Hx => W x (or_introl Hx)) _ _ F2) as (e3 & Ee3 & F3). rewrite Ee3. clear Ee3. cbn [obind]. cbn [db_settings db_ids db_tss db_ref db_latest db_types db_ts db_parts db_counts] in F3.
    destruct (type_loop _ _ T _ _ F3) as (e4 & Ee4 & F4). rewrite Ee4. clear Ee4. cbn [obind]. cbn [db_settings db_ids db_tss db_ref db_latest db_types db_ts db_parts db_counts] in F4.
    destruct (data_loop _ _ D (fun x Hx => W x (or_intror Hx)) _ _ F4) as (e5 & Ee5 & F5). rewrite Ee5. clear Ee5. cbn [obind]. cbn [db_settings db_ids db_tss db_ref db_latest db_types db_ts db_parts db_counts] in F5.
    destruct (part_loop _ _ P _ _ F5 parts EP) as (e6 & Ee6 & F6). rewrite Ee6. clear Ee6. cbn [obind]. cbn [db_settings db_ids db_tss db_ref db_latest db_types db_ts db_parts db_counts] in F6.
    destruct (count_loop _ _ N _ _ F6) as (e7 & Ee7 & F7). rewrite Ee7. clear Ee7. cbn [db_settings db_ids db_tss db_ref db_latest db_types db_ts db_parts db_counts] in F7. exists e7. split; auto.
  Qed.

  (** ** Versions *)

  Lemma version7 : forall e d, file7 C F e d -> get_version C e = Some V7.
  Proof.
    intros e d [N S R L T D P Q]. unfold get_version. unfold ehas at 1, dmem. rewrite N. cbv zeta.
    apply table_rep in S as [S _]. apply table_rep in R as [R _]. apply table_rep in L as [L _]. apply table_rep in T as [T _].
    apply table_rep in D as [D _]. apply table_rep in P as [P _]. apply table_rep in Q as [Q _]. cbn [forallb]. now rewrite S, R, L, T, D, P, Q.
  Qed.
  Lemma version6 : forall e d, file6 C F e d -> get_version C e = Some V6.
  Proof.
    intros e d [N N7 (r & S & _) (r' & L & _) D P Q]. unfold get_version. unfold ehas at 1, dmem. rewrite N. cbv zeta.
    apply table_rep in D as [D _]. apply table_rep in P as [P _]. apply table_rep in Q as [Q _]. cbn [forallb].
    unfold ehas at 1, dmem. rewrite N7. cbn [andb]. rewrite D, P, Q. unfold ehas, dmem. now rewrite S, L.
  Qed.
  Lemma version9 : forall e d, file9 e d -> db_settings d = [(0, "0.9")] -> get_version C e = Some V9.
  Proof.
    intros e d [S _ _ _ _ _ _ _ _] E. rewrite E in S. destruct (proj1 (table_rep _ _ _ _ _ _ _) S) as [S1 S2]. unfold get_version. rewrite S1.
    destruct start9 as (k & K & _). rewrite K. cbn [obind]. unfold eget. assert (U := proj2 (uint8 _ _) K).
    pose proof (kget_rep zord (uint 8) str_form emb_uint 0 k _ _ U S2) as G. cbn [kget dget oeqb zord] in G. change (kget zord 0 [(0, "0.9")]) with (Some "0.9") in G.
    destruct G as (b & -> & G). cbn [obind]. rewrite (json_dec C F HC _ _ G) by constructor. reflexivity.
  Qed.
End New.
