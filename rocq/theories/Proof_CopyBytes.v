(** Lemmas for C83. *)
From Coq Require Import String Ascii Bool ZArith Lia Permutation Sorted List.
From Verif Require Import Base Kv Model_Types Spec_Order Proof_Order Model_Codec Spec_Codec Proof_Codec Keys Model_Sbs Model_Lmdb Model_Copy Spec_Copy Proof_Copy
  Model_Convert Spec_Convert Model_ConvertBytes Spec_ConvertBytes Proof_ConvertBytes Proof_ConvertBytes2 Proof_ConvertBytes4 Model_ConvertCut Spec_ConvertCut Proof_ConvertCut
  Proof_ConvertCut2 Model_CopyBytes Spec_CopyBytes.
Import ListNotations.
Open Scope string_scope.
Open Scope list_scope.
Open Scope Z_scope.

(** ** Decoded bytes have the forms *)

Lemma unpack_uint : forall n b v, is_bytes b -> unpack n b = Some v -> uint n v b.
Proof.
  intros n b v Hb H. unfold unpack in H. destruct (Nat.eqb (List.length b) n) eqn:E; [|discriminate]. injection H as <-. apply Nat.eqb_eq in E.
  split; [exact E|]. split; [exact Hb|]. apply value_unbe.
Qed.
Lemma ts_form_dec : forall b t, is_bytes b -> decode_timestamp b = Some t -> ts_form t b.
Proof.
  intros b t Hb H. unfold decode_timestamp, timestamp_from_bytes in H. destruct (Nat.eqb _ 12); [|discriminate].
  destruct (is_bytes_split 8 _ Hb) as [H1 H2].
  destruct (unpack 8 (firstn 8 b)) as [s|] eqn:E1; [|discriminate]. destruct (unpack 4 (skipn 8 b)) as [u|] eqn:E2; [|discriminate].
  cbn [obind] in H. injection H as <-. exists (firstn 8 b), (skipn 8 b). split; [symmetry; apply firstn_skipn|]. cbn [ts_s ts_us].
  split; [match goal with |- uint 8 ?x _ => replace x with s by lia end; exact (unpack_uint _ _ _ H1 E1)|exact (unpack_uint _ _ _ H2 E2)].
Qed.
Lemma split3 : forall (b : bytes) n m, b = firstn n b ++ firstn m (skipn n b) ++ skipn (n + m) b.
Proof. intros b n m. rewrite <- (firstn_skipn n b) at 1. f_equal. rewrite <- (firstn_skipn m (skipn n b)) at 1. f_equal. rewrite Nat.add_comm. clear. revert m b. induction n as [|n IH]; intros m b; [now rewrite Nat.add_0_r|].
  rewrite Nat.add_succ_r. destruct b as [|x b]; [now rewrite !skipn_nil|]. cbn [skipn]. apply IH. Qed.
Lemma eid_form_dec : forall b i, is_bytes b -> decode_event_id b = Some i -> eid_form i b.
Proof.
  intros b i Hb H. unfold decode_event_id in H. destruct (Nat.eqb _ 24); [|discriminate].
  destruct (unpack 8 (firstn 8 b)) as [x|] eqn:E1; [|discriminate]. destruct (unpack 8 (firstn 8 (skipn 8 b))) as [y|] eqn:E2; [|discriminate].
  destruct (unpack 8 (skipn 16 b)) as [z|] eqn:E3; [|discriminate]. cbn [obind] in H. injection H as <-.
  exists (firstn 8 b), (firstn 8 (skipn 8 b)), (skipn 16 b). split; [apply (split3 b 8 8)|]. cbn [eid_server eid_session eid_instance].
  destruct (is_bytes_split 8 _ Hb) as [H1 H2]. destruct (is_bytes_split 8 _ H2) as [H3 _]. destruct (is_bytes_split 16 _ Hb) as [_ H4].
  split; [exact (unpack_uint _ _ _ H1 E1)|]. split; [exact (unpack_uint _ _ _ H3 E2)|exact (unpack_uint _ _ _ H4 E3)].
Qed.
Lemma key_form_dec : forall b k, is_bytes b -> decode_ts_key b = Some k -> key7_form k b.
Proof.
  intros b k Hb H. unfold decode_ts_key in H.
  destruct (decode_uint (firstn 8 b)) as [p|] eqn:E1; [|discriminate]. destruct (decode_timestamp (firstn 12 (skipn 8 b))) as [t|] eqn:E2; [|discriminate].
  destruct (decode_event_id (skipn 20 b)) as [i|] eqn:E3; [|discriminate]. cbn [obind] in H. injection H as <-.
  exists (firstn 8 b), (firstn 12 (skipn 8 b)), (skipn 20 b). split; [apply (split3 b 8 12)|].
  destruct (is_bytes_split 8 _ Hb) as [H1 H2]. destruct (is_bytes_split 12 _ H2) as [H3 _]. destruct (is_bytes_split 20 _ Hb) as [_ H4].
  split; [exact (unpack_uint _ _ _ H1 E1)|]. split; [exact (ts_form_dec _ _ H3 E2)|exact (eid_form_dec _ _ H4 E3)].
Qed.
Lemma ref_fits_dec : forall b r, is_bytes b -> decode_event_ref b = Some r -> ref_fits r.
Proof.
  intros [|x b] r Hb H; [discriminate|]. cbn [decode_event_ref] in H. assert (Hb' : is_bytes b) by (inversion Hb; assumption).
  destruct (x =? db_latest_data).
  - destruct (decode_uint b) as [k|] eqn:E; [|discriminate]. cbn [obind] in H. injection H as <-. apply unpack_Some in E as [E _]; auto.
  - destruct (x =? db_timeseries_data); [|discriminate]. destruct (decode_ts_key b) as [k|] eqn:E; [|discriminate]. cbn [obind] in H. injection H as <-.
    apply key_form_dec in E; auto. exact (key7_form_fits _ _ E).
Qed.
Lemma refs_fit_loop : forall fuel b l, is_bytes b -> decode_event_refs_loop fuel b = Some l -> Forall ref_fits l.
Proof.
  induction fuel as [|n IH]; intros [|x b] l Hb H; cbn [decode_event_refs_loop] in H; try (injection H as <-; constructor); try discriminate.
  destruct (if x =? db_latest_data then Some 8%nat else if x =? db_timeseries_data then Some 44%nat else None) as [len|]; [|discriminate]. cbn [obind] in H.
  destruct (is_bytes_split (len + 1) _ Hb) as [H1 H2].
  destruct (decode_event_ref (firstn (len + 1) (x :: b))) as [r|] eqn:E; [|discriminate]. cbn [obind] in H.
  destruct (decode_event_refs_loop n (skipn (len + 1) (x :: b))) as [rs|] eqn:E2; [|discriminate]. cbn [obind] in H. injection H as <-.
  constructor; [exact (ref_fits_dec _ _ H1 E)|exact (IH _ _ H2 E2)].
Qed.
Lemma refs_fit : forall b l, is_bytes b -> decode_event_refs b = Some l -> Forall ref_fits l.
Proof. intros b l. apply refs_fit_loop. Qed.

(** ** Reading of a database *)

Definition dec {V} (dv : bytes -> option V) (v : V) (b : bytes) : Prop := dv b = Some v.

Lemma read_to_rep : forall K V (fk : K -> bytes -> Prop) dk (dv : bytes -> option V), (forall b k, is_bytes b -> dk b = Some k -> fk k b) ->
    forall r l, (forall k v, In (k, v) r -> is_bytes k) -> read_db dk dv r = Some l -> rep fk (dec dv) l r.
Proof.
  intros K V fk dk dv Hk. unfold read_db, rep. induction r as [|[bk bv] r IH]; intros l Hb H; cbn [traverse fst snd] in H.
  - injection H as <-. constructor.
  - destruct (dk bk) as [k|] eqn:E1; [|discriminate]. cbn [obind] in H. destruct (dv bv) as [v|] eqn:E2; [|discriminate]. cbn [obind] in H.
    match type of H with context [traverse ?f r] => destruct (traverse f r) as [l'|] eqn:E3; [|discriminate] end. cbn [obind] in H. injection H as <-. constructor.
    + cbn [fst snd]. split; [apply Hk; [apply (Hb bk bv); now left|exact E1]|exact E2].
    + apply IH; auto. intros k' v' Hi. apply (Hb k' v'). now right.
Qed.
Lemma rep_to_read : forall K V (fk : K -> bytes -> Prop) dk (dv : bytes -> option V), (forall k b, fk k b -> dk b = Some k) ->
    forall l r, rep fk (dec dv) l r -> read_db dk dv r = Some l.
Proof.
  intros K V fk dk dv Hk l r H. unfold read_db. induction H as [|[k v] [bk bv] l r [H1 H2] H IH]; [reflexivity|].
  cbn [traverse fst snd] in *. rewrite (Hk _ _ H1). cbn [obind]. unfold dec in H2. rewrite H2. cbn [obind]. now rewrite IH.
Qed.
Lemma rep_sorted : forall K V (o : ord K) (fk : K -> bytes -> Prop) (fv : V -> bytes -> Prop), emb o fk ->
    forall l r, rep fk fv l r -> StronglySorted bytes_lt (map fst r) -> ksorted o l.
Proof.
  intros K V o fk fv E l r H. unfold ksorted. induction H as [|[k v] [bk bv] l r [H1 H2] H IH]; cbn [keys map fst] in *; intros S; [constructor|].
  inversion S as [|x y S' A]; subst. constructor; [auto|]. clear - H H1 A E. induction H as [|[k' v'] [bk' bv'] l r [H3 H4] H IH]; cbn [keys map fst] in *; constructor.
  - inversion A; subst. apply (E k k' bk bk'); auto. now apply bytes_ltb_lt.
  - apply IH. now inversion A.
Qed.
Lemma rep_copy : forall K V (o : ord K) (fk : K -> bytes -> Prop) (fv : V -> bytes -> Prop), emb o fk ->
    forall l r, rep fk fv l r -> rep fk fv (copy_db o l) (copy_db bytesord r).
Proof.
  intros K V o fk fv E l r H. unfold copy_db.
  assert (X : forall m n, rep fk fv m n -> rep fk fv (fold_left (fun dst kv => kput o (fst kv) (snd kv) dst) l m) (fold_left (fun dst kv => kput bytesord (fst kv) (snd kv) dst) r n)).
  { induction H as [|[k v] [bk bv] l r [H1 H2] H IH]; cbn [fold_left fst snd] in *; auto. intros m n Hm. apply IH. now apply kput_rep. }
  apply X. constructor.
Qed.

(** ** The file as a whole *)

Definition dec_str C (b : bytes) : option string := do j <- decode_json C b; of_jstr j.
Definition dec_refs (b : bytes) : option (list event_ref) := do rs <- decode_event_refs b; Some (sof reford rs).
Definition dec_type C (b : bytes) : option etype := do j <- decode_json C b; of_jtype j.

Record file_of (C : codecs) (e : env) (d : ldb) : Prop := {
  fd_settings : rep (uint 8) (dec (dec_str C)) (db_settings d) (eitems "SYSTEM_SETTINGS" e);
  fd_ids : rep (uint 8) (dec decode_event_id) (db_ids d) (eitems "SYSTEM_LAST_EVENT_ID" e);
  fd_tss : rep (uint 8) (dec decode_timestamp) (db_tss d) (eitems "SYSTEM_LAST_TIMESTAMP" e);
  fd_ref : rep eid_form (dec dec_refs) (db_ref d) (eitems "REF" e);
  fd_latest : rep (uint 8) (dec (decode_event C)) (db_latest d) (eitems "LATEST_DATA" e);
  fd_types : rep (uint 8) (dec (dec_type C)) (db_types d) (eitems "LATEST_TYPE" e);
  fd_ts : rep key7_form (dec (decode_event C)) (db_ts d) (eitems "TIMESERIES_DATA" e);
  fd_parts : rep (uint 8) (dec (decode_part C)) (db_parts d) (eitems "TIMESERIES_PARTITION" e);
  fd_counts : rep (uint 8) (dec decode_uint) (db_counts d) (eitems "TIMESERIES_COUNT" e) }.

Lemma uint_form_dec : forall b k, is_bytes b -> decode_uint b = Some k -> uint 8 k b.
Proof. intros. now apply unpack_uint. Qed.

Lemma items_keys : forall e name k v, file_ok e -> In (k, v) (eitems name e) -> is_bytes k.
Proof.
  intros e name k v H Hi. unfold eitems in Hi. destruct (dget String.eqb name e) as [r|] eqn:E; [|destruct Hi]. exact (fo_keys _ H _ _ _ _ E Hi).
Qed.
Lemma items_sorted : forall e name, file_ok e -> StronglySorted bytes_lt (map fst (eitems name e)).
Proof.
  intros e name H. unfold eitems. destruct (dget String.eqb name e) as [r|] eqn:E; [exact (fo_sorted _ H _ _ E)|constructor].
Qed.

Lemma read_file : forall C e d, file_ok e -> read9 C e = Some d -> file_of C e d.
Proof.
  intros C e d H R. unfold read9 in R.
  pose proof (fun K V fk dk (dv : bytes -> option V) P n l => read_to_rep K V fk dk dv P (eitems n e) l (fun k v => items_keys e n k v H)) as T.
  destruct (read_db _ _ (eitems "SYSTEM_SETTINGS" e)) as [x1|] eqn:E1; [|discriminate]. cbn [obind] in R.
  destruct (read_db _ _ (eitems "SYSTEM_LAST_EVENT_ID" e)) as [x2|] eqn:E2; [|discriminate]. cbn [obind] in R.
  destruct (read_db _ _ (eitems "SYSTEM_LAST_TIMESTAMP" e)) as [x3|] eqn:E3; [|discriminate]. cbn [obind] in R.
  destruct (read_db _ _ (eitems "REF" e)) as [x4|] eqn:E4; [|discriminate]. cbn [obind] in R.
  destruct (read_db _ _ (eitems "LATEST_DATA" e)) as [x5|] eqn:E5; [|discriminate]. cbn [obind] in R.
  destruct (read_db _ _ (eitems "LATEST_TYPE" e)) as [x6|] eqn:E6; [|discriminate]. cbn [obind] in R.
  destruct (read_db _ _ (eitems "TIMESERIES_DATA" e)) as [x7|] eqn:E7; [|discriminate]. cbn [obind] in R.
  destruct (read_db _ _ (eitems "TIMESERIES_PARTITION" e)) as [x8|] eqn:E8; [|discriminate]. cbn [obind] in R.
  destruct (read_db _ _ (eitems "TIMESERIES_COUNT" e)) as [x9|] eqn:E9; [|discriminate]. cbn [obind] in R.
  injection R as <-. split; cbn [db_settings db_ids db_tss db_ref db_latest db_types db_ts db_parts db_counts].
  - exact (T _ _ _ _ _ uint_form_dec _ _ E1).
  - exact (T _ _ _ _ _ uint_form_dec _ _ E2).
  - exact (T _ _ _ _ _ uint_form_dec _ _ E3).
  - exact (T _ _ _ _ _ eid_form_dec _ _ E4).
  - exact (T _ _ _ _ _ uint_form_dec _ _ E5).
  - exact (T _ _ _ _ _ uint_form_dec _ _ E6).
  - exact (T _ _ _ _ _ key_form_dec _ _ E7).
  - exact (T _ _ _ _ _ uint_form_dec _ _ E8).
  - exact (T _ _ _ _ _ uint_form_dec _ _ E9).
Qed.

Lemma file_read : forall C e d, file_of C e d -> read9 C e = Some d.
Proof.
  intros C e d H. unfold read9.
  rewrite (rep_to_read _ _ _ _ (dec_str C) uint_dec _ _ (fd_settings _ _ _ H) : read_db decode_uint (fun b => do j <- decode_json C b; of_jstr j) _ = _).
  rewrite (rep_to_read _ _ _ _ _ uint_dec _ _ (fd_ids _ _ _ H)).
  rewrite (rep_to_read _ _ _ _ _ uint_dec _ _ (fd_tss _ _ _ H)).
  rewrite (rep_to_read _ _ _ _ dec_refs eid_dec9 _ _ (fd_ref _ _ _ H) : read_db decode_event_id (fun b => do rs <- decode_event_refs b; Some (sof reford rs)) _ = _).
  rewrite (rep_to_read _ _ _ _ _ uint_dec _ _ (fd_latest _ _ _ H)).
  rewrite (rep_to_read _ _ _ _ (dec_type C) uint_dec _ _ (fd_types _ _ _ H) : read_db decode_uint (fun b => do j <- decode_json C b; of_jtype j) _ = _).
  rewrite (rep_to_read _ _ _ _ _ key_dec9 _ _ (fd_ts _ _ _ H)).
  rewrite (rep_to_read _ _ _ _ _ uint_dec _ _ (fd_parts _ _ _ H)).
  rewrite (rep_to_read _ _ _ _ _ uint_dec _ _ (fd_counts _ _ _ H)).
  cbn [obind]. now destruct d.
Qed.

Lemma file_sorted : forall C e d, file_ok e -> file_of C e d -> kept_sorted d.
Proof.
  intros C e d K H. destruct H. split;
    (eapply rep_sorted; [| eassumption | now apply items_sorted]); first [apply emb_uint|apply emb_eid|apply emb_key].
Qed.
