(** Formats of former versions are read and written exactly; databases of bytes
    follow databases of decoded entries. *)
From Coq Require Import String Ascii Bool ZArith Lia Permutation Sorted List.
From Verif Require Import Base Kv Model_Types Spec_Order Proof_Order Model_Codec Spec_Codec Proof_Codec Keys Model_Sbs Proof_Sbs Model_Lmdb Model_Convert Spec_Convert
  Model_ConvertBytes Spec_ConvertBytes.
Import ListNotations.
Open Scope string_scope.
Open Scope list_scope.
Open Scope Z_scope.

(** ** Numbers *)

Lemma value_unbe : forall bs, value bs = unbe bs.
Proof. induction bs as [|b bs IH]; [reflexivity|]. rewrite unbe_cons. cbn [value]. now rewrite IH. Qed.
Lemma uint_be : forall n v bs, uint n v bs <-> 0 <= v < 256 ^ Z.of_nat n /\ bs = be n v.
Proof.
  intros n v bs. unfold uint. rewrite value_unbe. split.
  - intros (<- & H & <-). split; [now apply unbe_range|]. now rewrite be_unbe.
  - intros [H ->]. split; [apply be_length|]. split; [now apply be_bytes|now apply unbe_be].
Qed.
Lemma uint8 : forall v bs, uint 8 v bs <-> encode_uint v = Some bs.
Proof. intros. unfold encode_uint. rewrite uint_be, pack_Some. reflexivity. Qed.
Lemma ts_form_enc : forall t bs, ts_form t bs <-> encode_timestamp t = Some bs.
Proof.
  intros t bs. unfold encode_timestamp. rewrite ts_enc. unfold ts_form, ts_fits, ts_be. split.
  - intros (a & b & -> & H1 & H2). apply uint_be in H1 as [H1 ->]. apply uint_be in H2 as [H2 ->]. rewrite P8 in H1. rewrite P4 in H2. split; [lia|auto].
  - intros [[H1 H2] ->]. eexists _, _. split; [reflexivity|]. rewrite !uint_be, P8, P4. repeat split; lia.
Qed.
Lemma eid_form_enc : forall i bs, eid_form i bs <-> encode_event_id i = Some bs.
Proof.
  intros i bs. rewrite eid_enc. unfold eid_form, eid_fits, eid_be, u64. rewrite <- P8. split.
  - intros (a & b & c & -> & H1 & H2 & H3). apply uint_be in H1 as [H1 ->]. apply uint_be in H2 as [H2 ->]. apply uint_be in H3 as [H3 ->]. auto.
  - intros [(H1 & H2 & H3) ->]. eexists _, _, _. split; [reflexivity|]. rewrite !uint_be. auto.
Qed.
Lemma key7_form_enc : forall k bs, key7_form k bs <-> encode_ts_key k = Some bs.
Proof.
  intros [[p t] i] bs. unfold key7_form, encode_ts_key. split.
  - intros (a & b & c & -> & H1 & H2 & H3). apply uint8 in H1. apply ts_form_enc in H2. apply eid_form_enc in H3. now rewrite H1, H2; cbn [obind]; rewrite H3.
  - unfold obind. destruct (encode_uint p) as [a|] eqn:E1; [|discriminate]. destruct (encode_timestamp t) as [b|] eqn:E2; [|discriminate].
    destruct (encode_event_id i) as [c|] eqn:E3; [|discriminate]. intros [= <-]. exists a, b, c. rewrite uint8, ts_form_enc, eid_form_enc. auto.
Qed.

Lemma uint_dec : forall v bs, uint 8 v bs -> decode_uint bs = Some v.
Proof. intros v bs H. apply uint_be in H as [H ->]. now apply unpack_be. Qed.
Lemma uint_dec6 : forall v bs, uint 8 v bs -> decode_uint6 bs = Some v.
Proof. exact uint_dec. Qed.
Lemma uint_len : forall n v bs, uint n v bs -> List.length bs = n.
Proof. unfold uint. tauto. Qed.
Lemma uint_dec7 : forall v bs r, uint 8 v bs -> decode_uint7 (bs ++ r) = Some (v, r).
Proof. intros v bs r H. apply uint_be in H as [H ->]. unfold decode_uint7. rewrite firstn_be, skipn_be, unpack_be by auto. reflexivity. Qed.
Lemma key_dec7 : forall v bs, uint 8 v bs -> decode_key7 bs = Some v.
Proof. intros v bs H. unfold decode_key7. rewrite <- (app_nil_r bs), (uint_dec7 _ _ _ H). reflexivity. Qed.
Lemma eid_dec7 : forall i bs r, eid_form i bs -> decode_eid7 (bs ++ r) = Some (i, r).
Proof.
  intros i bs r H. apply eid_form_enc, eid_enc in H as [H ->]. unfold decode_eid7. rewrite firstn_app_len, skipn_app_len by apply eid_be_length.
  rewrite eid_dec_enc by auto. reflexivity.
Qed.
Lemma eid_dec7_end : forall i bs, eid_form i bs -> decode_eid7 bs = Some (i, []).
Proof. intros i bs H. rewrite <- (app_nil_r bs) at 1. now apply eid_dec7. Qed.
Lemma ts_dec7 : forall t bs r, ts_form t bs -> decode_ts7 (bs ++ r) = Some (t, r).
Proof.
  intros i bs r H. apply ts_form_enc, ts_enc in H as [H ->]. unfold decode_ts7. rewrite firstn_app_len, skipn_app_len by apply ts_be_length.
  unfold decode_timestamp. rewrite ts_dec_enc by auto. reflexivity.
Qed.
Lemma data_key_dec7 : forall k bs, key7_form k bs -> decode_data_key7 bs = Some k.
Proof.
  intros [[p t] i] bs (a & b & c & -> & H1 & H2 & H3). unfold decode_data_key7. rewrite (uint_dec7 _ _ _ H1). cbn [obind snd fst].
  rewrite (ts_dec7 _ _ _ H2). cbn [obind snd fst]. rewrite <- (app_nil_r c), (eid_dec7 _ _ _ H3). reflexivity.
Qed.
Lemma system_dec7 : forall v bs, system_form v bs -> decode_system7 bs = Some v.
Proof.
  intros [i t] bs (a & b & -> & H1 & H2). cbn [fst snd] in *. unfold decode_system7. rewrite (eid_dec7 _ _ _ H1). cbn [obind snd fst].
  rewrite <- (app_nil_r b), (ts_dec7 _ _ _ H2). reflexivity.
Qed.
Lemma system_enc7 : forall v bs, system_form v bs <-> encode_system7 v = Some bs.
Proof.
  intros [i t] bs. unfold system_form, encode_system7, obind. cbn [fst snd]. split.
  - intros (a & b & -> & H1 & H2). apply eid_form_enc in H1. apply ts_form_enc in H2. now rewrite H1, H2.
  - destruct (encode_event_id i) as [a|] eqn:E1; [|discriminate]. destruct (encode_timestamp t) as [b|] eqn:E2; [|discriminate]. intros [= <-].
    exists a, b. rewrite eid_form_enc, ts_form_enc. auto.
Qed.
Lemma key6_dec : forall k bs, key6_form k bs -> decode_key6 bs = Some k.
Proof.
  intros [[p t] n] bs (a & b & c & -> & H1 & (b1 & b2 & -> & H2 & H3) & H4). unfold decode_key6.
  pose proof (uint_len _ _ _ H1) as L1. pose proof (uint_len _ _ _ H2) as L2. pose proof (uint_len _ _ _ H3) as L3. pose proof (uint_len _ _ _ H4) as L4.
  rewrite !app_length, L1, L2, L3, L4. cbn [Nat.eqb Nat.add].
  rewrite (firstn_app_len _ 8) by auto. rewrite (skipn_app_len _ 8) by auto. rewrite <- app_assoc, (firstn_app_len _ 8) by auto.
  replace (a ++ b1 ++ b2 ++ c) with ((a ++ b1) ++ b2 ++ c) by now rewrite <- app_assoc. rewrite (skipn_app_len _ 16) by now rewrite app_length, L1, L2.
  rewrite (firstn_app_len _ 4) by auto. rewrite app_assoc, (skipn_app_len _ 20) by now rewrite !app_length, L1, L2, L3.
  apply uint_be in H1 as [H1 ->]. apply uint_be in H2 as [H2 ->]. apply uint_be in H3 as [H3 ->]. apply uint_be in H4 as [H4 ->].
  rewrite !unpack_be by auto. cbn [obind]. destruct t as [s us]. cbn [ts_s ts_us]. do 4 f_equal. lia.
Qed.

Lemma eid_form_fits : forall i bs, eid_form i bs -> eid_fits i.
Proof. intros i bs H. apply eid_form_enc, eid_enc in H. tauto. Qed.
Lemma key7_form_fits : forall i bs, key7_form i bs -> key_fits i.
Proof. intros i bs H. apply key7_form_enc, key_enc in H. tauto. Qed.

(** ** References *)

Lemma ref7_form_enc : forall r bs, ref7_form r bs <-> encode_ref7 r = Some bs.
Proof.
  intros [k|k] bs; unfold ref7_form, encode_ref7, obind.
  - split.
    + intros (b & -> & H). apply uint8 in H. now rewrite H.
    + destruct (encode_uint k) as [b|] eqn:E; [|discriminate]. intros [= <-]. exists b. now rewrite uint8.
  - split.
    + intros (b & -> & H). apply key7_form_enc in H. now rewrite H.
    + destruct (encode_ts_key k) as [b|] eqn:E; [|discriminate]. intros [= <-]. exists b. now rewrite key7_form_enc.
Qed.
Lemma ref7_fits : forall r bs, ref7_form r bs -> ref_fits r.
Proof.
  intros [k|k] bs (b & -> & H); cbn [ref_fits].
  - apply uint_be in H as [H _]. exact H.
  - eapply key7_form_fits; eauto.
Qed.
Lemma ref7_dec : forall r bs rest, ref7_form r bs -> decode_ref7 (bs ++ rest) = Some (r, rest).
Proof.
  intros [k|k] bs rest (b & -> & H); rewrite <- app_comm_cons; unfold decode_ref7.
  - change (1 =? 1) with true. cbv iota. pose proof (uint_len _ _ _ H) as L. rewrite (firstn_app_len _ 8), (skipn_app_len _ 8) by auto.
    rewrite (key_dec7 _ _ H). reflexivity.
  - change (3 =? 1) with false. change (3 =? 3) with true. cbv iota.
    assert (L : List.length b = 44%nat). { apply key7_form_enc, key_enc in H as [_ ->]. apply key_be_length. }
    rewrite (firstn_app_len _ 44), (skipn_app_len _ 44) by auto. rewrite (data_key_dec7 _ _ H). reflexivity.
Qed.
Lemma ref7_cons : forall r bs, ref7_form r bs -> exists x y, bs = x :: y.
Proof. intros [k|k] bs (b & -> & _); eauto. Qed.
Lemma refs7_dec_loop : forall l bss, Forall2 ref7_form l bss -> forall fuel s, (List.length l <= fuel)%nat ->
    decode_refs7_loop fuel (concat bss) s = Some (fold_left (fun s k => sadd reford k s) l s).
Proof.
  intros l bss H. induction H as [|r bs l bss Hr H IH]; intros fuel s L; cbn [concat fold_left].
  - now destruct fuel.
  - cbn [List.length] in L. destruct fuel as [|fuel]; [lia|]. destruct (ref7_cons _ _ Hr) as (x & y & E). rewrite E, <- app_comm_cons. cbn [decode_refs7_loop].
    rewrite app_comm_cons, <- E, (ref7_dec _ _ _ Hr). cbn [obind fst snd]. apply IH. lia.
Qed.
Lemma refs7_len : forall l bss, Forall2 ref7_form l bss -> (List.length l <= List.length (concat bss))%nat.
Proof.
  intros l bss H. induction H as [|r bs l bss Hr H IH]; cbn [concat List.length]; auto. rewrite app_length. destruct (ref7_cons _ _ Hr) as (x & y & ->). cbn [List.length]. lia.
Qed.
Lemma refs7_dec : forall rs bs, refs7_form rs bs -> decode_refs7 bs = Some (sof reford rs).
Proof.
  intros rs bs (l & bss & P & H & ->). unfold decode_refs7. rewrite (refs7_dec_loop _ _ H) by now apply refs7_len. f_equal.
  change (fold_left (fun s k => sadd reford k s) l []) with (sof reford l). apply (sext reford); try apply ssorted_sof.
  intros x. rewrite !In_sof. split; apply Permutation_in; auto. now apply Permutation_sym.
Qed.
Lemma refs7_fits : forall rs bs, refs7_form rs bs -> Forall ref_fits rs.
Proof.
  intros rs bs (l & bss & P & H & _). apply (Permutation_Forall P). clear P. induction H; constructor; auto. eapply ref7_fits; eauto.
Qed.
Lemma refs7_enc : forall rs l, Permutation l rs -> Forall ref_fits rs -> exists bs, encode_refs7 l = Some bs /\ refs7_form rs bs.
Proof.
  intros rs l P H. apply (Permutation_Forall (Permutation_sym P)) in H.
  assert (E : exists bss, Forall2 ref7_form l bss /\ encode_refs7 l = Some (concat bss)).
  { clear P. induction H as [|r l Hr H IH]; [exists []; split; [constructor|reflexivity]|]. destruct IH as (bss & F & E).
    assert (B : exists b, ref7_form r b).
    { destruct r as [k|k]; cbn [ref_fits ref7_form] in *.
      - eexists _, _. split; [reflexivity|]. apply uint_be. split; [exact Hr|reflexivity].
      - eexists _, _. split; [reflexivity|]. apply key7_form_enc, key_enc. auto. }
    destruct B as [b B]. exists (b :: bss). split; [constructor; auto|]. cbn [encode_refs7]. apply ref7_form_enc in B. rewrite B. cbn [obind]. now rewrite E. }
  destruct E as (bss & F & E). exists (concat bss). split; auto. exists l, bss. auto.
Qed.
Lemma refs7_empty : forall rs, refs7_form rs [] -> rs = [].
Proof.
  intros rs (l & bss & P & H & E). destruct H as [|r b l bss H]; [now apply Permutation_nil in P|]. destruct (ref7_cons _ _ H) as (x & y & ->). discriminate.
Qed.

(** ** JSON and events *)

Lemma untext_text : forall s, untext (text s) = s.
Proof. induction s as [|a s IH]; [reflexivity|]. cbn [text untext]. now rewrite IH, N2Z.id, ascii_N_embedding. Qed.

Section Codecs.
  Variable C : codecs.
  Variable F : Z -> Z -> Prop.
  Hypothesis HC : codecs_ok C F.

  Lemma json_dec : forall j bs, json_form C j bs -> json_wf F j -> decode_json C bs = Some j.
  Proof. intros j bs -> H. unfold decode_json. rewrite untext_text. now apply (ck_json _ _ HC). Qed.
  Lemma json_enc : forall j, json_form C j (encode_json C j).
  Proof. reflexivity. Qed.
  Lemma wf_jtype : forall t, json_wf F (jtype t).
  Proof. intros t. constructor. apply Forall_forall. intros x Hx. apply in_map_iff in Hx as (s & <- & _). constructor. Qed.
  Lemma of_jtype_jtype : forall t, of_jtype (jtype t) = Some t.
  Proof. intros t. unfold of_jtype, jtype. now apply traverse_map. Qed.
  Lemma type_dec7 : forall t bs, type_form C t bs -> decode_type7 C bs = Some t.
  Proof. intros t bs H. unfold decode_type7. rewrite (json_dec _ _ H (wf_jtype t)). cbn [obind]. apply of_jtype_jtype. Qed.

  Lemma payload_dec7 : forall p, payload_wf F p -> optional_from_sbs (payload7_from_sbs C) (optional_to_sbs (payload7_to_sbs C) p) = Some p.
  Proof.
    intros [[b|j|m t b]|] H; unfold optional_from_sbs, optional_to_sbs, payload7_to_sbs, payload7_from_sbs; fields; auto.
    - rewrite (ck_json _ _ HC) by exact H. reflexivity.
    - destruct m; reflexivity.
  Qed.
  Lemma cf_payload7 : forall p, conforms T_Payload7 (payload7_to_sbs C p).
  Proof.
    intros [b|j|m t b]; unfold T_Payload7, payload7_to_sbs; (eapply cf_choice; [cbn; eauto|]); conf. apply cf_opt. intros; constructor.
  Qed.
  Lemma event7_form_enc : forall e, event7_form C e (encode_event7 C e).
  Proof. reflexivity. Qed.
  Lemma event7_dec : forall e bs, event7_form C e bs -> payload_wf F (e7_payload e) -> decode_event7 C bs = Some e.
  Proof.
    intros [i t ts src p] bs -> H. unfold decode_event7. cbn [e7_id e7_type e7_ts e7_src e7_payload] in *.
    change (SRec [("server", SInt (eid_server i)); ("session", SInt (eid_session i)); ("instance", SInt (eid_instance i))]) with (event_id_to_sbs i).
    change (type_sbs t) with (etype_to_sbs t). change (ts_sbs ts) with (timestamp_to_sbs ts). change (optional_form ts_sbs src) with (optional_to_sbs timestamp_to_sbs src).
    change (optional_form (payload_form C) p) with (optional_to_sbs (payload7_to_sbs C) p).
    rewrite (ck_sbs _ _ HC); [|unfold T_Event7; conf; auto using cf_timestamp, cf_event_id, cf_etype, cf_opt, cf_payload7].
    fields. rewrite event_id_rt; fields. rewrite etype_rt; fields. rewrite timestamp_rt; fields.
    rewrite (optional_rt _ _ _ _ timestamp_rt); fields. rewrite payload_dec7 by auto. reflexivity.
  Qed.
  Lemma event6_dec : forall e bs, event6_form C e bs -> payload_wf F (e6_payload e) -> decode_event6 C bs = Some e.
  Proof.
    intros [sv n t ts src p] bs -> H. unfold decode_event6. cbn [e6_server e6_instance e6_type e6_ts e6_src e6_payload] in *.
    change (type_sbs t) with (etype_to_sbs t). change (ts_sbs ts) with (timestamp_to_sbs ts). change (optional_form ts_sbs src) with (optional_to_sbs timestamp_to_sbs src).
    change (optional_form (payload_form C) p) with (optional_to_sbs (payload7_to_sbs C) p).
    rewrite (ck_sbs _ _ HC); [|unfold T_Event6, T_EventId6; conf; auto using cf_timestamp, cf_event_id, cf_etype, cf_opt, cf_payload7].
    fields. rewrite etype_rt; fields. rewrite timestamp_rt; fields.
    rewrite (optional_rt _ _ _ _ timestamp_rt); fields. rewrite payload_dec7 by auto. reflexivity.
  Qed.
  Lemma event_dec : forall e, match ev_payload e with Some (PJson j) => json_wf F j | _ => True end -> decode_event C (encode_event C e) = Some e.
  Proof.
    intros e H. unfold decode_event, encode_event. rewrite (ck_sbs _ _ HC) by apply cf_event. cbn [obind].
    apply (event_rt _ _ (json_wf F)); [apply (ck_json _ _ HC)|exact H].
  Qed.
End Codecs.
