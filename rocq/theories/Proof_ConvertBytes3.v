(** From 0.6 to 0.7, on the level of bytes. *)
From Coq Require Import String Ascii Bool ZArith Lia Permutation Sorted List.
From Verif Require Import Base Kv Model_Types Spec_Order Proof_Order Model_Codec Spec_Codec Proof_Codec Keys Model_Sbs Proof_Sbs Model_Lmdb Model_Convert Spec_Convert
  Model_ConvertBytes Spec_ConvertBytes Proof_ConvertBytes Proof_ConvertBytes2.
Import ListNotations.
Open Scope string_scope.
Open Scope list_scope.
Open Scope Z_scope.

Lemma In_kput : forall K V (o : ord K) k (v : V) m x, In x (kput o k v m) -> x = (k, v) \/ In x m.
Proof.
  intros K V o k v m x. induction m as [|[k' v'] m IH]; cbn [kput In]; [intuition|]. destruct (oltb o k k'); cbn [In]; [intuition|].
  destruct (oltb o k' k); cbn [In]; intuition.
Qed.

Section Old.
  Variable C : codecs.
  Variable F : Z -> Z -> Prop.
  Hypothesis HC : codecs_ok C F.

  Definition sorted_refs (rs : list event_ref) (b : bytes) : Prop := refs7_form rs b /\ ssorted reford rs.

  Lemma sof_sorted : forall rs, ssorted reford rs -> sof reford rs = rs.
  Proof. intros rs H. apply (sext reford); [apply ssorted_sof|auto|]. intros x. apply In_sof. Qed.

  (** The tables of the first and of the second half. *)
  Record half (e : env) (system : list (Z * (event_id * timestamp))) (ref : list (event_id * list event_ref)) (latest : list (Z * event7)) (types : list (Z * etype)) : Prop := {
    h_none : dget String.eqb "SYSTEM_SETTINGS" e = None;
    h_system : table "SYSTEM" (uint 8) system_form e system;
    h_ref : table "REF" eid_form sorted_refs e ref;
    h_latest : table "LATEST_DATA" (uint 8) (event7_form C) e latest;
    h_types : table "LATEST_TYPE" (uint 8) (type_form C) e types }.
  Record ordered (e : env) (data : list (ts_key * event7)) (parts : list (Z * part7)) (counts : list (Z * Z)) : Prop := {
    o_data : table "ORDERED_DATA" key7_form (event7_form C) e data;
    o_parts : table "ORDERED_PARTITION" (uint 8) (part_form C F) e parts;
    o_counts : table "ORDERED_COUNT" (uint 8) (uint 8) e counts }.
  Definition unopened (e : env) : Prop :=
    dget String.eqb "ORDERED_DATA" e = None /\ dget String.eqb "ORDERED_PARTITION" e = None /\ dget String.eqb "ORDERED_COUNT" e = None.

  Ltac other := eapply table_other; [discriminate|assumption].

  Lemma put_ref_file : forall i r e s ref l t, half e s ref l t -> eid_fits i -> ref_fits r ->
      exists k v, put_ref C i r e = Some (eput "REF" k v e) /\ half (eput "REF" k v e) s (update_ref ref i r) l t.
  Proof.
    intros i r e s ref l t H Hi Hr. destruct H as [N S R L T]. assert (K : encode_event_id i = Some (eid_be i)) by (apply eid_enc; auto).
    assert (K' := proj2 (eid_form_enc _ _) K). unfold put_ref, update_ref. rewrite K. cbn [obind]. unfold eget.
    pose proof (kget_rep eidord eid_form sorted_refs emb_eid i _ _ _ K' (proj2 (proj1 (table_rep _ _ _ _ _ _ _) R))) as G.
    set (old := match kget eidord i ref with Some x => x | None => [] end) in *.
    assert (O : Forall ref_fits old /\ ssorted reford old /\
                match kget bytesord (eid_be i) (eitems "REF" e) with Some (x :: v) => decode_refs7 (x :: v) | _ => Some [] end = Some old).
    { unfold old. destruct (kget eidord i ref) as [rs|].
      - destruct G as (b & -> & G1 & G2). split; [eapply refs7_fits; eauto|]. split; auto. destruct b as [|x b].
        + apply refs7_empty in G1. now subst.
        + rewrite (refs7_dec _ _ G1). now rewrite sof_sorted.
      - rewrite G. split; [constructor|]. split; [constructor|auto]. }
    destruct O as (O1 & O2 & O3). rewrite O3. cbn [obind].
    destruct (refs7_enc (sadd reford r old) (iter C (sadd reford r old))) as (b & E & B).
    { apply (ck_iter _ _ HC). } { apply Forall_forall. intros x Hx. apply In_sadd in Hx as [->|Hx]; auto. rewrite Forall_forall in O1. auto. }
    rewrite E. cbn [obind]. exists (eid_be i), b. split; auto. constructor; try other; [now apply none_put|].
    apply table_put; auto using emb_eid. split; auto. now apply ssorted_sadd.
  Qed.

  Lemma put_system_file : forall sid x e s ref l t, half e s ref l t -> u64 sid -> eid_fits (e7_id x) -> ts_fits (e7_ts x) ->
      exists e', put_system sid x e = Some e' /\ (e' = e \/ exists k v, e' = eput "SYSTEM" k v e) /\ half e' (update_system s sid x) ref l t.
  Proof.
    intros sid x e s ref l t H Hs Hi Ht. pose proof H as H0. destruct H as [N S R L T].
    assert (K : encode_uint sid = Some (be 8 sid)) by (apply pack_ok; exact Hs). assert (K' := proj2 (uint8 _ _) K).
    unfold put_system, update_system. rewrite K. cbn [obind]. unfold eget.
    pose proof (kget_rep zord (uint 8) system_form emb_uint sid _ _ _ K' (proj2 (proj1 (table_rep _ _ _ _ _ _ _) S))) as G.
    set (i := match kget zord sid s with Some (i, _) => i | None => Eid sid 0 0 end) in *.
    assert (O : match kget bytesord (be 8 sid) (eitems "SYSTEM" e) with Some (y :: v) => do z <- decode_system7 (y :: v); Some (fst z) | _ => Some (Eid sid 0 0) end = Some i).
    { unfold i. destruct (kget zord sid s) as [[j u]|].
      - destruct G as (b & -> & G). pose proof (system_dec7 _ _ G) as D. destruct b as [|y b].
        + destruct G as (a & b & X & Ga & Gb). cbn [fst snd] in *. apply eid_form_enc, eid_enc in Ga as [_ ->]. symmetry in X. apply app_eq_nil in X as [X _].
          pose proof (eid_be_length j) as Y. now rewrite X in Y.
        + rewrite D. reflexivity.
      - now rewrite G. }
    rewrite O. cbn [obind]. destruct (eid_ltb i (e7_id x)).
    - assert (A : encode_system7 (e7_id x, e7_ts x) = Some (eid_be (e7_id x) ++ ts_be (e7_ts x))).
      { apply system_enc7. eexists _, _. split; [reflexivity|]. cbn [fst snd]. rewrite eid_form_enc, ts_form_enc. unfold encode_timestamp. rewrite eid_enc, ts_enc. auto. }
      rewrite A. cbn [obind]. eexists. split; [reflexivity|]. split; [right; eauto|]. apply system_enc7 in A. constructor; try other; [now apply none_put|].
      apply table_put; auto using emb_uint.
    - exists e. auto.
  Qed.

  (** ** Events *)

  Definition fits6 (x : event6) : Prop := payload_wf F (e6_payload x) /\ u64 (e6_server x) /\ u64 (e6_instance x) /\ ts_fits (e6_ts x).
  Lemma id_fits6 : forall sid x, u64 sid -> fits6 x -> eid_fits (e7_id (event_6_7 sid x)).
  Proof. intros sid x Hs (_ & H1 & H2 & _). cbn [e7_id event_6_7 id_6_7]. unfold eid_fits, id_6_7. cbn [eid_server eid_session eid_instance]. destruct (0 <? e6_server x); auto. Qed.

  Definition cur_fits (cur : option event7) : Prop := match cur with Some x => eid_fits (e7_id x) /\ ts_fits (e7_ts x) | None => True end.
  Lemma keep_fits : forall sid cur x, u64 sid -> fits6 x -> cur_fits cur -> cur_fits (keep_greater cur (event_6_7 sid x)).
  Proof.
    intros sid cur x Hs Hx Hc. assert (A : cur_fits (Some (event_6_7 sid x))) by (split; [now apply id_fits6|apply Hx]).
    unfold keep_greater. destruct cur as [c|]; auto. destruct (eid_ltb _ _); auto.
  Qed.
  Lemma put_greatest_file : forall sid cur e s ref l t, half e s ref l t -> u64 sid -> cur_fits cur ->
      exists e', put_greatest sid cur e = Some e' /\ (e' = e \/ exists k v, e' = eput "SYSTEM" k v e) /\ half e' (note_greatest s sid cur) ref l t.
  Proof.
    intros sid [x|] e s ref l t H Hs Hc; cbn [put_greatest note_greatest].
    - destruct Hc as [H1 H2]. now apply put_system_file.
    - exists e. auto.
  Qed.

  Lemma half_latest : forall e s ref l t n x, half e s ref l t -> u64 n ->
      half (eput "LATEST_TYPE" (be 8 n) (encode_json C (jtype (e7_type x))) (eput "LATEST_DATA" (be 8 n) (encode_event7 C x) e)) s ref (kput zord n x l) (kput zord n (e7_type x) t).
  Proof.
    intros e s ref l t n x [N S R L T] Hn. assert (K : uint 8 n (be 8 n)) by (apply uint_be; split; [exact Hn|auto]).
    constructor; try (do 2 (eapply table_other; [discriminate|]); assumption).
    - now do 2 (apply none_put; [discriminate|]).
    - eapply table_other; [discriminate|]. apply table_put; auto using emb_uint. reflexivity.
    - apply table_put; auto using emb_uint; [other|reflexivity].
  Qed.
  Lemma unopened_put : forall n k v e, ~ In n ["ORDERED_DATA"; "ORDERED_PARTITION"; "ORDERED_COUNT"] -> unopened e -> unopened (eput n k v e).
  Proof. intros n k v e H (H1 & H2 & H3). cbn [In] in H. unfold unopened. rewrite !none_put; auto; intros <-; apply H; auto. Qed.

  Lemma latest_phase : forall sid l r, u64 sid -> Forall2 (fun x b => event6_form C x (snd b)) l r -> (forall x, In x l -> fits6 x) ->
    forall cur next e s ref lat typ, half e s ref lat typ -> unopened e -> cur_fits cur -> 0 <= next -> next + Z.of_nat (List.length l) <= 2 ^ 64 ->
    exists e', let '(cur', next', lat', typ', ref') := fold_left (latest_turn sid) l (cur, next, lat, typ, ref) in
      loop (raw_latest_turn C sid) r (cur, next, e) = Some (cur', next', e') /\ half e' s ref' lat' typ' /\ unopened e' /\ cur_fits cur'.
  Proof.
    intros sid l r Hs H. induction H as [|x [bk bv] l r Hx H IH]; intros W cur next e s ref lat typ Hh Hu Hc H0 Hn; cbn [fold_left loop].
    - exists e. auto.
    - cbn [List.length snd] in *. assert (Wx : fits6 x) by (apply W; cbn; auto).
      unfold raw_latest_turn at 1. cbn [snd]. rewrite (event6_dec C F HC _ _ Hx) by apply Wx. cbn [obind]. cbv zeta.
      assert (U : u64 next) by (unfold u64; lia). assert (K : encode_uint next = Some (be 8 next)) by (apply pack_ok; exact U). rewrite K. cbn [obind].
      pose proof (half_latest _ _ _ _ _ next (event_6_7 sid x) Hh U) as Hh'.
      destruct (put_ref_file (e7_id (event_6_7 sid x)) (LatestRef next) _ _ _ _ _ Hh') as (k & v & -> & Hh2); [now apply id_fits6|exact U|]. cbn [obind].
      unfold latest_turn at 2. cbv zeta. cbn [loop].
      apply IH; auto; try lia.
      + intros y Hy. apply W. cbn. auto.
      + repeat (apply unopened_put; [cbn; intuition discriminate|]). exact Hu.
      + now apply keep_fits.
  Qed.

  Lemma half_other : forall n k v e s ref l t, ~ In n ["SYSTEM_SETTINGS"; "SYSTEM"; "REF"; "LATEST_DATA"; "LATEST_TYPE"] -> half e s ref l t -> half (eput n k v e) s ref l t.
  Proof.
    intros n k v e s ref l t Hn [N S R L T]. cbn [In] in Hn. constructor; try (eapply table_other; [|eassumption]; intros <-; apply Hn; auto 6).
    apply none_put; auto.
  Qed.
  Lemma ordered_other : forall n k v e d p q, ~ In n ["ORDERED_DATA"; "ORDERED_PARTITION"; "ORDERED_COUNT"] -> ordered e d p q -> ordered (eput n k v e) d p q.
  Proof. intros n k v e d p q Hn [D P Q]. cbn [In] in Hn. constructor; (eapply table_other; [|eassumption]; intros <-; apply Hn; auto 6). Qed.

  Lemma ordered_phase : forall sid l r, u64 sid -> rep key6_form (event6_form C) l r -> (forall x, In x (vals l) -> fits6 x) ->
    forall cur e s ref lat typ d p q, half e s ref lat typ -> ordered e d p q -> cur_fits cur ->
    exists e', let '(cur', d', ref') := fold_left (ordered_turn sid) l (cur, d, ref) in
      loop (raw_ordered_turn C sid) r (cur, e) = Some (cur', e') /\ half e' s ref' lat typ /\ ordered e' d' p q /\ cur_fits cur'.
  Proof.
    intros sid l r Hs H. induction H as [|[[[pt t] n] x] [bk bv] l r [Hk Hx] H IH]; intros W cur e s ref lat typ d p q Hh Ho Hc; cbn [fold_left loop].
    - exists e. auto.
    - cbn [snd fst vals map] in *. assert (Wx : fits6 x) by (apply W; cbn; auto). assert (Wi := id_fits6 sid x Hs Wx).
      unfold raw_ordered_turn at 1. cbn [fst snd]. rewrite (key6_dec _ _ Hk). cbn [obind]. rewrite (event6_dec C F HC _ _ Hx) by apply Wx. cbn [obind]. cbv zeta.
      set (y := event_6_7 sid x) in *. set (key := (pt, t, e7_id y)) in *.
      assert (Kf : key_fits key).
      { destruct Hk as (a & b & c & _ & Ha & Hb & _). apply uint_be in Ha as [Ha _]. apply ts_form_enc, ts_enc in Hb as [Hb _]. exact (conj Ha (conj Hb Wi)). }
      assert (K : encode_ts_key key = Some (key_be key)) by (apply key_enc; auto). rewrite K. cbn [obind].
      assert (K7 := proj2 (key7_form_enc _ _) K).
      destruct (put_ref_file (e7_id y) (TimeseriesRef key) (eput "ORDERED_DATA" (key_be key) (encode_event7 C y) e) s ref lat typ) as (k & v & -> & Hh2);
        [apply half_other; [cbn; intuition discriminate|exact Hh]|exact Wi|exact Kf|]. cbn [obind].
      unfold ordered_turn at 2. cbv zeta. fold y. fold key.
      apply IH; auto.
      + intros z Hz. apply W. cbn. auto.
      + apply ordered_other; [cbn; intuition discriminate|]. destruct Ho as [D P Q]. constructor; try other. apply table_put; auto using emb_key. reflexivity.
      + now apply keep_fits.
  Qed.

  Lemma part_phase : forall l r, rep (uint 8) (part_form C F) l r -> forall e s ref lat typ d p q, half e s ref lat typ -> ordered e d p q ->
    exists e', loop (raw_part_turn C) r e = Some e' /\ half e' s ref lat typ /\ ordered e' d (kputs zord l p) q.
  Proof.
    intros l r H. induction H as [|[k x] [bk bv] l r [Hk Hv] H IH]; intros e s ref lat typ d p q Hh Ho; cbn [loop kputs fold_left fst snd] in *.
    - exists e. auto.
    - unfold raw_part_turn at 1. cbn [fst snd]. rewrite (uint_dec6 _ _ Hk). cbn [obind]. pose proof Hv as (obj & Hj & Hw & _). rewrite (json_dec C F HC _ _ Hj Hw). cbn [obind].
      rewrite (uint_enc _ _ Hk). cbn [obind]. apply IH.
      + apply half_other; [cbn; intuition discriminate|exact Hh].
      + destruct Ho as [D P Q]. constructor; try other. apply table_put; auto using emb_uint. unfold encode_json. now rewrite <- Hj.
  Qed.
  Lemma count_phase : forall l r, rep (uint 8) (count6_form C) l r -> (forall p n, In (p, n) l -> u64 n) -> forall e s ref lat typ d p q, half e s ref lat typ -> ordered e d p q ->
    exists e', loop (raw_count_turn C) r e = Some e' /\ half e' s ref lat typ /\ ordered e' d p (kputs zord l q).
  Proof.
    intros l r H. induction H as [|[k x] [bk bv] l r [Hk Hv] H IH]; intros W e s ref lat typ d p q Hh Ho; cbn [loop kputs fold_left fst snd] in *.
    - exists e. auto.
    - unfold raw_count_turn at 1. cbn [fst snd]. rewrite (uint_dec6 _ _ Hk). cbn [obind]. rewrite (json_dec C F HC _ _ Hv) by constructor. cbn [obind of_jint].
      rewrite (uint_enc _ _ Hk). cbn [obind]. assert (U : u64 x) by (apply (W k); cbn; auto). assert (K : encode_uint x = Some (be 8 x)) by (apply pack_ok; exact U).
      rewrite K. cbn [obind]. apply IH.
      + intros p0 n0 Hn. apply (W p0). cbn. auto.
      + apply half_other; [cbn; intuition discriminate|exact Hh].
      + destruct Ho as [D P Q]. constructor; try other. apply table_put; auto using emb_uint. apply uint_be. split; [exact U|reflexivity].
  Qed.

  (** ** The whole conversion *)

  Lemma start7 : half (eopen "LATEST_TYPE" (eopen "LATEST_DATA" (eopen "REF" (eopen "SYSTEM" [])))) [] [] [] [] /\
    unopened (eopen "LATEST_TYPE" (eopen "LATEST_DATA" (eopen "REF" (eopen "SYSTEM" [])))).
  Proof.
    split; [|repeat split]. constructor; [reflexivity|..]; (exists []; split; [vm_compute; reflexivity|constructor]).
  Qed.
  Lemma half_open : forall n e s ref l t, n <> "SYSTEM_SETTINGS" -> half e s ref l t -> half (eopen n e) s ref l t.
  Proof. intros n e s ref l t Hn [N S R L T]. constructor; auto using table_open, none_open. Qed.

  Lemma raw_6_7_file : forall e d d7, file6 C F e d -> wf6 F d -> convert_6_7 d = Some d7 -> exists e', raw_6_7 C e = Some e' /\ file7 C F e' d7 /\ wf7 F d7.
  Proof.
    intros e d d7 Hf W Hc. destruct Hf as [_ _ (r & R & Rn & Rv) (rl & L & Hl) D P Q]. destruct W as (W & Wn & Wl).
    unfold convert_6_7 in Hc. destruct (d6_server d) as [stored|] eqn:ES; [|discriminate]. cbv zeta in Hc. set (sid := if stored <? 1 then 1 else stored) in *.
    destruct (proj1 (Rv stored) eq_refl) as (bs & Rin & Ru).
    assert (Us : u64 sid). { apply uint_be in Ru as [Ru _]. unfold sid. change (0 <= stored < 2 ^ 64) in Ru. unfold u64. destruct (stored <? 1) eqn:X; [lia|]. exact Ru. }
    unfold raw_6_7. unfold eget, eitems at 1. rewrite R. unfold kget. cbn [oeqb bytesord].
    rewrite (In_dget bytes_eqb_spec (text "server_id") bs r Rn Rin). cbn [obind]. rewrite (uint_dec6 _ _ Ru). cbn [obind]. cbv zeta. fold sid.
    destruct start7 as [H0 U0].
    assert (Wlat : forall x, In x (d6_latest d) -> fits6 x) by (intros x Hx; apply W; left; exact Hx).
    assert (Wdat : forall x, In x (vals (d6_data d)) -> fits6 x) by (intros x Hx; apply W; right; exact Hx).
    destruct (latest_phase sid _ _ Us Hl Wlat None 1 _ _ _ _ _ H0 U0 I) as [e1 H1]; [lia|unfold u64 in Wl; lia|].
    destruct (fold_left (latest_turn sid) (d6_latest d) (None, 1, [], [], [])) as [[[[cur1 n1] lat1] typ1] ref1] eqn:E1.
    destruct H1 as (H1 & Hh1 & Hu1 & Hc1). unfold eitems at 1. rewrite L, H1. cbn [obind].
    destruct (put_greatest_file sid cur1 _ _ _ _ _ Hh1 Us Hc1) as (e2 & E2 & X2 & Hh2). rewrite E2. cbn [obind].
    assert (U2 : unopened e2). { destruct X2 as [->|(k & v & ->)]; auto. apply unopened_put; auto. cbn. intuition discriminate. }
    set (e3 := eopen "ORDERED_COUNT" (eopen "ORDERED_PARTITION" (eopen "ORDERED_DATA" e2))).
    assert (Hh3 : half e3 (note_greatest [] sid cur1) ref1 lat1 typ1) by (repeat (apply half_open; [discriminate|]); auto).
    assert (O3 : ordered e3 [] [] []).
    { destruct U2 as (A & B & G). constructor; unfold e3.
      - do 2 apply table_open. now apply table_new.
      - apply table_open, table_new. apply none_open; [discriminate|auto].
      - apply table_new. do 2 (apply none_open; [discriminate|]). auto. }
    apply table_rep in D as [_ D]. apply table_rep in P as [_ P]. apply table_rep in Q as [_ Q].
    destruct (ordered_phase sid _ _ Us D Wdat None _ _ _ _ _ _ _ _ Hh3 O3 I) as [e4 H4].
    destruct (fold_left (ordered_turn sid) (d6_data d) (None, [], ref1)) as [[cur4 d4] ref4] eqn:E4. injection Hc as <-.
    destruct H4 as (H4 & Hh4 & Ho4 & Hc4). rewrite H4. cbn [obind].
    destruct (put_greatest_file sid cur4 _ _ _ _ _ Hh4 Us Hc4) as (e5 & E5 & X5 & Hh5). rewrite E5. cbn [obind].
    assert (O5 : ordered e5 d4 [] []). { destruct X5 as [->|(k & v & ->)]; auto. apply ordered_other; auto. cbn. intuition discriminate. }
    destruct (part_phase _ _ P _ _ _ _ _ _ _ _ Hh5 O5) as (e6 & E6 & Hh6 & O6). rewrite E6. cbn [obind].
    destruct (count_phase _ _ Q Wn _ _ _ _ _ _ _ _ Hh6 O6) as (e7 & E7 & Hh7 & O7). rewrite E7. exists e7. split; auto. split.
    - destruct Hh7 as [A1 A2 A3 A4 A5]. destruct O7 as [B1 B2 B3]. constructor; cbn [d7_system d7_ref d7_latest d7_types d7_data d7_parts d7_counts]; auto.
      destruct A3 as (x & Y1 & Y2). exists x. split; auto. clear - Y2. induction Y2 as [|a b l l' [Z1 [Z2 _]] Z IH]; constructor; auto.
    - (* payloads *)
      unfold wf7. cbn [d7_latest d7_data]. intros x [Hx|Hx].
      + assert (G : forall l cur n lat typ ref, (forall y, In y l -> fits6 y) -> (forall y, In y (vals lat) -> payload_wf F (e7_payload y)) ->
                 let '(_, _, lat', _, _) := fold_left (latest_turn sid) l (cur, n, lat, typ, ref) in forall y, In y (vals lat') -> payload_wf F (e7_payload y)).
        { clear. induction l as [|y l IH]; intros cur n lat typ ref Hl H; cbn [fold_left]; auto. unfold latest_turn at 2. cbv zeta. apply IH; [intros z Hz; apply Hl; cbn; auto|].
          intros z Hz. unfold vals in Hz. apply in_map_iff in Hz as ([k z'] & <- & Hz). apply In_kput in Hz as [[= -> ->]|Hz].
          - cbn. apply Hl. cbn. auto.
          - apply H. apply in_map_iff. eexists; split; [|exact Hz]. reflexivity. }
        specialize (G (d6_latest d) None 1 [] [] [] Wlat (fun y Hy => match Hy with end)). rewrite E1 in G. auto.
      + assert (G : forall l cur dat ref, (forall y, In y (vals l) -> fits6 y) -> (forall y, In y (vals dat) -> payload_wf F (e7_payload y)) ->
                 let '(_, dat', _) := fold_left (ordered_turn sid) l (cur, dat, ref) in forall y, In y (vals dat') -> payload_wf F (e7_payload y)).
        { clear. induction l as [|[[[p t] n] y] l IH]; intros cur dat ref Hl H; cbn [fold_left]; auto. unfold ordered_turn at 2. cbv zeta. apply IH; [intros z Hz; apply Hl; cbn; auto|].
          intros z Hz. unfold vals in Hz. apply in_map_iff in Hz as ([k z'] & <- & Hz). apply In_kput in Hz as [[= -> ->]|Hz].
          - cbn. apply Hl. cbn. auto.
          - apply H. apply in_map_iff. eexists; split; [|exact Hz]. reflexivity. }
        specialize (G (d6_data d) None [] ref1 Wdat (fun y Hy => match Hy with end)). rewrite E4 in G. auto.
  Qed.
End Old.
