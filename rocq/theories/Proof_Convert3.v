From Coq Require Import String Bool ZArith Lia List.
From Verif Require Import Base Kv Model_Types Model_Codec Keys Model_Lmdb Spec_Order Proof_Order Spec_LmdbContent Spec_Copy
  Proof_Lmdb10 Model_Convert Spec_Convert Proof_Convert Proof_Convert2.
Import ListNotations.
Open Scope list_scope.
Open Scope Z_scope.

Lemma NoDup_map_by : forall A B C (f : A -> B) (g : A -> C) l,
  (forall x y, In x l -> In y l -> g x = g y -> f x = f y) -> NoDup (map f l) -> NoDup (map g l).
Proof.
  intros A B C f g. induction l as [|x l IH]; cbn [map]; intros H N; [constructor|].
  inversion N as [|? ? N1 N2]; subst. constructor.
  - intros I. apply in_map_iff in I. destruct I as (y & E & I). apply N1. apply in_map_iff.
    exists y. split; auto. apply H; cbn; auto.
  - apply IH; auto. intros a b Ia Ib. apply H; now right.
Qed.

(** ** Version 0.7 of a database of version 0.6 *)

Record content67 (d : db6) (s : Z) (c : db7) : Prop := {
  c67_valid : valid7 c;
  c67_refs : forall i r, listed7 c i r <-> at_ref7 c r i;
  c67_full : forall i rs, In (i, rs) (d7_ref c) -> rs <> [];
  c67_latest : map snd (d7_latest c) = map (event_6_7 s) (d6_latest d);
  c67_types : forall r t, In (r, t) (d7_types c) <-> exists e, In (r, e) (d7_latest c) /\ e7_type e = t;
  c67_data : forall x, In x (d7_data c) <-> In x (map (entry_6_7 s) (d6_data d));
  c67_parts : forall x, In x (d7_parts c) <-> In x (d6_parts d);
  c67_counts : forall x, In x (d7_counts c) <-> In x (d6_counts d);
  c67_keys : NoDup (map (fun kv => fst (entry_6_7 s kv)) (d6_data d));
  c67_system :
    let all := map (event_6_7 s) (d6_latest d) ++ map (fun kv => event_6_7 s (snd kv)) (d6_data d) in
    (exists e, In e all /\ (forall x, In x all -> eid_le (e7_id x) (e7_id e)) /\
       eid_lt (Eid s 0 0) (e7_id e) /\ d7_system c = [(s, (e7_id e, e7_ts e))]) \/
    ((forall x, In x all -> ~ eid_lt (Eid s 0 0) (e7_id x)) /\ d7_system c = []) }.

Lemma own_unique : forall d s s', own d s -> own d s' -> s = s'.
Proof. intros d s s' [[A ->]|[A B]] [[C ->]|[C D]]; rewrite A in C; inversion C; subst; lia. Qed.

Lemma convert_6_7_content : forall d s, valid6 d -> own d s -> exists c, convert_6_7 d = Some c /\ content67 d s c.
Proof.
  intros d s V O.
  assert (Es : exists stored, d6_server d = Some stored /\ (if stored <? 1 then 1 else stored) = s).
  { destruct O as [[A ->]|[A B]]; eexists; (split; [exact A|]); [reflexivity|].
    destruct (s <? 1) eqn:E; auto. lia. }
  destruct Es as (stored & Es & Ev).
  assert (N : NoDup (map (fun kv => fst (entry_6_7 s kv)) (d6_data d))).
  { apply (NoDup_map_by _ _ _ fst); [|apply V]. intros [[[p t] n] e] [[[p' t'] n'] e'] I I' H.
    apply (v6_number _ V) in I, I'. unfold entry_6_7, event_6_7, id_6_7 in H. cbn in H. cbn. congruence. }
  unfold convert_6_7. rewrite Es, Ev.
  pose proof (latest_loop s (d6_latest d)) as L.
  destruct (fold_left (latest_turn s) (d6_latest d) (None, 1, [], [], [])) as [[[[cur next] latest] types] ref].
  destruct L as (G1 & _ & (Nd & Ke) & Ml & Mt & _ & R & T & L).
  pose proof (ordered_loop s ref (d6_data d) R N) as Q.
  destruct (fold_left (ordered_turn s) (d6_data d) (None, [], ref)) as [[cur2 data] ref2].
  destruct Q as (G2 & Sd & D & [R2 R3] & L2).
  eexists. split; [reflexivity|].
  pose proof (note_both s _ _ _ _ G1 G2) as SYS. cbn zeta in SYS.
  split; cbn [d7_system d7_ref d7_latest d7_types d7_data d7_parts d7_counts]; auto.
  - split; cbn [d7_system d7_ref d7_latest d7_types d7_data d7_parts d7_counts].
    + destruct SYS as [(e & _ & _ & _ & ->)|[_ ->]]; cbn; repeat constructor; auto.
    + now apply (ksorted_NoDup eidord).
    + exact Nd.
    + now rewrite <- Ke.
    + now apply (ksorted_NoDup keyord).
    + apply (ksorted_NoDup zord). apply (ksorted_kputs zord). constructor.
    + apply (ksorted_NoDup zord). apply (ksorted_kputs zord). constructor.
    + intros p x I. apply (proj1 (In_kputs _ _ zord (d6_parts d) (p, x) (v6_parts _ V))) in I. now apply (v6_orders _ V) in I.
  - intros i r. unfold listed7. cbn [d7_ref]. change (exists rs, In (i, rs) ref2 /\ In r rs) with (rlisted ref2 i r).
    rewrite L2, L. destruct r as [k|k]; cbn [at_ref7 d7_latest d7_data]; split.
    + intros [(r & e & I & [= ->] & E)|(k' & e & _ & [=] & _)]. eauto.
    + intros (e & I & E). left. exists k, e. auto.
    + intros [(r & e & _ & [=] & _)|(k' & e & I & [= ->] & E)]. eauto.
    + intros (e & I & E). right. exists k, e. auto.
  - intros x. apply (In_kputs _ _ zord). apply V.
  - intros x. apply (In_kputs _ _ zord). apply V.
Qed.

(** ** Both steps *)

Lemma moved_spec : forall s a b, 0 <= e6_server a -> (same_event (event_6_7 s a) b <-> moved s a b).
Proof.
  intros s a b H. unfold same_event, moved, event_6_7, id_6_7, new_server. cbn.
  destruct (Z.eqb_spec (e6_server a) 0) as [->|E]; [reflexivity|].
  assert (0 <? e6_server a = true) as -> by lia. reflexivity.
Qed.

Lemma convert_7 : forall d, valid7 d -> exists c, convert (V07 d) = Some c /\ content79 d c.
Proof.
  intros d V. destruct (convert_7_9_content d V) as (c & E & C). exists c. split; auto.
  unfold convert. cbn [convert_loop conversion]. now rewrite E.
Qed.

Lemma convert_6 : forall d s, valid6 d -> own d s ->
  exists m c, convert (V06 d) = Some c /\ content67 d s m /\ content79 m c.
Proof.
  intros d s V O. destruct (convert_6_7_content d s V O) as (m & E & C).
  destruct (convert_7_9_content m (c67_valid _ _ _ C)) as (c & E' & C'). exists m, c. split; auto.
  unfold convert. cbn [convert_loop conversion]. rewrite E. cbn [option_map convert_loop conversion]. now rewrite E'.
Qed.

(** For a given result. *)
Ltac conv d s V O H := let m := fresh "m" in let c' := fresh "c'" in let E := fresh "E" in
  destruct (convert_6 d s V O) as (m & c' & E & C6 & C9);
  rewrite E in H; injection H as H; subst c'; clear E.

Lemma final_C46_total7 : forall d, valid7 d -> exists c, convert (V07 d) = Some c /\ kept_sorted c.
Proof. intros d V. destruct (convert_7 d V) as (c & E & C). exists c. split; auto. apply C. Qed.

Lemma final_C46_same7 : forall d c, valid7 d -> convert (V07 d) = Some c ->
  (forall r e, In (r, e) (db_latest c) <-> exists x, In (r, x) (d7_latest d) /\ same_event x e) /\
  (forall r t, In (r, t) (db_types c) <-> In (r, t) (d7_types d)) /\
  (forall k e, In (k, e) (db_ts c) <-> exists x, In (k, x) (d7_data d) /\ same_event x e) /\
  (forall p y, In (p, y) (db_parts c) <-> exists x, In (p, x) (d7_parts d) /\ same_part x y) /\
  (forall s i, In (s, i) (db_ids c) <-> exists t, In (s, (i, t)) (d7_system d)) /\
  (forall s t, In (s, t) (db_tss c) <-> exists i, In (s, (i, t)) (d7_system d)) /\
  (forall i r, listed c i r <-> listed7 d i r).
Proof.
  intros d c V H. destruct (convert_7 d V) as (c' & E & C). rewrite E in H. injection H as ->.
  pose proof (c79_listed _ _ C). destruct C. auto 10.
Qed.

Lemma final_C46_inv7 : forall d c, valid7 d -> convert (V07 d) = Some c ->
  ((forall i r, listed7 d i r <-> at_ref7 d r i) -> forall i r, listed c i r <-> at_ref c r i) /\
  ((forall p n, counter7 d p n <-> n = entries_in7 d p) -> forall p n, counter c p n <-> n = entries_in c p).
Proof.
  intros d c V H. destruct (convert_7 d V) as (c' & E & C). rewrite E in H. injection H as ->. split.
  - intros X i r. rewrite (c79_listed _ _ C), (c79_at_ref _ _ C). apply X.
  - intros X p n. rewrite (c79_counter _ _ C), (c79_entries _ _ V C). apply X.
Qed.

Lemma open_converted : forall d c cf, content79 d c -> cf_version cf = "0.9"%string -> open_db cf c <> None.
Proof.
  intros d c cf C E H. pose proof (final_C30 cf c) as F. rewrite (c79_settings _ _ C) in F. cbn in F.
  assert (N : NoDup [0]) by (repeat constructor; auto). specialize (F N). rewrite H in F. unfold setting in F.
  rewrite (c79_settings _ _ C) in F. cbn in F. destruct F as [(v & A & B)|(i & j & A & _)]; congruence.
Qed.

Lemma final_C46_open7 : forall d c cf, valid7 d -> convert (V07 d) = Some c -> cf_version cf = "0.9"%string -> open_db cf c <> None.
Proof.
  intros d c cf V H. destruct (convert_7 d V) as (c' & E & C). rewrite E in H. injection H as ->.
  now apply (open_converted d).
Qed.

Lemma final_C46_total : forall d, valid6 d -> exists c, convert (V06 d) = Some c /\ kept_sorted c /\ lists_ok c.
Proof.
  intros d V. destruct (v6_own _ V) as [s O]. destruct (convert_6 d s V O) as (m & c & E & C6 & C9).
  exists c. split; auto. split; [apply C9|]. intros i l H. apply (c79_refs _ _ C9) in H. destruct H as (rs & I & ->).
  split; [|apply (ssorted_NoDup reford), ssorted_sof].
  intros X. apply (c67_full _ _ _ C6) in I. destruct rs as [|r rs]; [congruence|].
  assert (Y : In r (sof reford (r :: rs))) by (apply In_sof; now left). rewrite X in Y. destruct Y.
Qed.

Lemma final_C46_latest : forall d s c, valid6 d -> own d s -> convert (V06 d) = Some c ->
  (forall e, In e (vals (db_latest c)) <-> exists a, In a (d6_latest d) /\ moved s a e) /\
  (forall r t, In (r, t) (db_types c) <-> exists e, In (r, e) (db_latest c) /\ ev_type e = t) /\
  NoDup (map ev_type (vals (db_latest c))) /\
  List.length (db_latest c) = List.length (d6_latest d).
Proof.
  intros d s c V O H. conv d s V O H.
  assert (A : forall e, In e (vals (db_latest c)) <-> exists a, In a (d6_latest d) /\ moved s a e).
  { intros e. unfold vals. rewrite in_map_iff. split.
    - intros ([r x] & <- & I). apply (c79_latest _ _ C9) in I. destruct I as (y & I & S).
      apply (in_map snd) in I. rewrite (c67_latest _ _ _ C6) in I. cbn [snd] in I. apply in_map_iff in I.
      destruct I as (a & <- & I). exists a. split; auto. apply moved_spec; auto. apply V. now left.
    - intros (a & I & M). apply moved_spec in M; [|apply V; now left].
      assert (J : In (event_6_7 s a) (map snd (d7_latest m))).
      { rewrite (c67_latest _ _ _ C6). now apply in_map. }
      apply in_map_iff in J. destruct J as ([r y] & Ey & J). cbn [snd] in Ey. subst y.
      exists (r, e). split; auto. apply (c79_latest _ _ C9). eauto. }
  split; [exact A|]. split; [|split].
  - intros r t. rewrite (c79_types _ _ C9), (c67_types _ _ _ C6). split.
    + intros (e & I & <-). exists (event_7_9 e). split; [|reflexivity]. apply (c79_latest _ _ C9). exists e. split; auto. now apply event_7_9_spec.
    + intros (e & I & <-). apply (c79_latest _ _ C9) in I. destruct I as (x & I & S). exists x. split; auto. symmetry. apply S.
  - (* types by place *)
    apply (NoDup_map_by _ _ _ (fun e => ev_type e)); auto. clear A.
    assert (K : NoDup (keys (db_latest c))) by (apply (ksorted_NoDup zord), C9).
    assert (U : forall r r' e e', In (r, e) (db_latest c) -> In (r', e') (db_latest c) -> ev_type e = ev_type e' -> r = r').
    { intros r r' e e' I I' T. apply (c79_latest _ _ C9) in I, I'. destruct I as (x & I & S), I' as (x' & I' & S').
      assert (T' : e7_type x = e7_type x').
      { destruct S as (_ & S & _), S' as (_ & S' & _). congruence. }
      pose proof (v6_types _ V) as N.
      assert (N' : NoDup (map e7_type (map snd (d7_latest m)))).
      { rewrite (c67_latest _ _ _ C6), map_map. exact N. }
      rewrite map_map in N'. clear -N' I I' T'. induction (d7_latest m) as [|[q y] l IH]; [destruct I|].
      cbn [map snd] in N'. inversion N' as [|? ? N1 N2]; subst. destruct I as [I|I], I' as [I'|I'].
      - congruence.
      - injection I as -> ->. exfalso. apply N1. rewrite T'. apply in_map_iff. exists (r', x'). auto.
      - injection I' as -> ->. exfalso. apply N1. rewrite <- T'. apply in_map_iff. exists (r, x). auto.
      - auto. }
    clear -K U. unfold vals. rewrite map_map. induction (db_latest c) as [|[r e] l IH]; cbn [map snd]; [constructor|].
    cbn [keys map fst] in K. inversion K as [|? ? K1 K2]; subst. constructor.
    + intros I. apply in_map_iff in I. destruct I as ([r' e'] & T & I). cbn [snd] in T.
      apply K1. rewrite (U r r' e e'); cbn; auto. apply in_map_iff. now exists (r', e').
    + apply IH; auto. intros a b x y Ia Ib. apply U; now right.
  - transitivity (List.length (d7_latest m)).
    + transitivity (List.length (keys (db_latest c))); [unfold keys; now rewrite map_length|].
      transitivity (List.length (keys (d7_latest m))); [|unfold keys; now rewrite map_length].
      apply Nat.le_antisymm; apply NoDup_incl_length.
      * apply (ksorted_NoDup zord), C9.
      * intros k K. apply in_map_iff in K. destruct K as ([r e] & <- & I). apply (c79_latest _ _ C9) in I.
        destruct I as (x & I & _). apply in_map_iff. now exists (r, x).
      * apply (c67_valid _ _ _ C6).
      * intros k K. apply in_map_iff in K. destruct K as ([r e] & <- & I). apply in_map_iff.
        exists (r, event_7_9 e). split; auto. apply (c79_latest _ _ C9). exists e. split; auto. now apply event_7_9_spec.
    + rewrite <- (map_length snd), (c67_latest _ _ _ C6). apply map_length.
Qed.

Lemma data_conv : forall d s m, valid6 d -> content67 d s m -> forall k e,
  In (k, e) (d7_data m) <-> exists n a, In ((fst (fst k), snd (fst k), n), a) (d6_data d) /\ e = event_6_7 s a /\ snd k = e7_id e.
Proof.
  intros d s m V C k e. rewrite (c67_data _ _ _ C), in_map_iff. split.
  - intros ([[[p t] n] a] & E & I). unfold entry_6_7 in E. cbn [fst snd] in E. injection E as <- <-. cbn [fst snd]. eauto 6.
  - intros (n & a & I & -> & E). exists ((fst (fst k), snd (fst k), n), a). split; auto. unfold entry_6_7. cbn [fst snd].
    rewrite <- E. now destruct k as [[? ?] ?].
Qed.

Lemma final_C46_data : forall d s c, valid6 d -> own d s -> convert (V06 d) = Some c ->
  (forall p t i e, In ((p, t, i), e) (db_ts c) <->
     exists n a, In ((p, t, n), a) (d6_data d) /\ moved s a e /\ i = ev_id e) /\
  List.length (db_ts c) = List.length (d6_data d).
Proof.
  intros d s c V O H. conv d s V O H. split.
  - intros p t i e. rewrite (c79_data _ _ C9). split.
    + intros (x & I & S). apply (data_conv _ _ _ V C6) in I. destruct I as (n & a & I & -> & E). cbn [fst snd] in *.
      exists n, a. split; auto. split.
      * apply moved_spec; auto. apply V. right. now apply (in_map snd) in I.
      * destruct S as (S & _). congruence.
    + intros (n & a & I & M & ->). apply moved_spec in M; [|apply V; right; now apply (in_map snd) in I].
      exists (event_6_7 s a). split; auto. apply (data_conv _ _ _ V C6). exists n, a. cbn [fst snd]. repeat split; auto.
      destruct M as (M & _). now rewrite M.
  - transitivity (List.length (keys (db_ts c))); [unfold keys; now rewrite map_length|].
    transitivity (List.length (map (fun kv => fst (entry_6_7 s kv)) (d6_data d))); [|apply map_length].
    apply Nat.le_antisymm; apply NoDup_incl_length.
    + apply (ksorted_NoDup keyord), C9.
    + intros k K. apply in_map_iff in K. destruct K as ([k' e] & <- & I). apply (c79_data _ _ C9) in I.
      destruct I as (x & I & _). apply (c67_data _ _ _ C6) in I. apply in_map_iff in I. destruct I as (y & E & I).
      apply in_map_iff. exists y. now rewrite E.
    + apply C6.
    + intros k K. apply in_map_iff in K. destruct K as (y & <- & I). apply in_map_iff.
      exists (fst (entry_6_7 s y), event_7_9 (snd (entry_6_7 s y))). split; auto. apply (c79_data _ _ C9).
      exists (snd (entry_6_7 s y)). split; [|now apply event_7_9_spec]. apply (c67_data _ _ _ C6).
      apply in_map_iff. exists y. split; [apply surjective_pairing|exact I].
Qed.

Lemma final_C46_refs : forall d s c, valid6 d -> own d s -> convert (V06 d) = Some c ->
  forall i r, listed c i r <-> at_ref c r i.
Proof.
  intros d s c V O H. conv d s V O H. intros i r.
  rewrite (c79_listed _ _ C9), (c79_at_ref _ _ C9). apply C6.
Qed.

Lemma entries_6 : forall d s c, valid6 d -> own d s -> convert (V06 d) = Some c -> forall p, entries_in c p = entries_in6 d p.
Proof.
  intros d s c V O H p. conv d s V O H. rewrite (c79_entries _ _ (c67_valid _ _ _ C6) C9).
  unfold entries_in7, entries_in6. f_equal. rewrite count_keys.
  transitivity (List.length (filter (fun k : ts_key => fst (fst k) =? p) (map (fun kv => fst (entry_6_7 s kv)) (d6_data d)))).
  - apply same_keys_length.
    + apply (c67_valid _ _ _ C6).
    + apply C6.
    + intros k. unfold keys. rewrite !in_map_iff. split.
      * intros ([k' e] & <- & I). apply (c67_data _ _ _ C6) in I. apply in_map_iff in I. destruct I as (y & E & I).
        exists y. now rewrite E.
      * intros (y & <- & I). exists (entry_6_7 s y). split; auto. apply (c67_data _ _ _ C6). now apply in_map.
  - clear. induction (d6_data d) as [|y l IH]; [reflexivity|]. cbn [map filter]. cbn [entry_6_7 fst snd].
    destruct y as [[[q t] n] a]. cbn [fst snd]. destruct (q =? p); [|exact IH]. cbn [List.length]. f_equal. exact IH.
Qed.

Lemma final_C46_counters : forall d s c, valid6 d -> own d s -> convert (V06 d) = Some c ->
  (forall p n, In (p, n) (db_counts c) <-> In (p, n) (d6_counts d)) /\
  (forall p, entries_in c p = entries_in6 d p) /\
  ((forall p n, counter6 d p n <-> n = entries_in6 d p) -> forall p n, counter c p n <-> n = entries_in c p).
Proof.
  intros d s c V O H. pose proof (entries_6 d s c V O H) as En.
  assert (Cn : forall x, In x (db_counts c) <-> In x (d6_counts d)).
  { conv d s V O H. intros x. rewrite (c79_counts _ _ C9). apply C6. }
  split; [intros; apply Cn|]. split; [exact En|]. intros X p n. rewrite En, <- X. unfold counter, counter6.
  assert (K : In p (keys (db_counts c)) <-> In p (keys (d6_counts d))).
  { unfold keys. rewrite !in_map_iff. split; intros (x & E & I); exists x; (split; [exact E|]); now apply Cn. }
  rewrite K, Cn. reflexivity.
Qed.

Lemma final_C46_parts : forall d s c, valid6 d -> own d s -> convert (V06 d) = Some c ->
  forall p y, In (p, y) (db_parts c) <-> exists x, In (p, x) (d6_parts d) /\ same_part x y.
Proof.
  intros d s c V O H. conv d s V O H. intros p y. rewrite (c79_parts _ _ C9).
  split; intros (x & I & S); exists x; (split; [|exact S]); now apply (c67_parts _ _ _ C6).
Qed.

Lemma final_C46_open : forall d s c cf, valid6 d -> own d s -> convert (V06 d) = Some c -> cf_version cf = "0.9"%string -> open_db cf c <> None.
Proof. intros d s c cf V O H. conv d s V O H. now apply (open_converted m). Qed.

Lemma stored_conv : forall d s c, valid6 d -> own d s -> convert (V06 d) = Some c ->
  forall e, stored_event c e <-> exists a, event_of6 d a /\ moved s a e.
Proof.
  intros d s c V O H e. destruct (final_C46_latest d s c V O H) as (L & _). destruct (final_C46_data d s c V O H) as (D & _).
  unfold stored_event, event_of6. rewrite L. split.
  - intros [(a & I & M)|I]; [eauto|]. apply in_map_iff in I. destruct I as ([[[p t] i] x] & <- & I).
    apply D in I. destruct I as (n & a & I & M & _). exists a. split; auto. right. now apply (in_map snd) in I.
  - intros (a & [I|I] & M); [left; eauto|]. right. apply in_map_iff in I. destruct I as ([[[p t] n] x] & <- & I).
    cbn [snd] in M. apply in_map_iff. exists ((p, t, ev_id e), e). split; auto. apply D. eauto 6.
Qed.

Lemma moved_ex : forall s a, exists b, moved s a b.
Proof.
  intros s a. exists (Ev (Eid (new_server s (e6_server a)) (e6_instance a) (e6_instance a)) (e6_type a) (e6_ts a) (e6_src a)
    (payload_7_9 (e6_payload a))). repeat split. now apply payload_7_9_spec.
Qed.

Lemma final_C46_order : forall d s c a b, valid6 d -> own d s -> convert (V06 d) = Some c ->
  event_of6 d a -> event_of6 d b -> e6_server a = e6_server b ->
  exists a' b', stored_event c a' /\ stored_event c b' /\ moved s a a' /\ moved s b b' /\
    server_of a' = server_of b' /\ (e6_instance a < e6_instance b <-> eid_lt (ev_id a') (ev_id b')).
Proof.
  intros d s c a b V O H Ia Ib E. destruct (moved_ex s a) as [a' Ma], (moved_ex s b) as [b' Mb].
  exists a', b'. pose proof (stored_conv d s c V O H) as S.
  split; [apply S; eauto|]. split; [apply S; eauto|]. split; auto. split; auto.
  destruct Ma as (Ma & _), Mb as (Mb & _). unfold server_of. rewrite Ma, Mb, E. cbn [eid_server]. split; auto.
  unfold eid_lt. cbn. lia.
Qed.

Lemma final_C46_ids : forall d s c, valid6 d -> own d s -> convert (V06 d) = Some c ->
  (forall e, event_of6 d e -> e6_server e <> 0) \/ (forall e, event_of6 d e -> e6_server e <> s) ->
  forall a b a' b', event_of6 d a -> event_of6 d b -> moved s a a' -> moved s b b' -> stored_event c a' -> stored_event c b' ->
    ev_id a' = ev_id b' -> e6_server a = e6_server b /\ e6_instance a = e6_instance b.
Proof.
  intros d s c V O H X a b a' b' Ia Ib (Ma & _) (Mb & _) _ _ E. rewrite Ma, Mb in E. injection E as E1 E2 _.
  split; auto. unfold new_server in E1.
  destruct (Z.eqb_spec (e6_server a) 0) as [A|A], (Z.eqb_spec (e6_server b) 0) as [B|B]; try congruence.
  - destruct X as [X|X]; [apply X in Ia; congruence|apply X in Ib; congruence].
  - destruct X as [X|X]; [apply X in Ib; congruence|apply X in Ia; congruence].
Qed.

(** ** Last ids *)

Lemma final_C46_last : forall d s c, valid6 d -> own d s -> convert (V06 d) = Some c ->
  (exists e, greatest c e /\ eid_lt (Eid s 0 0) (ev_id e) /\ db_ids c = [(s, ev_id e)] /\ db_tss c = [(s, ev_ts e)]) \/
  ((forall e, stored_event c e -> ~ eid_lt (Eid s 0 0) (ev_id e)) /\ db_ids c = [] /\ db_tss c = []).
Proof.
  intros d s c V O H. pose proof (stored_conv d s c V O H) as S. conv d s V O H.
  pose proof (c67_system _ _ _ C6) as Y. cbn zeta in Y.
  set (all := map (event_6_7 s) (d6_latest d) ++ map (fun kv => event_6_7 s (snd kv)) (d6_data d)) in *.
  assert (AL : forall x, In x all <-> exists a, event_of6 d a /\ x = event_6_7 s a).
  { intros x. unfold all, event_of6, vals. rewrite in_app_iff, !in_map_iff. split.
    - intros [(a & <- & I)|(kv & <- & I)]; [eauto|]. exists (snd kv). split; auto. right. now apply in_map.
    - intros (a & [I|I] & ->); [left; eauto|]. apply in_map_iff in I. destruct I as (kv & <- & I). right. eauto. }
  assert (ID : forall x e, (exists a, event_of6 d a /\ x = event_6_7 s a /\ moved s a e) -> e7_id x = ev_id e).
  { intros x e (a & I & -> & M). apply moved_spec in M; [|now apply V]. symmetry. apply M. }
  assert (L1 : forall A (l : list (Z * A)) x, (forall y, In y l <-> y = x) -> NoDup (keys l) -> l = [x]).
  { intros A l x Q N. destruct l as [|y l]; [exfalso; now apply (proj2 (Q x) eq_refl)|].
    assert (y = x) by (apply Q; now left). subst y. destruct l as [|z l]; auto.
    assert (z = x) by (apply Q; right; now left). subst z. inversion N as [|? ? N1 _]; subst. exfalso. apply N1. now left. }
  assert (L0 : forall A (l : list A), (forall y, In y l <-> False) -> l = []).
  { intros A [|y l] Q; auto. exfalso. apply (Q y). now left. }
  assert (N1 : NoDup (keys (db_ids c))) by (apply (ksorted_NoDup zord), C9).
  assert (N2 : NoDup (keys (db_tss c))) by (apply (ksorted_NoDup zord), C9).
  destruct Y as [(e & I & G & Z & E)|(G & E)].
  - left. apply AL in I. destruct I as (a & I & ->). exists (event_7_9 (event_6_7 s a)).
    assert (M : moved s a (event_7_9 (event_6_7 s a))) by (apply moved_spec; [now apply V|now apply event_7_9_spec]).
    split; [|split; [exact Z|split]].
    + split; [apply S; eauto|]. intros x X. apply S in X. destruct X as (b & Ib & Mb).
      pose proof (G (event_6_7 s b)) as Gb. rewrite (ID (event_6_7 s b) x) in Gb by eauto.
      apply Gb. apply AL. eauto.
    + apply L1; auto. intros [sv i]. rewrite (c79_ids _ _ C9), E. cbn [In]. split.
      * intros (t & [[= <- <- <-]|[]]). reflexivity.
      * intros [= -> ->]. eexists. left. reflexivity.
    + apply L1; auto. intros [sv t]. rewrite (c79_tss _ _ C9), E. cbn [In]. split.
      * intros (i & [[= <- <- <-]|[]]). reflexivity.
      * intros [= -> ->]. eexists. left. reflexivity.
  - right. split; [|split].
    + intros e X. apply S in X. destruct X as (b & Ib & Mb). rewrite <- (ID (event_6_7 s b) e) by eauto.
      apply G. apply AL. eauto.
    + apply L0. intros [sv i]. rewrite (c79_ids _ _ C9), E. cbn. split; [intros (t & [])|tauto].
    + apply L0. intros [sv t]. rewrite (c79_tss _ _ C9), E. cbn. split; [intros (i & [])|tauto].
Qed.
