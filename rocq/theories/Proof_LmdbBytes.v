(** Lemmas for C84: writing and reading of a server's file, on the level of bytes. *)
From Coq Require Import String Ascii Bool ZArith QArith Lia Permutation Sorted List.
From Verif Require Import Base Kv Model_Types Spec_Order Proof_Order Model_Time Model_Codec Spec_Codec Proof_Codec Keys Model_Sbs Model_Lmdb Model_Copy Spec_Copy Proof_Copy
  Model_Convert Spec_Convert Model_ConvertBytes Spec_ConvertBytes Proof_ConvertBytes Proof_ConvertBytes2 Proof_ConvertBytes4 Model_ConvertCut Spec_ConvertCut Proof_ConvertCut
  Proof_ConvertCut2 Model_CopyBytes Spec_CopyBytes Proof_CopyBytes Proof_CopyBytes2 Model_LmdbBytes Spec_LmdbBytes.
Import ListNotations.
Open Scope string_scope.
Open Scope list_scope.
Open Scope Z_scope.

(** ** Encodings *)

Lemma put_uint : forall v, u64 v -> exists b, encode_uint v = Some b /\ uint 8 v b.
Proof. intros v H. destruct (proj1 final_C12_uint v H) as (b & E & _). exists b. split; [exact E|now apply uint8]. Qed.
Lemma put_eid : forall i, eid_fits i -> exists b, encode_event_id i = Some b /\ eid_form i b.
Proof. intros i H. destruct (proj1 final_C12_event_id i H) as (b & E & _). exists b. split; [exact E|now apply eid_form_enc]. Qed.
Lemma put_key : forall k, key_fits k -> exists b, encode_ts_key k = Some b /\ key7_form k b.
Proof. intros k H. destruct (proj1 final_C12_ts_key k H) as (b & E & _). exists b. split; [exact E|now apply key7_form_enc]. Qed.
Lemma put_ts : forall t, ts_fits t -> exists b, encode_timestamp t = Some b /\ decode_timestamp b = Some t.
Proof. intros t H. exists (ts_be t). split; [now apply ts_enc|now apply ts_dec_enc]. Qed.

Lemma uint_bytes : forall n v b, uint n v b -> is_bytes b.
Proof. intros n v b H. apply H. Qed.
Lemma eid_bytes : forall i b, eid_form i b -> is_bytes b.
Proof. intros i b (x & y & z & -> & Hx & Hy & Hz). apply Forall_app. split; [apply Hx|]. apply Forall_app. split; [apply Hy|apply Hz]. Qed.
Lemma key_bytes : forall k b, key7_form k b -> is_bytes b.
Proof.
  intros [[p t] i] b (x & y & z & -> & Hx & (y1 & y2 & -> & Hy1 & Hy2) & Hz). apply Forall_app. split; [apply Hx|]. apply Forall_app.
  split; [apply Forall_app; split; [apply Hy1|apply Hy2]|now apply eid_bytes in Hz].
Qed.
Lemma uint_u64 : forall v b, uint 8 v b -> u64 v.
Proof. intros v b H. apply uint_be in H as [H _]. rewrite P8 in H. exact H. Qed.

(** ** Tables *)

Lemma kdel_rep : forall K V (o : ord K) (fk : K -> bytes -> Prop) (fv : V -> bytes -> Prop), emb o fk -> forall k bk l r, fk k bk -> rep fk fv l r ->
    rep fk fv (kdel o k l) (kdel bytesord bk r).
Proof.
  intros K V o fk fv E k bk l r Hk H. unfold kdel. induction H as [|[k' v'] [bk' bv'] l r [H1 H2] H IH]; cbn [ddel fst snd] in *; [constructor|].
  cbn [oeqb bytesord]. rewrite (emb_eqb _ _ E _ _ _ _ Hk H1). destruct (oeqb o k k'); [exact H|]. constructor; auto.
Qed.
Lemma takewhile_rep : forall A B (R : A -> B -> Prop) f g, (forall x y, R x y -> f x = g y) -> forall l r, Forall2 R l r -> Forall2 R (takewhile f l) (takewhile g r).
Proof. intros A B R f g E l r H. induction H as [|x y l r Hx H IH]; cbn [takewhile]; [constructor|]. rewrite (E _ _ Hx). destruct (g y); constructor; auto. Qed.
Lemma dropwhile_rep : forall A B (R : A -> B -> Prop) f g, (forall x y, R x y -> f x = g y) -> forall l r, Forall2 R l r -> Forall2 R (dropwhile f l) (dropwhile g r).
Proof. intros A B R f g E l r H. induction H as [|x y l r Hx H IH]; cbn [dropwhile]; [constructor|]. rewrite (E _ _ Hx). destruct (g y); [auto|constructor; auto]. Qed.
Lemma rev_rep : forall A B (R : A -> B -> Prop) l r, Forall2 R l r -> Forall2 R (rev l) (rev r).
Proof. intros A B R l r H. induction H as [|x y l r Hx H IH]; cbn [rev]; [constructor|]. apply Forall2_app; [exact IH|constructor; auto]. Qed.

(** ** Environments *)

Definition good (e : env) : Prop := env_ok e /\ openable e = true.

Lemma open_put : forall n k v e, openable e = true -> openable (eput n k v e) = true.
Proof.
  intros n k v e H. unfold openable in *. apply forallb_forall. intros m Hm. rewrite forallb_forall in H.
  destruct (string_dec m n) as [->|N]; [apply ehas_eput_same|rewrite ehas_eput_other; auto].
Qed.
Lemma good_put : forall e n k v, good e -> is_bytes k -> (n = "REF" -> is_bytes v) -> good (eput n k v e).
Proof. intros e n k v [H1 H2] Hk Hv. split; [now apply env_put|now apply open_put]. Qed.

Lemma eitems_edel_same : forall n k e, eitems n (edel n k e) = kdel bytesord k (eitems n e).
Proof. intros. unfold edel. unfold eitems at 1. now rewrite (dget_dset_same String.eqb_eq). Qed.
Lemma eitems_edel_other : forall n n' k e, n <> n' -> eitems n (edel n' k e) = eitems n e.
Proof. intros. unfold edel. unfold eitems at 1. rewrite (dget_dset_other String.eqb_eq) by auto. reflexivity. Qed.
Lemma good_del : forall e n k, good e -> good (edel n k e).
Proof.
  intros e n k [[H1 H2 H3] H4]. split.
  - split.
    + intros m. destruct (string_dec m n) as [->|N]; [rewrite eitems_edel_same; now apply ksorted_kdel|now rewrite eitems_edel_other].
    + intros m k' v' Hi. destruct (string_dec m n) as [->|N]; [|rewrite eitems_edel_other in Hi by auto; eauto].
      rewrite eitems_edel_same in Hi. apply In_ddel in Hi. eauto.
    + intros k' v' Hi. destruct (string_dec "REF" n) as [E|N]; [|rewrite eitems_edel_other in Hi by auto; eauto]. subst n.
      rewrite eitems_edel_same in Hi. apply In_ddel in Hi. eauto.
  - unfold openable in *. apply forallb_forall. intros m Hm. rewrite forallb_forall in H4. specialize (H4 m Hm). unfold ehas, dmem, edel in *.
    destruct (string_dec m n) as [->|N]; [now rewrite (dget_dset_same String.eqb_eq)|now rewrite (dget_dset_other String.eqb_eq)].
Qed.

(** [ext_write] *)
Lemma write_rep : forall K V (o : ord K) (fk : K -> bytes -> Prop) (fv : V -> bytes -> Prop) name ek ev, emb o fk -> (forall k b, fk k b -> is_bytes b) -> name <> "REF" ->
    forall items, (forall k v, In (k, v) items -> (exists b, ek k = Some b /\ fk k b) /\ (exists b, ev v = Some b /\ fv v b)) ->
    forall e l, good e -> rep fk fv l (eitems name e) ->
    exists e', raw_write name ek ev items e = Some e' /\ good e' /\ rep fk fv (kputs o items l) (eitems name e') /\
      forall n, n <> name -> eitems n e' = eitems n e.
Proof.
  intros K V o fk fv name ek ev E Hb N. unfold raw_write, kputs. induction items as [|[k v] items IH]; intros H e l G R; cbn [loop fold_left fst snd].
  - exists e. auto.
  - destruct (H k v (or_introl eq_refl)) as [(bk & Ek & Fk) (bv & Ev & Fv)]. rewrite Ek, Ev. cbn [obind].
    destruct (IH (fun k' v' Hi => H k' v' (or_intror Hi)) (eput name bk bv e) (kput o k v l)) as (e' & L & G' & R' & O).
    + apply good_put; [exact G|now apply (Hb k)|congruence].
    + rewrite eitems_eput_same. now apply kput_rep.
    + exists e'. split; [exact L|]. split; [exact G'|]. split; [exact R'|]. intros n Hn. rewrite O by exact Hn. now apply eitems_eput_other.
Qed.
