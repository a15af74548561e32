(** Lemmas for C80. *)
From Coq Require Import String Bool ZArith Lia List.
From Verif Require Import Base Kv Model_Types Model_Codec Model_Sbs Model_Lmdb Model_Convert Spec_Convert Model_ConvertBytes Spec_ConvertBytes Proof_ConvertBytes4
  Model_ConvertCut Spec_ConvertCut.
Import ListNotations.
Open Scope string_scope.
Open Scope list_scope.

Lemma fget_set_same : forall (fs : files) k e, dget String.eqb k (dset String.eqb k e fs) = Some e.
Proof. intros. apply (dget_dset_same String.eqb_eq). Qed.
Lemma fget_set_other : forall (fs : files) k k' e, k <> k' -> dget String.eqb k (dset String.eqb k' e fs) = dget String.eqb k fs.
Proof. intros. now apply (dget_dset_other String.eqb_eq). Qed.
Lemma fnodup_set : forall (fs : files) k e, NoDup (keys fs) -> NoDup (keys (dset String.eqb k e fs)).
Proof. intros. now apply (NoDup_dset String.eqb_eq). Qed.

Lemma opened_nothing : forall l e, no_data e -> no_data (fold_left (fun e n => eopen n e) l e).
Proof.
  induction l as [|n l IH]; intros e H; cbn [fold_left]; auto. apply IH. unfold eopen. destruct (ehas n e); auto.
  intros m r Hi. apply (In_dset String.eqb_eq) in Hi. destruct Hi as [[_ ->]|[_ Hi]]; [reflexivity|eauto].
Qed.

Lemma opened9_nothing : forall k, no_data (opened9 k).
Proof. intros k. apply opened_nothing. intros n r []. Qed.

Section Cut.
  Variable C : codecs.

  Lemma touch_there : forall p fs e, dget String.eqb p fs = Some e -> touch p fs = fs.
  Proof. intros p fs e H. unfold touch, dmem. now rewrite H. Qed.

  Lemma turning9 : forall src0 dst src fs fs', turning C src0 dst V9 src fs fs' -> fs' = fs.
  Proof. intros src0 dst src fs fs' H. inversion H; subst; auto; discriminate. Qed.

  (** The last conversion. *)
  Lemma turning7 : forall src0 dst src fs fs' e, turning C src0 dst V7 src fs fs' -> dget String.eqb src fs = Some e -> dget String.eqb dst fs = None ->
      fs' = fs \/ (exists k, fs' = dset String.eqb dst (opened9 k) fs) \/
      (exists l, raw_7_9 C e = Some l /\ (fs' = dset String.eqb dst l fs \/ (src <> src0 /\ fs' = ddel String.eqb src (dset String.eqb dst l fs)))).
  Proof.
    intros src0 dst src fs fs' e H Es Ed.
    assert (Ec : content_of src fs = e) by (unfold content_of; now rewrite Es).
    inversion H; subst; auto;
      match goal with Hn : next_version C V7 = Some _ |- _ => cbn [next_version] in Hn; injection Hn as <- <- end;
      unfold target in *; cbn [is_v9] in *.
    - left. now apply ddel_absent.
    - repeat match goal with x := ddel _ _ _ |- _ => subst x | x := dset _ _ _ _ |- _ => subst x end. rewrite (ddel_absent _ _ Ed) in *. rewrite (touch_there _ _ _ Es). cbn [written] in *. match goal with Hw : _ \/ _ |- _ => destruct Hw as [[k ->]|Hw] end; [right; left; eauto|].
      right. right. eauto.
    - repeat match goal with x := ddel _ _ _ |- _ => subst x | x := dset _ _ _ _ |- _ => subst x end. rewrite (ddel_absent _ _ Ed) in *. right. right. eauto.
    - repeat match goal with x := ddel _ _ _ |- _ => subst x | x := dset _ _ _ _ |- _ => subst x end. rewrite (ddel_absent _ _ Ed) in *. match goal with Ht : turning _ _ _ V9 _ _ _ |- _ => apply turning9 in Ht; subst end.
      right. right. eexists. split; [eassumption|]. destruct (String.eqb_spec src src0); auto.
  Qed.

  (** The files after a conversion stopped. *)
  Lemma stopped_files : forall src dst fs fs' e, stopped C src dst fs fs' -> dget String.eqb src fs = Some e -> NoDup (keys fs) -> src <> (dst ++ ".v07")%string ->
      NoDup (keys fs') /\ (forall p, p <> dst -> p <> (dst ++ ".v07")%string -> dget String.eqb p fs' = dget String.eqb p fs) /\
      (dget String.eqb dst fs' = None \/ (exists k, dget String.eqb dst fs' = Some (opened9 k)) \/
       (exists l, dget String.eqb dst fs' = Some l /\ ((get_version C e = Some V7 /\ raw_7_9 C e = Some l) \/
                  (get_version C e = Some V6 /\ exists e7, raw_6_7 C e = Some e7 /\ raw_7_9 C e7 = Some l)))).
  Proof.
    intros src dst fs fs' e (e0 & v & Es0 & Ed & Ev & Nv & H) Es Nd Nt. rewrite Es in Es0. injection Es0 as <-.
    assert (Ed' : dget String.eqb dst fs = None). { unfold dmem in Ed. destruct (dget String.eqb dst fs); congruence. }
    pose proof (suffix7 dst) as Tn.
    destruct v; [|clear Nv|congruence].
    - clear Nv. assert (Ec : unit -> content_of src (ddel String.eqb (dst ++ ".v07")%string fs) = e). { intros _. unfold content_of. rewrite dget_ddel_other' by auto. now rewrite Es. }
      assert (E1s : dget String.eqb src (ddel String.eqb (dst ++ ".v07")%string fs) = Some e) by (now rewrite dget_ddel_other' by auto).
      assert (E1d : dget String.eqb dst (ddel String.eqb (dst ++ ".v07")%string fs) = None) by (now rewrite dget_ddel_other' by auto).
      assert (N1 : NoDup (keys (ddel String.eqb (dst ++ ".v07")%string fs))) by now apply NoDup_ddel'.
      assert (P1 : forall p, p <> (dst ++ ".v07")%string -> dget String.eqb p (ddel String.eqb (dst ++ ".v07")%string fs) = dget String.eqb p fs) by (intros; now apply dget_ddel_other').
      inversion H; subst;
        try match goal with Hn : next_version C V6 = Some _ |- _ => cbn [next_version] in Hn; injection Hn as <- <- end;
        try (unfold target in *; cbn [is_v9 suffix] in *).
      + split; [exact Nd|]. split; auto.
      + split; [exact N1|]. split; auto.
      + repeat match goal with x := ddel _ _ _ |- _ => subst x | x := dset _ _ _ _ |- _ => subst x end. rewrite (touch_there _ _ _ E1s). split; [now apply fnodup_set|]. split; [intros p Hp Hq; rewrite fget_set_other by auto; auto|].
        left. rewrite fget_set_other by auto. exact E1d.
      + repeat match goal with x := ddel _ _ _ |- _ => subst x | x := dset _ _ _ _ |- _ => subst x end. split; [now apply fnodup_set|]. split; [intros p Hp Hq; rewrite fget_set_other by auto; auto|].
        left. rewrite fget_set_other by auto. exact E1d.
      + repeat match goal with x := ddel _ _ _ |- _ => subst x | x := dset _ _ _ _ |- _ => subst x end. rewrite String.eqb_refl in *. match goal with Hr : raw_6_7 C _ = Some ?x |- _ => rename x into e7; rename Hr into R6 end. rewrite (Ec tt) in R6.
        set (fs2 := dset String.eqb (dst ++ ".v07")%string e7 (ddel String.eqb (dst ++ ".v07")%string fs)) in *.
        assert (N2 : NoDup (keys fs2)) by now apply fnodup_set.
        assert (P2 : forall p, p <> (dst ++ ".v07")%string -> dget String.eqb p fs2 = dget String.eqb p fs) by (intros; unfold fs2; rewrite fget_set_other by auto; auto).
        match goal with Ht : turning _ _ _ V7 _ _ _ |- _ => apply (turning7 _ _ _ _ _ e7) in Ht; [rename Ht into T|apply fget_set_same|unfold fs2; rewrite fget_set_other by auto; exact E1d] end.
        destruct T as [->|[[k ->]|(l & R & [->|[_ ->]])]].
        * split; [exact N2|]. split; [auto|]. left. rewrite P2 by auto. exact Ed'.
        * split; [now apply fnodup_set|]. split; [intros p Hp Hq; rewrite fget_set_other by auto; auto|]. right. left. exists k. apply fget_set_same.
        * split; [now apply fnodup_set|]. split; [intros p Hp Hq; rewrite fget_set_other by auto; auto|]. right. right. exists l. split; [apply fget_set_same|]. right. eauto.
        * split; [now apply NoDup_ddel', fnodup_set|]. split; [intros p Hp Hq; rewrite dget_ddel_other' by auto; rewrite fget_set_other by auto; auto|].
          right. right. exists l. split; [rewrite dget_ddel_other' by auto; apply fget_set_same|]. right. eauto.
    - destruct (turning7 _ _ _ _ _ e H Es Ed') as [->|[[k ->]|(l & R & [->|[F _]])]]; [| | |congruence].
      + auto.
      + split; [now apply fnodup_set|]. split; [intros p Hp Hq; now rewrite fget_set_other|]. right. left. exists k. apply fget_set_same.
      + split; [now apply fnodup_set|]. split; [intros p Hp Hq; now rewrite fget_set_other|]. right. right. exists l. split; [apply fget_set_same|]. left. auto.
  Qed.
End Cut.
