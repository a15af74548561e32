(** A good file, used by examples. *)
From Coq Require Import String Bool ZArith Lia Sorted List.
From Verif Require Import Base Kv Model_Types Model_Codec Spec_Codec Keys Model_Sbs Model_Lmdb Model_Convert Spec_Convert Model_ConvertBytes Spec_ConvertBytes
  Proof_ConvertBytes2 Model_ConvertCut Model_CopyBytes Spec_CopyBytes Ex_Convert Ex_ConvertBytes.
Import ListNotations.
Open Scope string_scope.
Open Scope list_scope.
Open Scope Z_scope.

Definition bytesb (b : bytes) : bool := forallb (fun x => (0 <=? x) && (x <? 256)) b.
Fixpoint increasing (l : list bytes) : bool := match l with [] => true | x :: l => forallb (bytes_ltb x) l && increasing l end.
Definition file_okb (e : env) : bool :=
  openable e && forallb (fun t => increasing (map fst (snd t)) && forallb (fun kv => bytesb (fst kv) && (negb (fst t =? "REF")%string || bytesb (snd kv))) (snd t)) e.

Lemma bytesb_ok : forall b, bytesb b = true -> is_bytes b.
Proof. intros b H. apply Forall_forall. intros x Hx. unfold bytesb in H. rewrite forallb_forall in H. apply H in Hx. apply andb_true_iff in Hx as [A B]. lia. Qed.
Lemma increasing_ok : forall l, increasing l = true -> StronglySorted bytes_lt l.
Proof.
  induction l as [|x l IH]; cbn [increasing]; intros H; constructor; apply andb_true_iff in H as [A B]; auto.
  apply Forall_forall. intros y Hy. rewrite forallb_forall in A. now apply bytes_ltb_lt, A.
Qed.
Lemma file_okb_ok : forall e, file_okb e = true -> file_ok e.
Proof.
  intros e H. apply andb_true_iff in H as [O H]. rewrite forallb_forall in H.
  assert (G : forall n r, dget String.eqb n e = Some r -> increasing (map fst r) = true /\
            forall k v, In (k, v) r -> bytesb k = true /\ (negb (n =? "REF")%string || bytesb v = true)).
  { intros n r E. apply (dget_In String.eqb_eq) in E. apply H in E. cbn [fst snd] in E. apply andb_true_iff in E as [A B]. split; auto. intros k v Hi.
    rewrite forallb_forall in B. apply B in Hi. cbn [fst snd] in Hi. now apply andb_true_iff in Hi. }
  split.
  - intros n Hn. unfold openable in O. rewrite forallb_forall in O. specialize (O n Hn). unfold ehas, dmem in O. destruct (dget String.eqb n e); [eauto|discriminate].
  - intros n r E. apply increasing_ok. now apply (G n).
  - intros n r k v E Hi. apply bytesb_ok. now apply (G n r E) in Hi.
  - intros r k v E Hi. apply bytesb_ok. apply (G _ r E) in Hi. exact (proj2 Hi).
Qed.

(** The conversion of a file of version 0.7. *)
Definition env9 : env := match raw_7_9 xc env7 with Some e => e | None => [] end.
Definition fs9 : files := [("old", env7); ("db", env9); ("other", [])].
Lemma env9_ok : file_ok env9.
Proof. apply file_okb_ok. vm_compute. reflexivity. Qed.
