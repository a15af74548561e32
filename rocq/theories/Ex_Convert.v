(** Concrete databases of former versions, used by examples. *)
From Coq Require Import String Bool ZArith Lia List.
From Verif Require Import Base Kv Model_Types Model_Codec Keys Model_Lmdb Spec_Order Spec_LmdbContent Spec_Copy
  Model_Convert Spec_Convert.
Import ListNotations.
Open Scope string_scope.
Open Scope list_scope.
Open Scope Z_scope.

Ltac nodup := repeat match goal with
  | |- NoDup _ => constructor
  | |- ~ _ => let H := fresh in intros H; cbn in H; repeat (destruct H as [H|H]; [discriminate H|]); exact H
  end.

(** Own number [stored], latest events and data of partition 1. *)
Definition db_of (stored : Z) (latest ordered : list event6) : db6 :=
  Db6 (Some stored) latest (map (fun e => ((1, e6_ts e, e6_instance e), e)) ordered)
    [(1, Part7 1 [["*"]])] [(1, Z.of_nat (List.length ordered))].

Definition e6 (sv n : Z) (ty : string) (p : option payload7) : event6 := Ev6 sv n [ty] (Ts n 0) None p.

(** Three events of the server itself, kept as server 0, and one of server 3. *)
Definition a1 : event6 := e6 0 1 "a" (Some (P7Json (JInt 5))).
Definition a2 : event6 := e6 0 2 "b" (Some (P7Sbs (Some "M") "T" [1; 2])).
Definition a3 : event6 := e6 0 3 "a" (Some (P7Binary [7])).
Definition b4 : event6 := e6 3 4 "c" None.
Definition ex6 : db6 := db_of 0 [a3; a2] [a1; a2; a3].
Definition ex6_other : db6 := db_of 1 [a3; b4] [a1; a3; b4].

(** The same number in events of server 0 and of the server itself. *)
Definition s5 : event6 := e6 1 3 "d" None.
Definition ex6_same : db6 := db_of 1 [a3; s5] [].

Definition ex7 : option db7 := convert_6_7 ex6.

Ltac valid6_tac := split;
  [eexists; first [left; split; reflexivity|right; split; [reflexivity|lia]]
  |intros e [H|H]; cbn in H; repeat (destruct H as [<-|H]; [cbn; lia|]); destruct H
  |cbn; nodup|cbn; nodup
  |intros p t n e H; cbn in H; repeat (destruct H as [H|H]; [injection H as <- <- <- <-; reflexivity|]); destruct H
  |cbn; nodup|cbn; nodup
  |intros p x H; cbn in H; repeat (destruct H as [H|H]; [injection H as <- <-; cbn; auto|]); destruct H].

Lemma ex6_valid : valid6 ex6.
Proof. valid6_tac. Qed.
Lemma ex6_other_valid : valid6 ex6_other.
Proof. valid6_tac. Qed.
Lemma ex6_same_valid : valid6 ex6_same.
Proof. valid6_tac. Qed.
