(** What is expected of a conversion that stopped before its end. *)
From Coq Require Import String Bool ZArith List.
From Verif Require Import Base Kv Model_Types Model_Lmdb Model_Convert Spec_Convert Model_ConvertBytes Spec_ConvertBytes.
Import ListNotations.
Open Scope string_scope.
Open Scope list_scope.

(** A good file of a former version, and what has to be read from its
    conversion. *)
Definition good_source (C : codecs) (F : Z -> Z -> Prop) (e : env) (expected : ldb -> Prop) : Prop :=
  (exists d, file7 C F e d /\ valid7 d /\ wf7 F d /\ expected = same7 d) \/
  (exists d, file6 C F e d /\ valid6 d /\ wf6 F d /\ expected = fun c => forall s, own d s -> same6 d s c).

(** A file without any entry. *)
Definition no_data (e : env) : Prop := forall name r, In (name, r) e -> r = [].
