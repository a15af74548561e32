(** What is expected of the tool that prints a database. *)
From Coq Require Import String Ascii ZArith List.
From Verif Require Import Model_Types Model_Codec Model_Lmdb Spec_Subscription.
Import ListNotations.
Open Scope string_scope.
Open Scope list_scope.
Open Scope Z_scope.

(** The second list has the elements of the first one with a property, in the
    same order. *)
Inductive picked {A : Type} (P : A -> Prop) : list A -> list A -> Prop :=
| pk_nil : picked P [] []
| pk_yes : forall x l r, P x -> picked P l r -> picked P (x :: l) (x :: r)
| pk_no : forall x l r, ~ P x -> picked P l r -> picked P (x :: l) r.

(** An optional argument restricts to a value. *)
Definition wanted (x : option Z) (y : Z) : Prop := forall v, x = Some v -> v = y.

(** Text of an event type: segments separated by '/'. *)
Fixpoint chars (s : string) : list ascii := match s with "" => [] | String a s' => a :: chars s' end.
Definition names (s : string) (t : etype) : Prop :=
  t <> [] /\ String.concat "/" t = s /\ forall x, In x t -> ~ In "/"%char (chars x).

(** An optional argument of texts of query types. *)
Definition wanted_type (types : option (list string)) (t : etype) : Prop :=
  forall l, types = Some l -> exists s q, In s l /\ names s q /\ valid_query q /\ qmatch q t.
Definition types_ok (types : option (list string)) : Prop :=
  forall l s q, types = Some l -> In s l -> names s q -> valid_query q.

(** Bytes. *)
Definition bytes_ok (e : event) : Prop :=
  forall ty data, ev_payload e = Some (PBinary ty data) -> forall b, In b data -> 0 <= b < 256.

(** Settings with known names. *)
Definition setting_name (k : Z) (name : string) : Prop :=
  (k = 0 /\ name = "VERSION") \/ (k = 1 /\ name = "IDENTIFIER").
