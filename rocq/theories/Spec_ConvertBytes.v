(** Formats of files of former versions, independent of the functions that read
    and write them. *)
From Coq Require Import String Bool ZArith Permutation List.
From Verif Require Import Base Model_Types Model_Codec Spec_Order Spec_Codec Model_Sbs Model_Lmdb Spec_LmdbContent Spec_Copy Model_Convert Spec_Convert Model_ConvertBytes.
Import ListNotations.
Open Scope string_scope.
Open Scope list_scope.
Open Scope Z_scope.

(** ** What is expected of the libraries *)

(** JSON data with distinct names in objects, and numbers that have a text. *)
Inductive json_wf (float_ok : Z -> Z -> Prop) : json -> Prop :=
| wf_null : json_wf float_ok JNull
| wf_bool : forall b, json_wf float_ok (JBool b)
| wf_int : forall z, json_wf float_ok (JInt z)
| wf_float : forall m e, float_ok m e -> json_wf float_ok (JFloat m e)
| wf_str : forall s, json_wf float_ok (JStr s)
| wf_arr : forall l, Forall (json_wf float_ok) l -> json_wf float_ok (JArr l)
| wf_obj : forall l, NoDup (map fst l) -> Forall (fun kv => json_wf float_ok (snd kv)) l -> json_wf float_ok (JObj l).

(** Decoding inverts encoding; a set is iterated in some order. *)
Record codecs_ok (C : codecs) (F : Z -> Z -> Prop) : Prop := {
  ck_json : forall j, json_wf F j -> jdec C (jenc C j) = Some j;
  ck_sbs : forall t d, conforms t d -> sdec C t (senc C t d) = Some d;
  ck_iter : forall l, Permutation (iter C l) l }.

(** ** Numbers *)

(** Value of bytes, most significant first. *)
Fixpoint value (bs : bytes) : Z := match bs with [] => 0 | b :: r => b * 256 ^ Z.of_nat (List.length r) + value r end.
Definition uint (n : nat) (v : Z) (bs : bytes) : Prop := List.length bs = n /\ is_bytes bs /\ value bs = v.

Definition ts_form (t : timestamp) (bs : bytes) : Prop :=
  exists a b, bs = a ++ b /\ uint 8 (ts_s t + 2 ^ 63) a /\ uint 4 (ts_us t) b.
Definition eid_form (i : event_id) (bs : bytes) : Prop :=
  exists a b c, bs = a ++ b ++ c /\ uint 8 (eid_server i) a /\ uint 8 (eid_session i) b /\ uint 8 (eid_instance i) c.

(** ** Events *)

Definition optional_form {A} (f : A -> sbs) (o : option A) : sbs := match o with Some x => SChoice "value" (f x) | None => SChoice "none" SNone end.
Definition ts_sbs (t : timestamp) : sbs := SRec [("s", SInt (ts_s t)); ("us", SInt (ts_us t))].
Definition type_sbs (t : etype) : sbs := SArr (map SStr t).

Section Formats.
  Variable C : codecs.

  Definition payload_form (p : payload7) : sbs :=
    match p with
    | P7Binary b => SChoice "binary" (SBytes b)
    | P7Json j => SChoice "json" (SStr (jenc C j))
    | P7Sbs m t b => SChoice "sbs" (SRec [("module", optional_form SStr m); ("type", SStr t); ("data", SBytes b)])
    end.

  Definition event6_form (e : event6) (bs : bytes) : Prop :=
    bs = senc C T_Event6
      (SRec [("id", SRec [("server", SInt (e6_server e)); ("instance", SInt (e6_instance e))]); ("type", type_sbs (e6_type e));
             ("timestamp", ts_sbs (e6_ts e)); ("sourceTimestamp", optional_form ts_sbs (e6_src e)); ("payload", optional_form payload_form (e6_payload e))]).
  Definition event7_form (e : event7) (bs : bytes) : Prop :=
    bs = senc C T_Event7
      (SRec [("id", SRec [("server", SInt (eid_server (e7_id e))); ("session", SInt (eid_session (e7_id e))); ("instance", SInt (eid_instance (e7_id e)))]);
             ("type", type_sbs (e7_type e)); ("timestamp", ts_sbs (e7_ts e)); ("sourceTimestamp", optional_form ts_sbs (e7_src e));
             ("payload", optional_form payload_form (e7_payload e))]).

  (** ** Other values *)

  Definition json_form (j : json) (bs : bytes) : Prop := bs = text (jenc C j).
  Definition type_form (t : etype) (bs : bytes) : Prop := json_form (JArr (map JStr t)) bs.
  (** Data of a partition: an object with these fields, maybe with others. *)
  Definition part_form (F : Z -> Z -> Prop) (p : part7) (bs : bytes) : Prop :=
    exists l, json_form (JObj l) bs /\ json_wf F (JObj l) /\ In ("order", JInt (p7_order p)) l /\
      In ("subscriptions", JArr (map (fun t => JArr (map JStr t)) (p7_subs p))) l.
  Definition count6_form (n : Z) (bs : bytes) : Prop := json_form (JInt n) bs.

  (** Keys of ordered data. *)
  Definition key6_form (k : Z * timestamp * Z) (bs : bytes) : Prop :=
    let '(p, t, n) := k in exists a b c, bs = a ++ b ++ c /\ uint 8 p a /\ ts_form t b /\ uint 8 n c.
  Definition key7_form (k : ts_key) (bs : bytes) : Prop :=
    let '(p, t, i) := k in exists a b c, bs = a ++ b ++ c /\ uint 8 p a /\ ts_form t b /\ eid_form i c.

  (** A set of references, in any order. *)
  Definition ref7_form (r : event_ref) (bs : bytes) : Prop :=
    match r with
    | LatestRef k => exists b, bs = 1 :: b /\ uint 8 k b
    | TimeseriesRef k => exists b, bs = 3 :: b /\ key7_form k b
    end.
  Definition refs7_form (rs : list event_ref) (bs : bytes) : Prop :=
    exists l bss, Permutation l rs /\ Forall2 ref7_form l bss /\ bs = concat bss.

  Definition system_form (v : event_id * timestamp) (bs : bytes) : Prop := exists a b, bs = a ++ b /\ eid_form (fst v) a /\ ts_form (snd v) b.

  (** ** Files *)

  (** The named database has exactly these entries. *)
  Definition table {K V} (name : string) (fk : K -> bytes -> Prop) (fv : V -> bytes -> Prop) (e : env) (l : list (K * V)) : Prop :=
    exists r, dget String.eqb name e = Some r /\ Forall2 (fun kv b => fk (fst kv) (fst b) /\ fv (snd kv) (snd b)) l r.

  Record file7 (F : Z -> Z -> Prop) (e : env) (d : db7) : Prop := {
    f7_none : dget String.eqb "SYSTEM_SETTINGS" e = None;
    f7_system : table "SYSTEM" (uint 8) system_form e (d7_system d);
    f7_ref : table "REF" eid_form refs7_form e (d7_ref d);
    f7_latest : table "LATEST_DATA" (uint 8) event7_form e (d7_latest d);
    f7_types : table "LATEST_TYPE" (uint 8) type_form e (d7_types d);
    f7_data : table "ORDERED_DATA" key7_form event7_form e (d7_data d);
    f7_parts : table "ORDERED_PARTITION" (uint 8) (part_form F) e (d7_parts d);
    f7_counts : table "ORDERED_COUNT" (uint 8) (uint 8) e (d7_counts d) }.

  (** The keys of latest events are not looked at. *)
  Record file6 (F : Z -> Z -> Prop) (e : env) (d : db6) : Prop := {
    f6_none : dget String.eqb "SYSTEM_SETTINGS" e = None;
    f6_none7 : dget String.eqb "SYSTEM" e = None;
    f6_system : exists r, dget String.eqb "system" e = Some r /\ NoDup (map fst r) /\
      forall v, d6_server d = Some v <-> exists b, In (text "server_id", b) r /\ uint 8 v b;
    f6_latest : exists r, dget String.eqb "latest" e = Some r /\ Forall2 (fun x b => event6_form x (snd b)) (d6_latest d) r;
    f6_data : table "ordered_data" key6_form event6_form e (d6_data d);
    f6_parts : table "ordered_partition" (uint 8) (part_form F) e (d6_parts d);
    f6_counts : table "ordered_count" (uint 8) count6_form e (d6_counts d) }.
End Formats.

(** Payloads have JSON data that has a text. *)
Definition payload_wf (F : Z -> Z -> Prop) (p : option payload7) : Prop := match p with Some (P7Json j) => json_wf F j | _ => True end.
Definition wf7 (F : Z -> Z -> Prop) (d : db7) : Prop :=
  forall e, In e (vals (d7_latest d)) \/ In e (vals (d7_data d)) -> payload_wf F (e7_payload e).
(** Version 0.6: numbers, which become part of keys, are in the range of their
    encoding. *)
Definition wf6 (F : Z -> Z -> Prop) (d : db6) : Prop :=
  (forall e, event_of6 d e -> payload_wf F (e6_payload e) /\ u64 (e6_server e) /\ u64 (e6_instance e) /\ ts_fits (e6_ts e)) /\
  (forall p n, In (p, n) (d6_counts d) -> u64 n) /\ u64 (Z.of_nat (List.length (d6_latest d))).

(** ** What is read from the new file *)

(** Everything that was in the file of version 0.7. *)
Definition same7 (d : db7) (c : ldb) : Prop :=
  (forall r e, In (r, e) (db_latest c) <-> exists x, In (r, x) (d7_latest d) /\ same_event x e) /\
  (forall r t, In (r, t) (db_types c) <-> In (r, t) (d7_types d)) /\
  (forall k e, In (k, e) (db_ts c) <-> exists x, In (k, x) (d7_data d) /\ same_event x e) /\
  (forall p y, In (p, y) (db_parts c) <-> exists x, In (p, x) (d7_parts d) /\ same_part x y) /\
  (forall p n, In (p, n) (db_counts c) <-> In (p, n) (d7_counts d)) /\
  (forall s i, In (s, i) (db_ids c) <-> exists t, In (s, (i, t)) (d7_system d)) /\
  (forall s t, In (s, t) (db_tss c) <-> exists i, In (s, (i, t)) (d7_system d)) /\
  (forall i r, listed c i r <-> listed7 d i r).

(** Everything that was in the file of version 0.6 of server [s], and the index
    of references. *)
Definition same6 (d : db6) (s : Z) (c : ldb) : Prop :=
  (forall e, In e (vals (db_latest c)) <-> exists a, In a (d6_latest d) /\ moved s a e) /\
  (forall r t, In (r, t) (db_types c) <-> exists e, In (r, e) (db_latest c) /\ ev_type e = t) /\
  (forall p t i e, In ((p, t, i), e) (db_ts c) <-> exists n a, In ((p, t, n), a) (d6_data d) /\ moved s a e /\ i = ev_id e) /\
  (forall p y, In (p, y) (db_parts c) <-> exists x, In (p, x) (d6_parts d) /\ same_part x y) /\
  (forall p n, In (p, n) (db_counts c) <-> In (p, n) (d6_counts d)) /\
  (forall i r, listed c i r <-> at_ref c r i).
