(** C46, C58: converting databases of former versions. *)
From Coq Require Import String Bool ZArith Lia List.
From Verif Require Import Base Kv Model_Types Model_Codec Keys Model_Lmdb Spec_Order Spec_LmdbContent Spec_Copy
  Model_Convert Spec_Convert Proof_Convert Proof_Convert2 Proof_Convert3 Proof_Convert4 Ex_Lmdb Ex_Convert.
Import ListNotations.
Open Scope string_scope.
Open Scope list_scope.
Open Scope Z_scope.

(** C46.  Every valid database of version 0.7 is converted, *)
Theorem C46_v07 : forall d, valid7 d -> exists c, convert (V07 d) = Some c /\ kept_sorted c.
Proof. exact final_C46_total7. Qed.
Print Assumptions C46_v07.

(** with all its content, *)
Theorem C46_v07_same : forall d c, valid7 d -> convert (V07 d) = Some c ->
  (forall r e, In (r, e) (db_latest c) <-> exists x, In (r, x) (d7_latest d) /\ same_event x e) /\
  (forall r t, In (r, t) (db_types c) <-> In (r, t) (d7_types d)) /\
  (forall k e, In (k, e) (db_ts c) <-> exists x, In (k, x) (d7_data d) /\ same_event x e) /\
  (forall p y, In (p, y) (db_parts c) <-> exists x, In (p, x) (d7_parts d) /\ same_part x y) /\
  (forall s i, In (s, i) (db_ids c) <-> exists t, In (s, (i, t)) (d7_system d)) /\
  (forall s t, In (s, t) (db_tss c) <-> exists i, In (s, (i, t)) (d7_system d)) /\
  (forall i r, listed c i r <-> listed7 d i r).
Proof. exact final_C46_same7. Qed.
Print Assumptions C46_v07_same.

(** an exact reference index and exact counters stay so, *)
Theorem C46_v07_invariants : forall d c, valid7 d -> convert (V07 d) = Some c ->
  ((forall i r, listed7 d i r <-> at_ref7 d r i) -> forall i r, listed c i r <-> at_ref c r i) /\
  ((forall p n, counter7 d p n <-> n = entries_in7 d p) -> forall p n, counter c p n <-> n = entries_in c p).
Proof. exact final_C46_inv7. Qed.
Print Assumptions C46_v07_invariants.

(** and the result can be opened with any identifier. *)
Theorem C46_v07_open : forall d c cf, valid7 d -> convert (V07 d) = Some c -> cf_version cf = "0.9" -> open_db cf c <> None.
Proof. exact final_C46_open7. Qed.
Print Assumptions C46_v07_open.

(** C46.  Every valid database of version 0.6 is converted; no list of references
    is empty or has a reference twice, *)
Theorem C46_v06 : forall d, valid6 d -> exists c, convert (V06 d) = Some c /\ kept_sorted c /\ lists_ok c.
Proof. exact final_C46_total. Qed.
Print Assumptions C46_v06.

(** the latest events are kept, each type once, with the types they are stored by, *)
Theorem C46_v06_latest : forall d s c, valid6 d -> own d s -> convert (V06 d) = Some c ->
  (forall e, In e (vals (db_latest c)) <-> exists a, In a (d6_latest d) /\ moved s a e) /\
  (forall r t, In (r, t) (db_types c) <-> exists e, In (r, e) (db_latest c) /\ ev_type e = t) /\
  NoDup (map ev_type (vals (db_latest c))) /\
  List.length (db_latest c) = List.length (d6_latest d).
Proof. exact final_C46_latest. Qed.
Print Assumptions C46_v06_latest.

(** partitions have the same entries, none is lost, *)
Theorem C46_v06_data : forall d s c, valid6 d -> own d s -> convert (V06 d) = Some c ->
  (forall p t i e, In ((p, t, i), e) (db_ts c) <->
     exists n a, In ((p, t, n), a) (d6_data d) /\ moved s a e /\ i = ev_id e) /\
  List.length (db_ts c) = List.length (d6_data d).
Proof. exact final_C46_data. Qed.
Print Assumptions C46_v06_data.

(** and the same definitions, *)
Theorem C46_v06_partitions : forall d s c, valid6 d -> own d s -> convert (V06 d) = Some c ->
  forall p y, In (p, y) (db_parts c) <-> exists x, In (p, x) (d6_parts d) /\ same_part x y.
Proof. exact final_C46_parts. Qed.
Print Assumptions C46_v06_partitions.

(** the reference index lists exactly the places of events, *)
Theorem C46_v06_refs : forall d s c, valid6 d -> own d s -> convert (V06 d) = Some c ->
  forall i r, listed c i r <-> at_ref c r i.
Proof. exact final_C46_refs. Qed.
Print Assumptions C46_v06_refs.

(** counters are kept, and are exact if they were, *)
Theorem C46_v06_counters : forall d s c, valid6 d -> own d s -> convert (V06 d) = Some c ->
  (forall p n, In (p, n) (db_counts c) <-> In (p, n) (d6_counts d)) /\
  (forall p, entries_in c p = entries_in6 d p) /\
  ((forall p n, counter6 d p n <-> n = entries_in6 d p) -> forall p n, counter c p n <-> n = entries_in c p).
Proof. exact final_C46_counters. Qed.
Print Assumptions C46_v06_counters.

(** events of a server keep their order, *)
Theorem C46_v06_order : forall d s c a b, valid6 d -> own d s -> convert (V06 d) = Some c ->
  event_of6 d a -> event_of6 d b -> e6_server a = e6_server b ->
  exists a' b', stored_event c a' /\ stored_event c b' /\ moved s a a' /\ moved s b b' /\
    server_of a' = server_of b' /\ (e6_instance a < e6_instance b <-> eid_lt (ev_id a') (ev_id b')).
Proof. exact final_C46_order. Qed.
Print Assumptions C46_v06_order.

(** and the result can be opened with any identifier. *)
Theorem C46_v06_open : forall d s c cf, valid6 d -> own d s -> convert (V06 d) = Some c -> cf_version cf = "0.9" -> open_db cf c <> None.
Proof. exact final_C46_open. Qed.
Print Assumptions C46_v06_open.

(** C58.  The only last id and timestamp recorded are those of the server itself;
    they belong to the greatest id of all events, whichever server's it is. *)
Theorem C58_last : forall d s c, valid6 d -> own d s -> convert (V06 d) = Some c ->
  (exists e, greatest c e /\ eid_lt (Eid s 0 0) (ev_id e) /\ db_ids c = [(s, ev_id e)] /\ db_tss c = [(s, ev_ts e)]) \/
  ((forall e, stored_event c e -> ~ eid_lt (Eid s 0 0) (ev_id e)) /\ db_ids c = [] /\ db_tss c = []).
Proof. exact final_C46_last. Qed.
Print Assumptions C58_last.

(** C58, partial: if all events belong to the server itself, that is the last id. *)
Theorem C58_last_partial : forall d s c, valid6 d -> own d s -> convert (V06 d) = Some c ->
  (forall e, event_of6 d e -> (e6_server e = 0 \/ e6_server e = s) /\ 0 < e6_instance e) ->
  (forall sv i, In (sv, i) (db_ids c) <-> exists e, last_of c sv e /\ ev_id e = i) /\
  (forall sv t, In (sv, t) (db_tss c) -> exists e, last_of c sv e /\ ev_ts e = t).
Proof. exact final_C58_one. Qed.
Print Assumptions C58_last_partial.

(** C58, partial: ids stay different unless events of server 0 meet events with the
    server's own number. *)
Theorem C58_ids_partial : forall d s c, valid6 d -> own d s -> convert (V06 d) = Some c ->
  (forall e, event_of6 d e -> e6_server e <> 0) \/ (forall e, event_of6 d e -> e6_server e <> s) ->
  forall a b a' b', event_of6 d a -> event_of6 d b -> moved s a a' -> moved s b b' -> stored_event c a' -> stored_event c b' ->
    ev_id a' = ev_id b' -> e6_server a = e6_server b /\ e6_instance a = e6_instance b.
Proof. exact final_C46_ids. Qed.
Print Assumptions C58_ids_partial.

(** C58 fails: if there is an event of a server with a greater number, no event of
    the server itself is ever registered in the converted database. *)
Theorem C58_refused_refuted : forall d s c a, valid6 d -> own d s -> convert (V06 d) = Some c ->
  event_of6 d a -> s < e6_server a ->
  forall cf db m, open_db cf c = Some (db, m) ->
  forall es, (forall e, In e es -> server_of e = s) -> forall ch, register_events cf m ch es = Some (m, ch).
Proof. exact final_C58_refused. Qed.
Print Assumptions C58_refused_refuted.

(** There are such databases: of server 1, with an event of server 3.  The last id
    of server 1 is that of the other server's event, and that server has none. *)
Theorem C58_last_refuted : exists d c e, valid6 d /\ own d 1 /\ convert (V06 d) = Some c /\
  event_of6 d b4 /\ 1 < e6_server b4 /\ open_db ex_conf c <> None /\
  last_of c 1 e /\ db_ids c = [(1, Eid 3 4 4)] /\ ev_id e = Eid 1 3 3 /\
  (exists x, stored_event c x /\ server_of x = 3).
Proof.
  exists ex6_other. eexists. exists (Ev (Eid 1 3 3) ["a"] (Ts 3 0) None (Some (PBinary "" [7]))).
  split; [exact ex6_other_valid|]. split; [right; split; [reflexivity|lia]|]. split; [vm_compute; reflexivity|].
  split; [left; cbn; auto|]. split; [reflexivity|]. split; [vm_compute; discriminate|].
  split; [|split; [reflexivity|split; [reflexivity|]]].
  - split; [left; cbn; auto|]. split; [reflexivity|].
    intros x [H|H]; cbn in H; repeat (destruct H as [<-|H]; [cbn; intros; first [discriminate|unfold eid_le, eid_lt; cbn; first [right; reflexivity|left; lia]]|]); destruct H.
  - exists (Ev (Eid 3 4 4) ["c"] (Ts 4 0) None None). split; [left; cbn; auto|reflexivity].
Qed.
Print Assumptions C58_last_refuted.

(** Different events get the same id. *)
Theorem C58_ids_refuted : exists d c a b, valid6 d /\ own d 1 /\ convert (V06 d) = Some c /\
  stored_event c a /\ stored_event c b /\ a <> b /\ ev_id a = ev_id b.
Proof.
  exists ex6_same. eexists. exists (Ev (Eid 1 3 3) ["a"] (Ts 3 0) None (Some (PBinary "" [7]))).
  exists (Ev (Eid 1 3 3) ["d"] (Ts 3 0) None None).
  split; [exact ex6_same_valid|]. split; [right; split; [reflexivity|lia]|]. split; [vm_compute; reflexivity|].
  split; [left; cbn; auto|]. split; [left; cbn; auto|]. split; [discriminate|reflexivity].
Qed.
Print Assumptions C58_ids_refuted.

(** A database of version 0.6 that meets the hypotheses, and what becomes of it. *)
Example C46_example : valid6 ex6 /\ own ex6 1 /\
  (forall e, event_of6 ex6 e -> (e6_server e = 0 \/ e6_server e = 1) /\ 0 < e6_instance e) /\
  (forall p n, In (p, n) (d6_counts ex6) -> n = entries_in6 ex6 p) /\
  exists c, convert (V06 ex6) = Some c /\
    map (fun kv => (fst kv, ev_id (snd kv), ev_payload (snd kv))) (db_latest c) =
      [(1, Eid 1 3 3, Some (PBinary "" [7])); (2, Eid 1 2 2, Some (PBinary "M.T" [1; 2]))] /\
    map fst (db_ts c) = [(1, Ts 1 0, Eid 1 1 1); (1, Ts 2 0, Eid 1 2 2); (1, Ts 3 0, Eid 1 3 3)] /\
    db_ids c = [(1, Eid 1 3 3)] /\ db_tss c = [(1, Ts 3 0)] /\
    db_ref c = [(Eid 1 1 1, [TimeseriesRef (1, Ts 1 0, Eid 1 1 1)]);
                (Eid 1 2 2, [LatestRef 2; TimeseriesRef (1, Ts 2 0, Eid 1 2 2)]);
                (Eid 1 3 3, [LatestRef 1; TimeseriesRef (1, Ts 3 0, Eid 1 3 3)])].
Proof.
  split; [exact ex6_valid|]. split; [left; split; reflexivity|]. split; [|split].
  - intros e [H|H]; cbn in H; repeat (destruct H as [<-|H]; [cbn; lia|]); destruct H.
  - intros p n [[= <- <-]|[]]. reflexivity.
  - eexists. split; [vm_compute; reflexivity|]. vm_compute. repeat split.
Qed.

(** A database of version 0.7. *)
Example C46_v07_example : exists d c, ex7 = Some d /\ valid7 d /\ convert (V07 d) = Some c /\
  (forall i r, listed7 d i r <-> at_ref7 d r i) /\ List.length (db_ts c) = 3%nat /\ List.length (db_latest c) = 2%nat.
Proof.
  destruct (convert_6_7_content ex6 1 ex6_valid (or_introl (conj eq_refl eq_refl))) as (d & E & C).
  destruct (convert_7 d (c67_valid _ _ _ C)) as (c & E' & _). exists d, c. split; auto. split; [apply C|]. split; auto.
  split; [apply C|]. assert (X : exists d, ex7 = Some d /\ exists c, convert (V07 d) = Some c /\
    List.length (db_ts c) = 3%nat /\ List.length (db_latest c) = 2%nat).
  { eexists. split; [vm_compute; reflexivity|]. eexists. split; [vm_compute; reflexivity|]. vm_compute. auto. }
  destruct X as (d' & Ed & c' & Ec & L). unfold ex7 in Ed. rewrite E in Ed. injection Ed as <-. rewrite E' in Ec. now injection Ec as <-.
Qed.
