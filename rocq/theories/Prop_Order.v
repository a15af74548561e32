(** C08: natural order of events. *)
From Coq Require Import List String Bool ZArith Lia.
From Verif Require Import Model_Types Model_Order Spec_Order Proof_Order.
Import ListNotations.
Open Scope Z_scope.

(** On events of distinct instants whose ids and timestamps grow together,
    [ev_lt] is a strict total order and [ev_gt] is its converse. *)
Theorem C08_strict_order : forall S, grow_together S -> distinct_instants S ->
    (forall a, ev_lt a a = false) /\
    (forall a b c, S a -> S b -> S c -> ev_lt a b = true -> ev_lt b c = true -> ev_lt a c = true) /\
    (forall a b, S a -> S b -> ev_lt a b = true -> ev_lt b a = false) /\
    (forall a b, ev_id a <> ev_id b -> ev_lt a b = true \/ ev_lt b a = true) /\
    (forall a b, S a -> S b -> ev_gt a b = ev_lt b a).
Proof. exact final_C08_order. Qed.
Print Assumptions C08_strict_order.

(** What the relation is: by id on one server, by time between servers, the
    first operand counting as older on equal times. *)
Theorem C08_older : forall a b, ev_lt a b = true <->
    ev_id a <> ev_id b /\
    (server_of a = server_of b /\ eid_lt (ev_id a) (ev_id b) \/
     server_of a <> server_of b /\ (ts_lt (ev_ts a) (ev_ts b) \/ ev_ts a = ev_ts b)).
Proof. exact ev_lt_spec. Qed.
Print Assumptions C08_older.

(** Different servers, equal timestamps: the first operand counts as older,
    whichever comes first. *)
Theorem C08_ties : forall a b, server_of a <> server_of b -> ev_ts a = ev_ts b ->
    ev_lt a b = true /\ ev_lt b a = true /\ ev_gt a b = false /\ ev_gt b a = false.
Proof. exact final_C08_ties. Qed.
Print Assumptions C08_ties.

(** For any two events: if one is newer, the other is older and not newer. *)
Theorem C08_newer : forall a b, ev_gt a b = true -> ev_lt b a = true /\ ev_gt b a = false.
Proof. exact final_C08_gt. Qed.
Print Assumptions C08_newer.

(** Three events of two servers meeting the hypotheses. *)
Definition ex_ev (s i t : Z) : event := Ev (Eid s 1 i) ["x"%string] (Ts t 0) None None.
Example C08_example :
  let S e := In e [ex_ev 1 1 10; ex_ev 2 1 11; ex_ev 1 2 12] in
  grow_together S /\ distinct_instants S /\
  ev_lt (ex_ev 1 1 10) (ex_ev 2 1 11) = true /\ ev_lt (ex_ev 2 1 11) (ex_ev 1 2 12) = true.
Proof.
  cbn zeta. split; [|split; [|split; reflexivity]].
  - intros a b Ha Hb. cbn in Ha, Hb.
    destruct Ha as [<-|[<-|[<-|[]]]], Hb as [<-|[<-|[<-|[]]]]; unfold server_of, ts_le, ts_lt, eid_le, eid_lt; cbn;
      intros; try lia; try (right; reflexivity);
      match goal with H : _ \/ _ = _ |- _ => destruct H as [H|H]; [lia|discriminate H] end.
  - intros a b Ha Hb. cbn in Ha, Hb.
    destruct Ha as [<-|[<-|[<-|[]]]], Hb as [<-|[<-|[<-|[]]]]; cbn; congruence.
Qed.
