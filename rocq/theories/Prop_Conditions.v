(** C29: storage conditions.  [sel] stands for [hat.json.get], which selects
    the value at a path; all that is required of it is to select JSON values
    from JSON values. *)
From Coq Require Import ZArith QArith String Bool List.
From Verif Require Import Base Model_Types Model_Subscription Spec_Subscription Model_Lmdb Model_LmdbSys Spec_Lmdb Spec_LmdbContent
  Model_Conditions Spec_Conditions Proof_Subscription Proof_Conditions2 Ex_Lmdb.
Import ListNotations.
Open Scope string_scope.
Open Scope list_scope.
Open Scope Z_scope.

(** C29.  For every configuration of conditions allowed by the schema, however
    nested, the test is made and holds for exactly the events for which all
    conditions hold whose subscription selects the type of the event; values
    are compared as Python does. *)
Theorem C29_conditions : forall sel conf, (forall d p, jwf d -> jwf (sel d p)) -> conds_ok conf ->
    (exists f, conditions_c sel conf = Some f) /\ (exists f, conditions_py sel conf = Some f) /\
    forall f, made_for sel conf f -> forall e, payload_ok e -> (f e = true <-> all_hold same_value sel conf e).
Proof. exact final_C29_made. Qed.
Print Assumptions C29_conditions.

(** C29.  With values compared as JSON values, this is so as long as no
    boolean can be taken for a number.  Missing: the other configurations. *)
Theorem C29_json_partial : forall sel conf f, (forall d p, jwf d -> jwf (sel d p)) -> conds_ok conf -> conds_strict conf ->
    made_for sel conf f -> forall e, payload_ok e -> (f e = true <-> all_hold same_json sel conf e).
Proof. exact final_C29_strict. Qed.
Print Assumptions C29_json_partial.

(** C29.  Without that the claim is false: a condition asking for 1 holds for
    [true]. *)
Theorem C29_json_refuted : exists sel conf f e, (forall d p, jwf d -> jwf (sel d p)) /\ conds_ok conf /\ payload_ok e /\
    made_for sel conf f /\ f e = true /\ ~ all_hold same_json sel conf e.
Proof. exact final_C29_refuted. Qed.
Print Assumptions C29_json_refuted.

(** C29.  A new event that has a place in the database (it belongs to a
    partition or is the latest one of its type) is taken if and only if the
    conditions hold.  (C23 and C20 tell that what is taken is written by the
    next flush.) *)
Theorem C29_accepted : forall O cf tr s e a sel conf, (forall d p, jwf d -> jwf (sel d p)) -> conds_ok conf ->
    execution O cf (tr ++ [(ORegister [e], a)]) s ->
    let w := watch_run cf tr in let w' := watch_run cf (tr ++ [(ORegister [e], a)]) in
    made_for sel conf (cf_cond (w_conf w)) -> payload_ok e ->
    follows (w_all w) e = true -> becomes_latest (w_all w) (w_conf w) e = true \/ has_place (w_conf w) e = true ->
    (all_hold same_value sel conf e -> w_all w' = w_all w ++ [Entry (w_conf w) e]) /\
    (~ all_hold same_value sel conf e -> w_all w' = w_all w).
Proof. exact final_C29_accepted. Qed.
Print Assumptions C29_accepted.

(** C29.  The database never holds an event for which they do not hold, as long
    as they are not changed. *)
Theorem C29_stored : forall O cf tr s sel conf f, (forall d p, jwf d -> jwf (sel d p)) -> conds_ok conf -> made_for sel conf f ->
    execution O cf tr s -> Forall (fun c => cf_cond c = f) (cf :: confs_of tr) -> Forall payload_ok (events_of tr) ->
    forall e, stored_event (s_disk s) e -> all_hold same_value sel conf e.
Proof. exact final_C29_only. Qed.
Print Assumptions C29_stored.

(** Events of type a, b... must have a number 5 or a string at [x]; all events
    an object, or nothing at [x]. *)
Definition ex_get (d p : json) : json :=
  match p, d with
  | JArr [], _ => d
  | JStr k, JObj l => match sget k l with Some v => v | None => JNull end
  | _, _ => JNull
  end.
Definition ex_conds : list (list etype * condition) :=
  [([["a"; "*"]], CAll [CAny [CJson (Some (JStr "x")) (Some "number") (Some (JFloat 10 (-1)));
                              CJson (Some (JStr "x")) (Some "string") None];
                        CAll []]);
   ([["*"]; ["b"]], CAny [CJson None (Some "object") None; CJson (Some (JStr "x")) (Some "null") None])].
Definition ex_fun : event -> bool := match conditions_c ex_get ex_conds with Some f => f | None => fun _ => false end.
Definition ex_ev (i : Z) (t : etype) (p : payload) : event := Ev (Eid 1 1 i) t (Ts i 0) None (Some p).
Definition ex_yes : event := ex_ev 1 ["a"; "q"] (PJson (JObj [("y", JNull); ("x", JInt 5)])).
Definition ex_no : event := ex_ev 2 ["a"; "q"] (PJson (JObj [("x", JBool true)])).
Definition ex_other : event := ex_ev 3 ["b"] (PJson (JInt 7)).
Definition ex_bin : event := ex_ev 4 ["b"] (PBinary "t" []).

Example C29_example_get : forall d p, jwf d -> jwf (ex_get d p).
Proof.
  intros d p H. destruct p as [| | | |k|[|]|]; cbn [ex_get]; try constructor; [|exact H].
  destruct d as [| | | | | |l]; try constructor. destruct (sget k l) as [v|] eqn:E; [|constructor].
  inversion H as [| | | | | |? _ W]; subst. rewrite Forall_forall in W.
  apply (dget_In String.eqb_eq) in E. exact (W _ E).
Qed.

Example C29_example : conds_ok ex_conds /\ conds_strict ex_conds /\ conditions_c ex_get ex_conds = Some ex_fun /\
  map ex_fun [ex_yes; ex_no; ex_other; ex_bin] = [true; false; true; false] /\
  Forall payload_ok [ex_yes; ex_no; ex_other; ex_bin].
Proof.
  assert (V : forall qs, forallb validb qs = true -> Forall valid_query qs).
  { intros qs H. rewrite forallb_forall in H. apply Forall_forall. intros q Hq. apply validb_spec. auto. }
  assert (J : forall p t v, (forall x, t = Some x -> In x type_names) -> (forall w, v = Some w -> jwf w) -> cond_ok (CJson p t v))
    by (intros; now constructor).
  split; [|split; [|split; [reflexivity|split; [vm_compute; reflexivity|]]]].
  - apply Forall_cons; [|apply Forall_cons; [|apply Forall_nil]]; (split; [apply V; reflexivity|]); cbn [snd].
    + constructor. apply Forall_cons; [|apply Forall_cons; [constructor; apply Forall_nil|apply Forall_nil]].
      constructor. apply Forall_cons; [|apply Forall_cons; [|apply Forall_nil]]; apply J; intros x E;
        try discriminate E; injection E as <-; (apply jwf_float || (cbn; tauto)).
    + constructor. apply Forall_cons; [|apply Forall_cons; [|apply Forall_nil]]; apply J; intros x E;
        try discriminate E; injection E as <-; cbn; tauto.
  - apply Forall_cons; [|apply Forall_cons; [|apply Forall_nil]]; cbn [snd].
    + constructor. apply Forall_cons; [|apply Forall_cons; [constructor; apply Forall_nil|apply Forall_nil]].
      constructor. apply Forall_cons; [|apply Forall_cons; [|apply Forall_nil]]; constructor; intros w E; [|discriminate].
      injection E as <-. right. auto.
    + constructor. apply Forall_cons; [|apply Forall_cons; [|apply Forall_nil]]; constructor; intros w E; discriminate.
  - repeat (apply Forall_cons; [intros d E; try discriminate E; injection E as <-|]); [| | |apply Forall_nil].
    + constructor; [|repeat constructor]. repeat constructor; cbn; intuition discriminate.
    + constructor; [|repeat constructor]. repeat constructor; cbn; intuition discriminate.
    + constructor.
Qed.

(** A run of the backend with these conditions. *)
Definition ex_cconf : conf := mk_conf "0.9" None ex_fun [["*"]] [(TIMESTAMP, [["a"; "*"]; ["b"]], None)] 10.
Definition ex_cops : list op := [ORegister [ex_yes; ex_no]; ORegister [ex_other]; ORegister [ex_bin]; OFlush; OWork].
Example C29_example_run :
  execution ex_oracle ex_cconf (trace_of (plays ex_oracle ex_cconf ex_cops)) (end_of ex_cconf (plays ex_oracle ex_cconf ex_cops)) /\
  vals (db_ts (s_disk (end_of ex_cconf (plays ex_oracle ex_cconf ex_cops)))) = [ex_yes; ex_other].
Proof.
  split; [|vm_compute; reflexivity].
  apply played'; [vm_compute; reflexivity| |vm_compute; reflexivity].
  apply Forall_cons; [apply conf_ok_of; reflexivity|apply Forall_nil].
Qed.
