(** Events and data of the server conform to their schemas. *)
From Coq Require Import String Bool ZArith QArith Lia DecimalString List.
From Verif Require Import Base Model_Types Model_Subscription Model_Codec Model_Sbs Model_Schema Model_Conditions Model_Monitor Model_Remote Model_Conf Spec_Conf
  Proof_Conf Proof_Conf2 Proof_Conf3 Proof_Conf4 Model_Engine Spec_Engine Proof_Engine Model_Eventer Spec_Published Model_Sync Model_Published.
Import ListNotations.
Open Scope string_scope.
Open Scope list_scope.

(** ** The engine *)

Definition engine_report (last : event_id) : reg_event -> Prop :=
  reports events_engine ["event"; NilZero.string_of_int (Z.to_int (eid_server last)); "engine"].

Definition origin (last : event_id) (tr : list eitem) (r : reg_event) : Prop := asked tr r \/ engine_report last r.

Lemma status_report : forall last i st, st = "STARTED" \/ st = "STOPPED" -> eid_server i = eid_server last ->
    engine_report last (status_reg_event (eid_server i) st).
Proof.
  intros last i st H E. rewrite E. split; [reflexivity|]. split; [reflexivity|]. eexists. split; [reflexivity|]. intros log_ok.
  destruct H as [->| ->]; reflexivity.
Qed.

Lemma asked_more : forall tr x r, asked tr r -> asked (tr ++ [x]) r.
Proof.
  intros tr x r H. unfold asked, ops_of in *. rewrite map_app. destruct H as [(rq & I & J)|(rs & I & J)]; [left|right]; eexists;
    (split; [apply in_or_app; left; exact I|exact J]).
Qed.

Lemma origin_more : forall last tr x r, origin last tr r -> origin last (tr ++ [x]) r.
Proof. intros last tr x r [H|H]; [left; now apply asked_more|now right]. Qed.

Definition req_ok (P : reg_event -> Prop) (q : request) : Prop := Forall P (rq_events q).
Definition ev_ok (P : reg_event -> Prop) (e : event) : Prop := P (reg_of e).

(** All that the engine has satisfies [P]. *)
Definition loop_ok (P : reg_event -> Prop) (l : eloop) : Prop :=
  match l with
  | PStart r _ _ => req_ok P r
  | PRun r _ all _ _ | PCall r _ all _ _ _ | PStop r all _ | PReg r all => req_ok P r /\ Forall (ev_ok P) all
  | _ => True
  end.
Definition state_ok (P : reg_event -> Prop) (srv : Z) (s : estate) : Prop :=
  Forall (req_ok P) (e_put s) /\ Forall (req_ok P) (e_queue s) /\ loop_ok P (e_loop s) /\ eid_server (e_last s) = srv.

Lemma created_ok : forall (P : reg_event -> Prop) rs i now, Forall P rs -> let r := create_events i now rs in
    Forall (ev_ok P) (snd r) /\ eid_server (fst r) = eid_server i.
Proof.
  intros P. induction rs as [|x rs IH]; intros i now H; cbn [create_events].
  - split; [constructor|reflexivity].
  - inversion H as [|y l Hx Hr]; subst. cbn [create_event]. specialize (IH (Eid (eid_server i) (eid_session i) (eid_instance i + 1)) now Hr).
    cbv zeta in IH. cbv zeta. destruct (create_events _ now rs) as [i2 es]. cbn [fst snd] in *. destruct IH as (A & B). split.
    + constructor; [|exact A]. unfold ev_ok, reg_of. cbn. destruct x; exact Hx.
    + rewrite B. reflexivity.
Qed.

Lemma state_more : forall last tr x s, state_ok (origin last tr) (eid_server last) s -> state_ok (origin last (tr ++ [x])) (eid_server last) s.
Proof.
  intros last tr x s (A & B & C & D).
  assert (R : forall q, req_ok (origin last tr) q -> req_ok (origin last (tr ++ [x])) q).
  { intros q H. eapply Forall_impl; [|exact H]. intros r. apply origin_more. }
  assert (E : forall l, Forall (ev_ok (origin last tr)) l -> Forall (ev_ok (origin last (tr ++ [x]))) l).
  { intros l H. eapply Forall_impl; [|exact H]. intros e. apply origin_more. }
  split; [eapply Forall_impl; [|exact A]; exact R|]. split; [eapply Forall_impl; [|exact B]; exact R|]. split; [|exact D].
  destruct (e_loop s); cbn [loop_ok] in *; intuition.
Qed.

Lemma del_put_ok : forall (P : request -> Prop) n l, Forall P l -> Forall P (del_put n l).
Proof. intros P n l H. unfold del_put. apply Forall_forall. intros q I. apply filter_In in I. destruct I as [I _]. exact (proj1 (Forall_forall _ _) H q I). Qed.

Lemma find_put_ok : forall (P : request -> Prop) n l r, Forall P l -> find_put n l = Some r -> P r.
Proof. intros P n l r H E. unfold find_put in E. apply find_some in E. exact (proj1 (Forall_forall _ _) H r (proj1 E)). Qed.

Lemma asked_here : forall tr x r rs, fst x = ERegister rs -> In r (rq_events rs) -> asked (tr ++ [x]) r.
Proof. intros tr x r rs E I. left. exists rs. unfold ops_of. rewrite map_app. cbn. rewrite E. split; [apply in_or_app; right; now left|exact I]. Qed.

Lemma asked_now : forall tr x r rs, fst x = EProcessed rs -> In r rs -> asked (tr ++ [x]) r.
Proof. intros tr x r rs E I. right. exists rs. unfold ops_of. rewrite map_app. cbn. rewrite E. split; [apply in_or_app; right; now left|exact I]. Qed.


Lemma handed_replies : forall s a l, handed_in (flat_map (fun r => reply_to s a (rq_fut r)) l) = [].
Proof.
  intros s a l. induction l as [|r l IH]; [reflexivity|]. cbn [flat_map]. unfold handed_in in *. rewrite flat_map_app, IH, app_nil_r.
  unfold reply_to. destruct (memb (rq_fut r) (e_gone s)); reflexivity.
Qed.

Lemma shut_ok : forall last (P : reg_event -> Prop) s now, (forall r, engine_report last r -> P r) -> state_ok P (eid_server last) s ->
    state_ok P (eid_server last) (fst (shut s now)) /\ Forall (Forall (ev_ok P)) (handed_in (snd (shut s now))).
Proof.
  intros last P s now HP (A & B & C & D). unfold shut, create_event, create_session. cbn [fst snd eid_server eid_session eid_instance]. split.
  - repeat split; cbn; auto.
  - unfold handed_in. rewrite flat_map_app. fold (handed_in (flat_map (fun r => reply_to s Failed (rq_fut r)) (busy (e_loop s) ++ e_queue s))).
    rewrite handed_replies. cbn. constructor; [|constructor]. constructor; [|constructor]. apply HP.
    change (engine_report last (status_reg_event (eid_server (e_last s)) "STOPPED")). apply status_report; [now right|exact D].
Qed.

Lemma engine_step_ok : forall ms size last tr s o l s', state_ok (origin last tr) (eid_server last) s -> eexec ms size s o = Some (s', l) ->
    state_ok (origin last (tr ++ [(o, l)])) (eid_server last) s' /\ Forall (Forall (ev_ok (origin last (tr ++ [(o, l)])))) (handed_in l).
Proof.
  intros ms size last tr s o l s' S E. apply state_more with (x := (o, l)) in S.
  change (state_ok (origin last (tr ++ [(o, l)])) (eid_server last) s) in S.
  assert (HP : forall r, engine_report last r -> origin last (tr ++ [(o, l)]) r) by (intros r H; now right).
  assert (HA : forall rq, o = ERegister rq -> req_ok (origin last (tr ++ [(o, l)])) rq).
  { intros rq Ho. apply Forall_forall. intros r I. left. now apply asked_here with (rs := rq). }
  assert (HR : forall rs, o = EProcessed rs -> Forall (origin last (tr ++ [(o, l)])) rs).
  { intros rs Ho. apply Forall_forall. intros r I. left. now apply asked_now with (rs := rs). }
  pose proof S as S0. destruct S as (A & B & C & D). revert S0 A B C D HP HA HR. generalize (origin last (tr ++ [(o, l)])) as P. intros P S0 A B C D HP HA HR.
  destruct o; cbn [eexec] in E.
  - destruct (e_loop s); try discriminate. destruct (e_open s); [|discriminate]. injection E as <- <-. split; [|constructor]. repeat split; cbn; auto.
  - destruct (e_loop s); try discriminate. injection E as <- <-. split; [|constructor]. repeat split; cbn; auto.
  - destruct (memb (rq_fut r) (e_used s)); [discriminate|]. destruct (rq_events r) as [|x rs] eqn:R; injection E as <- <-.
    + split; [|constructor]. repeat split; cbn; auto.
    + split; [|constructor]. split; [|repeat split; cbn; auto]. cbn. apply Forall_app. split; [exact A|]. constructor; [now apply HA|constructor].
  - destruct (find_put n (e_put s)) as [r|] eqn:F; [|discriminate].
    destruct (e_qopen s); [destruct (Nat.ltb (List.length (e_queue s)) size); [|discriminate]|]; injection E as <- <-.
    + split; [|constructor]. split; [now apply del_put_ok|]. split; [|split; auto]. cbn. apply Forall_app. split; [exact B|].
      constructor; [now apply find_put_ok with (2 := F)|constructor].
    + split; [|constructor]. split; [now apply del_put_ok|]. repeat split; cbn; auto.
  - destruct (memb n (e_used s)); [|discriminate]. injection E as <- <-. split; [|constructor]. split; [now apply del_put_ok|]. repeat split; cbn; auto.
  - injection E as <- <-. split; [|constructor]. repeat split; cbn; auto.
  - destruct (e_loop s); try discriminate. destruct (e_queue s) as [|r q]; [discriminate|]. injection E as <- <-. inversion B; subst.
    split; [|constructor]. repeat split; cbn; auto.
  - destruct (e_loop s) as [| |r now ms0|r now all outs todo|r now all outs m todo|r all ms0|r all| |] eqn:L; try discriminate.
    + destruct ms0 as [|m l0].
      * cbn [loop_ok] in C. destruct (create_events (e_last s) now (rq_events r)) as [i es] eqn:K.
        pose proof (created_ok P (rq_events r) (e_last s) now C) as G. cbv zeta in G. rewrite K in G. cbn [fst snd] in G. destruct G as (G1 & G2).
        injection E as <- <-. split; [|constructor]. repeat split; cbn; auto. rewrite G2. exact D.
      * injection E as <- <-. split; [|constructor]. repeat split; cbn; auto.
    + destruct todo as [|[m [src e]] todo].
      * destruct outs; injection E as <- <-; (split; [|constructor]); repeat split; cbn; auto; apply C.
      * destruct outs as [|o0 outs]; match type of E with context [if ?b then _ else _] => destruct b end; injection E as <- <-;
          (split; [|constructor]); repeat split; cbn; auto; apply C.
    + destruct ms0 as [|m l0]; injection E as <- <-.
      * cbn [loop_ok] in C. split; [repeat split; cbn; auto; apply C|]. cbn. constructor; [apply C|constructor].
      * split; [|constructor]. repeat split; cbn; auto; apply C.
  - destruct (e_loop s) as [| |r now ms0|r now all outs todo|r now all outs m todo|r all ms0|r all| |] eqn:L; try discriminate.
    destruct (create_events (e_last s) now rs) as [i es] eqn:K. cbn [loop_ok] in C.
    pose proof (created_ok P rs (e_last s) now (HR rs eq_refl)) as G. cbv zeta in G. rewrite K in G. cbn [fst snd] in G. destruct G as (G1 & G2).
    injection E as <- <-. split; [|constructor]. split; [exact A|]. split; [exact B|]. split; [|cbn; rewrite G2; exact D].
    cbn. split; [apply C|]. apply Forall_app. split; [apply C|exact G1].
  - destruct (e_loop s) as [| |r now ms0|r now all outs todo|r now all outs m todo|r all ms0|r all| |] eqn:L; try discriminate.
    injection E as <- <-. split; [repeat split; cbn; auto|]. unfold reply_to. destruct (memb (rq_fut r) (e_gone s)); constructor.
  - pose proof (shut_ok last P s now HP S0) as G. destruct (shut s now) as [s2 l2]. cbn [fst snd] in G.
    destruct (e_loop s); try discriminate; injection E as <- <-; exact G.
  - pose proof (shut_ok last P s now HP S0) as G. destruct (shut s now) as [s2 l2]. cbn [fst snd] in G.
    destruct (e_open s); [discriminate|]. destruct (e_loop s); try discriminate; injection E as <- <-; exact G.
  - destruct (e_loop s); try discriminate. injection E as <- <-. split; [|constructor]. repeat split; cbn; auto.
Qed.

Lemma engine_origin : forall ms size last tr s, engine_run ms size last tr s ->
    state_ok (origin last tr) (eid_server last) s /\ Forall (Forall (ev_ok (origin last tr))) (handed tr).
Proof.
  intros ms size last tr s H. unfold engine_run in H. remember (estart last) as s0 eqn:E0. induction H as [s|s tr s1 o l s2 H IH E].
  - subst. split; [|constructor]. unfold estart. repeat split; cbn; auto. constructor; [|constructor]. constructor; [|constructor].
    right. apply status_report; [now left|reflexivity].
  - destruct (IH E0) as (A & B). destruct (engine_step_ok _ _ _ _ _ _ _ _ A E) as (C & D). split; [exact C|].
    unfold handed, outs_of, handed_in in *. rewrite !flat_map_app. apply Forall_app. split.
    + eapply Forall_impl; [|exact B]. intros es F. eapply Forall_impl; [|exact F]. intros e. apply origin_more.
    + cbn. rewrite app_nil_r. exact D.
Qed.

Lemma final_C70_engine : forall ms size last tr s es e, engine_run ms size last tr s -> In es (handed tr) -> In e es ->
    asked tr (reg_of e) \/ engine_report last (reg_of e).
Proof.
  intros ms size last tr s es e H I J. destruct (engine_origin _ _ _ _ _ H) as [_ F].
  exact (proj1 (Forall_forall _ _) (proj1 (Forall_forall _ _) F es I) e J).
Qed.

(** ** Connections *)

Lemma eventer_report : forall server i st, st = "CONNECTED" \/ st = "DISCONNECTED" ->
    reports events_eventer ["event"; NilZero.string_of_int (Z.to_int server); "eventer"; in_name i] (eventer_event server i st).
Proof.
  intros server i st H. split; [reflexivity|]. split; [reflexivity|]. eexists. split; [reflexivity|]. intros log_ok.
  destruct H as [->| ->]; reflexivity.
Qed.

Lemma accept_calls : forall s c conv i k rs, ~ In (EngineCall k rs) (snd (accept s c conv i)).
Proof. intros s c conv i k rs. unfold accept. destruct (is_up s c); cbn; [intros [H|[]]; discriminate|tauto]. Qed.
Lemma refuse_calls : forall s c conv k rs, ~ In (EngineCall k rs) (snd (refuse s c conv)).
Proof. intros s c conv k rs. unfold refuse. destruct (is_up s c); cbn; [intros [H|[]]; discriminate|tauto]. Qed.

Ltac crush_call E I :=
  repeat (match type of E with
          | context [match ?x with _ => _ end] => destruct x
          end; try discriminate);
  try (injection E as <- <-); cbn in I; intuition discriminate.

Lemma vexec_calls : forall server token s o s' l k rs, vexec server token s o = Some (s', l) -> In (EngineCall k rs) l ->
    (exists conv last, o = VRegister k conv last rs) \/
    (exists i r, rs = [r] /\ reports events_eventer ["event"; NilZero.string_of_int (Z.to_int server); "eventer"; in_name i] r).
Proof.
  intros server token s o s' l k rs E I. destruct o; cbn [vexec] in E; unfold fail, send in E.
  2: {
    destruct (phase_of s c); try discriminate. destruct (py_create (ir_subs req)) as [sub|].
    2: { injection E as E. pose proof (refuse_calls s c conv k rs) as N. rewrite E in N. now apply N in I. }
    match type of E with (if ?b then _ else _) = _ => destruct b end.
    { injection E as E. pose proof (refuse_calls s c conv k rs) as N. rewrite E in N. now apply N in I. }
    match type of E with (if ?b then _ else _) = _ => destruct b end.
    - injection E as <- <-. destruct I as [I|[]]. injection I as <- <-. right. eexists _, _. split; [reflexivity|]. apply eventer_report. now left.
    - injection E as E. match type of E with accept _ _ _ ?i = _ => pose proof (accept_calls s c conv i k rs) as N end. rewrite E in N. now apply N in I. }
  2: {
    destruct (phase_of s c) as [|conv i| | | | | |]; try discriminate. destruct ok; injection E as E.
    - pose proof (accept_calls s c conv i k rs) as N. rewrite E in N. now apply N in I.
    - pose proof (refuse_calls s c conv k rs) as N. rewrite E in N. now apply N in I. }
  4: {
    destruct (phase_of s c) as [| | |i| | | |]; try discriminate. destruct (v_engine s).
    - injection E as <- <-. destruct I as [I|[]]. injection I as <- <-. left. eauto.
    - destruct last; [injection E as <- <-; destruct I|]. destruct (is_up s c); injection E as <- <-; cbn in I; intuition discriminate. }
  10: {
    destruct (phase_of s c) as [| | | | | |i|]; try discriminate. injection E as <- <-. destruct (v_engine s && eopen); [|destruct I].
    destruct I as [I|[]]. injection I as <- <-. right. eexists _, _. split; [reflexivity|]. apply eventer_report. now right. }
  all: crush_call E I.
Qed.

Lemma final_C70_eventer : forall server token tr s o l k rs, vruns server token vstart tr s -> In (o, l) tr -> In (EngineCall k rs) l ->
    (exists conv last, o = VRegister k conv last rs) \/
    (exists name r, rs = [r] /\ reports events_eventer ["event"; NilZero.string_of_int (Z.to_int server); "eventer"; name] r).
Proof.
  intros server token tr s o l k rs H I J. induction H as [|s tr s1 o1 l1 s2 H IH E]; [destruct I|].
  apply in_app_or in I. destruct I as [I|[I|[]]]; [now apply IH|]. injection I as -> ->.
  destruct (vexec_calls _ _ _ _ _ _ _ _ E J) as [A|(i & r & A & B)]; [now left|]. right. eauto.
Qed.

(** ** Synchronization *)

Lemma final_C70_synced : forall server remote st count,
    reports events_synced ["event"; NilZero.string_of_int (Z.to_int server); "synced"; NilZero.string_of_int (Z.to_int remote)]
            (synced_event server remote st count).
Proof.
  intros server remote st count. split; [reflexivity|]. split; [reflexivity|]. eexists. split; [reflexivity|]. intros log_ok.
  destruct st, count; reflexivity.
Qed.

(** ** Data of the monitor *)

Lemma data_conforms : forall log_ok j,
    validates log_ok monitor_data_yaml j = true <->
    (is_object j /\ has j "server_id" is_integer /\ has j "eventer_server" address /\ has j "server_token" string_or_null).
Proof.
  intros log_ok j. 
  assert (H : 3 <= 3 * jdepth j + 8) by lia. exact (proj2 (validation_of log_ok monitor_data_yaml j _ (d_data (fun _ => log_ok) _ j H))).
Qed.

Lemma final_C70_monitor_data : forall log_ok j c es, validates log_ok server_yaml j = true -> read_server j = Some c -> member j "eventer_server" es ->
    validates log_ok monitor_data_yaml (monitor_data c es) = true.
Proof.
  intros log_ok j c es V R M. apply data_conforms.
  destruct (final_C69_server log_ok j V) as (c' & R' & S). assert (c' = c) by congruence. subst c'. clear R'.
  apply (proj2 (final_C69_server_form log_ok j)) in V. destruct V as (_ & (_ & _ & _ & _ & F) & _).
  destruct F as (es' & M' & F). rewrite (member_fun _ _ _ _ M' M) in F.
  destruct S as (_ & (_ & I) & _). unfold monitor_data. split; [eexists; reflexivity|]. split.
  - exists (sv_id c). split; [|exact I]. eexists. split; reflexivity.
  - split.
    + exists es. split; [|exact F]. eexists. split; reflexivity.
    + eexists. split; [eexists; split; reflexivity|]. destruct (sv_token c); [left; eexists; reflexivity|now right].
Qed.

Lemma jfield_member : forall j k v, member j k v -> jfield k j = v.
Proof. intros j k v (o & -> & E). unfold jfield. now rewrite E. Qed.

Lemma integer_int : forall j n, is_integer j -> as_int j = Some n <-> j = JInt n.
Proof.
  intros j n (z & [(y & -> & _)|(m & e & -> & _)]); cbn; split; intros H; try discriminate; congruence.
Qed.

Lemma final_C70_peers : forall log_ok j c es group mine own i, validates log_ok server_yaml j = true -> read_server j = Some c ->
    member j "eventer_server" es -> publishes c es group own i -> forall d,
    server_of group mine own i = Some d <->
    sv_id c = JInt (sd_id d) /\ sv_host c = sd_host d /\ sv_port c = JInt (sd_port d) /\ same_token mine c.
Proof.
  intros log_ok j c es group mine own i V R M (P1 & P2 & P3) d.
  destruct (final_C69_server log_ok j V) as (c' & R' & S). assert (c' = c) by congruence. subst c'. clear R'.
  destruct S as (_ & (_ & Ii) & _ & _ & _ & ((a & Ma & Ha & Hp) & Ip) & _). rewrite (member_fun _ _ _ _ Ma M) in *.
  unfold server_of. rewrite P3, P1, P2. cbn [opt_eqb orb]. rewrite String.eqb_refl. cbn [negb].
  unfold monitor_data. cbn [jfield dget String.eqb Ascii.eqb Bool.eqb].
  assert (T : as_token (match sv_token c with Some t => JStr t | None => JNull end) = Some (sv_token c)) by (destruct (sv_token c); reflexivity).
  assert (J1 : jfield "server_id" (JObj [("server_id", sv_id c); ("eventer_server", es); ("server_token", match sv_token c with Some t => JStr t | None => JNull end)]) = sv_id c) by reflexivity.
  assert (J2 : jfield "eventer_server" (JObj [("server_id", sv_id c); ("eventer_server", es); ("server_token", match sv_token c with Some t => JStr t | None => JNull end)]) = es) by reflexivity.
  assert (J3 : jfield "server_token" (JObj [("server_id", sv_id c); ("eventer_server", es); ("server_token", match sv_token c with Some t => JStr t | None => JNull end)]) = match sv_token c with Some t => JStr t | None => JNull end) by reflexivity.
  rewrite ?J1, ?J2, ?J3, T, (jfield_member _ _ _ Ha), (jfield_member _ _ _ Hp). cbn [as_str].
  assert (TK : (match mine with Some _ => opt_eqb String.eqb (sv_token c) mine | None => true end) = true <-> same_token mine c).
  { unfold same_token. destruct mine as [t|].
    - destruct (sv_token c) as [u|]; cbn.
      + rewrite String.eqb_eq. split; [intros -> t' H; exact H|intros H; specialize (H t eq_refl); congruence].
      + split; [discriminate|intros H; specialize (H t eq_refl); discriminate].
    - split; [discriminate|reflexivity]. }
  rewrite <- TK. destruct (as_int (sv_id c)) as [n|] eqn:N.
  - apply (integer_int _ _ Ii) in N. destruct (as_int (sv_port c)) as [p|] eqn:Q.
    + apply (integer_int _ _ Ip) in Q. rewrite N, Q. destruct mine as [t|].
      * destruct (opt_eqb String.eqb (sv_token c) (Some t)).
        -- split; [intros H; injection H as <-; cbn; auto|intros (A & B & C & _); destruct d; cbn in *; congruence].
        -- split; [discriminate|intros (_ & _ & _ & H); discriminate].
      * split; [intros H; injection H as <-; cbn; auto|intros (A & B & C & _); destruct d; cbn in *; congruence].
    + split; [discriminate|]. intros (_ & _ & C & _). rewrite C in Q. discriminate.
  - split; [discriminate|]. intros (A & _). rewrite A in N. discriminate.
Qed.

(** Data that conform and are ignored. *)
Lemma final_C70_refuted : forall log_ok, exists j c es i group,
    validates log_ok server_yaml j = true /\ read_server j = Some c /\ member j "eventer_server" es /\ publishes c es group None i /\
    same_token None c /\ validates log_ok monitor_data_yaml (mi_data i) = true /\ server_of group None None i = None.
Proof.
  intros log_ok.
  set (es := JObj [("host", JStr "127.0.0.1"); ("port", JInt 23012)]).
  set (j := JObj [("name", JStr "event"); ("server_id", JFloat 1 0); ("backend", JObj [("module", JStr "hat.event.backends.memory")]);
                  ("modules", JArr []); ("eventer_server", es)]).
  set (c := ServerConf "event" (JFloat 1 0) None "hat.event.backends.memory" (JObj [("module", JStr "hat.event.backends.memory")]) []
                       "127.0.0.1" (JInt 23012) None None None).
  exists j, c, es, (Minfo 1 1 (Some "event") (Some "group") (monitor_data c es) 1 None None), "group".
  repeat apply conj; try reflexivity.
  - eexists. split; reflexivity.
  - intros t H. discriminate.
Qed.
