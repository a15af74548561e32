(** Concrete server processes, used by examples. *)
From Coq Require Import String Bool ZArith Arith Lia Sorted List.
From Verif Require Import Base Model_Types Model_Subscription Model_Codec Model_Lmdb Model_LmdbSys Spec_Lmdb Spec_LmdbContent Spec_LmdbQuery Spec_LmdbTs Proof_Lmdb8 Ex_Lmdb Ex_LmdbTs
  Model_Engine Spec_Engine Proof_Engine Ex_Engine Model_Eventer Spec_Eventer Ex_Eventer Model_Service Spec_Service Proof_Service2.
Import ListNotations.
Open Scope string_scope.
Open Scope list_scope.
Open Scope nat_scope.

(** Steps of the engine (and the backend, for a batch), of the backend, of the
    server (with the number for a call), answers to a connection. *)
Inductive gop := GE (o : eop) | GB (o : op) | GV (o : vop) (n : nat) | GA (c : nat).

Definition elsewhereb (srv : Z) (used : list nat) (o : op) : bool :=
  match o with
  | ORegister es => forallb (fun e => negb (eid_server (ev_id e) =? srv)%Z) es
  | OServer q _ | OTs q _ => negb (memb q used)
  | OReopen _ => false
  | _ => true
  end.
Lemma memb_not : forall q l, negb (memb q l) = true -> ~ In q l.
Proof.
  intros q l H Hi. apply negb_true_iff in H. unfold memb in H. assert (E : existsb (Nat.eqb q) l = true) by (apply existsb_exists; exists q; split; [exact Hi|apply Nat.eqb_refl]). congruence.
Qed.
Lemma elsewhereb_ok : forall srv used o, elsewhereb srv used o = true -> elsewhere srv used o.
Proof.
  intros srv used o H. destruct o; cbn in *; auto; try discriminate; try (now apply memb_not).
  apply Forall_forall. intros e Hi. rewrite forallb_forall in H. specialize (H e Hi). apply negb_true_iff, Z.eqb_neq in H. exact H.
Qed.

Definition reply_of (n : nat) (l : list eout) : option (list event) :=
  match find (fun x => match x with Reply m (Events _) => Nat.eqb m n | _ => false end) l with Some (Reply _ (Events es)) => Some es | _ => None end.
Lemma reply_of_ok : forall n l es, reply_of n l = Some es -> In (Reply n (Events es)) l.
Proof.
  intros n l es H. unfold reply_of in H. destruct (find _ l) as [x|] eqn:E; [|discriminate]. apply find_some in E as [E1 E2].
  destruct x as [| | | | |m []]; try discriminate. apply Nat.eqb_eq in E2 as ->. now injection H as ->.
Qed.

Definition free_op (o : vop) : bool := match o with VRegistered _ _ | VQueried _ _ => false | _ => true end.

Record gstate := GState { g_tr : list pstep; g_w : list (nat * call); g_e : estate; g_b : sys; g_v : vstate }.

Definition gstep (O : oracle) (ms : list node) (srv : Z) (tr0 : list (op * out)) (g : gstate) (x : gop) : option gstate :=
  match x with
  | GE o =>
      match eexec ms 5 (g_e g) o with
      | None => None
      | Some (e', l) =>
          match handed_in l with
          | [] => match o with
                  | ERegistered false => None
                  | _ => Some (GState (g_tr g ++ [SEngine (o, l)]) (g_w g) e' (g_b g) (g_v g))
                  end
          | [es] => if forallb event_okb es then
                      match exec O (g_b g) (ORegister es) with
                      | None => None
                      | Some (b', a) => Some (GState (g_tr g ++ [SBatch (o, l) (ORegister es, a)]) (g_w g) e' b' (g_v g))
                      end
                    else None
          | _ => None
          end
      end
  | GB o =>
      if elsewhereb srv (queries_of (tr0 ++ backend_part (g_tr g))) o && forallb event_okb (op_events [o]) then
        match exec O (g_b g) o with
        | None => None
        | Some (b', a) => Some (GState (g_tr g ++ [SBackend (o, a)]) (settle o a (g_w g)) (g_e g) b' (g_v g))
        end
      else None
  | GV o n =>
      if free_op o then
        match vexec srv (Some "secret") (g_v g) o with
        | None => None
        | Some (v', l) =>
            match engine_calls l, query_calls l with
            | [], [] => Some (GState (g_tr g ++ [SServer (o, l)]) (g_w g) (g_e g) (g_b g) v')
            | [(c, rs)], _ =>
                let r := Request n (Source EVENTER (Z.of_nat c)) rs in
                match eexec ms 5 (g_e g) (ERegister r) with
                | None => None
                | Some (e', k) => Some (GState (g_tr g ++ [SRegister (o, l) (ERegister r, k)]) (nset c (Registering n) (g_w g)) e' (g_b g) v')
                end
            | [], [(c, p)] =>
                if negb (memb n (queries_of (tr0 ++ backend_part (g_tr g)))) then
                  match exec O (g_b g) (query_op p n) with
                  | None => None
                  | Some (b', a) => Some (GState (g_tr g ++ [SQuery (o, l) (query_op p n, a)]) (nset c (outcome n a) (g_w g)) (g_e g) b' v')
                  end
                else None
            | _, _ => None
            end
        end
      else None
  | GA c =>
      let o := match nget c (g_w g) with
               | Some (Registering n) => match reply_of n (outs_of (engine_part (g_tr g))) with Some es => Some (VRegistered c (Some es)) | None => None end
               | Some (Found (Some r)) => Some (VQueried c r)
               | _ => None
               end in
      match o with
      | None => None
      | Some o =>
          match vexec srv (Some "secret") (g_v g) o with
          | None => None
          | Some (v', l) => match engine_calls l, query_calls l with
                            | [], [] => Some (GState (g_tr g ++ [SServer (o, l)]) (g_w g) (g_e g) (g_b g) v')
                            | _, _ => None
                            end
          end
      end
  end.

Fixpoint gplay (O : oracle) (ms : list node) (srv : Z) (tr0 : list (op * out)) (g : gstate) (ops : list gop) : option gstate :=
  match ops with
  | [] => Some g
  | x :: ops' => match gstep O ms srv tr0 g x with None => None | Some g' => gplay O ms srv tr0 g' ops' end
  end.

Definition good (O : oracle) (cf : conf) (ms : list node) (srv : Z) (last : event_id) (tr0 : list (op * out)) (vtr0 : list vitem) (g : gstate) : Prop :=
  process srv tr0 (g_tr g) (g_w g) false /\ engine_run ms 5 last (engine_part (g_tr g)) (g_e g) /\ execution O cf (tr0 ++ backend_part (g_tr g)) (g_b g) /\
  server_run srv (Some "secret") (vtr0 ++ server_part (g_tr g)) (g_v g).

Lemma add_op : forall O cf T s o x s', execution O cf T s -> exec O s o = Some (s', x) -> op_confs [o] = [] -> forallb event_okb (op_events [o]) = true ->
    execution O cf (T ++ [(o, x)]) s'.
Proof.
  intros O cf T s o x s' H He Hc Hv. apply execution_snoc. exists s. split; [exact H|]. split; [exact He|]. split.
  - unfold confs_of, op_confs in *. cbn in *. rewrite Hc. constructor.
  - unfold events_of, op_events in *. cbn in *. apply Forall_forall. intros e Hi. apply event_okb_ok. rewrite forallb_forall in Hv. auto.
Qed.
Lemma no_op : forall O cf (T : list (op * out)) s, execution O cf T s -> execution O cf (T ++ []) s.
Proof. intros. now rewrite app_nil_r. Qed.
Lemma no_estep : forall ms last T s, engine_run ms 5 last T s -> engine_run ms 5 last (T ++ []) s.
Proof. intros. now rewrite app_nil_r. Qed.
Lemma no_vstep : forall srv T s, server_run srv (Some "secret") T s -> server_run srv (Some "secret") (T ++ []) s.
Proof. intros. now rewrite app_nil_r. Qed.

Lemma gstep_ok : forall O cf ms srv last tr0 vtr0 g x g', gstep O ms srv tr0 g x = Some g' -> good O cf ms srv last tr0 vtr0 g -> good O cf ms srv last tr0 vtr0 g'.
Proof.
  intros O cf ms srv last tr0 vtr0 [tr w e b v] x g' H (HP & HE & HB & HV). cbn [g_tr g_w g_e g_b g_v] in *. destruct x as [o|o|o n|c]; cbn [gstep g_tr g_w g_e g_b g_v] in H.
  - destruct (eexec ms 5 e o) as [[e' l]|] eqn:Ee; [|discriminate]. destruct (handed_in l) as [|es [|]] eqn:Eh; [| |discriminate].
    + assert (G : g' = GState (tr ++ [SEngine (o, l)]) w e' b v /\ o <> ERegistered false) by (destruct o; try (destruct some); try discriminate; injection H as <-; split; congruence).
      destruct G as [-> Ho]. unfold good. cbn [g_tr g_w g_e g_b g_v]. rewrite ep_app, bp_app, sp_app. cbn [engine_part backend_part server_part flat_map app].
      split; [|split; [|split]].
      * apply process_engine; auto. intros ok ->. split; [destruct ok; congruence|reflexivity].
      * unfold engine_run in *. eapply eruns_snoc; eauto.
      * rewrite app_assoc. now apply no_op.
      * rewrite app_assoc. now apply no_vstep.
    + destruct (forallb event_okb es) eqn:Eo; [|discriminate]. destruct (exec O b (ORegister es)) as [[b' a]|] eqn:Ex; [|discriminate]. injection H as <-.
      unfold good. cbn [g_tr g_w g_e g_b g_v]. rewrite ep_app, bp_app, sp_app. cbn [engine_part backend_part server_part flat_map app]. split; [|split; [|split]].
      * now apply process_batch.
      * unfold engine_run in *. eapply eruns_snoc; eauto.
      * rewrite app_assoc. eapply add_op; eauto. cbn. now rewrite app_nil_r.
      * rewrite app_assoc. now apply no_vstep.
  - destruct (_ && _) eqn:E; [|discriminate]. apply andb_prop in E as [E1 E2]. destruct (exec O b o) as [[b' a]|] eqn:Ex; [|discriminate]. injection H as <-.
    unfold good. cbn [g_tr g_w g_e g_b g_v]. rewrite ep_app, bp_app, sp_app. cbn [engine_part backend_part server_part flat_map app]. split; [|split; [|split]].
    + apply process_backend; auto. now apply elsewhereb_ok.
    + now apply no_estep.
    + rewrite app_assoc. eapply add_op; eauto. destruct o; cbn in E1; try discriminate; reflexivity.
    + rewrite app_assoc. now apply no_vstep.
  - destruct (free_op o) eqn:Ef; [|discriminate]. destruct (vexec srv (Some "secret") v o) as [[v' l]|] eqn:Ev; [|discriminate].
    destruct (engine_calls l) as [|[c rs] [|]] eqn:Ec; [destruct (query_calls l) as [|[c p] [|]] eqn:Eq; [| |discriminate]| |discriminate].
    + injection H as <-. unfold good. cbn [g_tr g_w g_e g_b g_v]. rewrite ep_app, bp_app, sp_app. cbn [engine_part backend_part server_part flat_map app]. split; [|split; [|split]].
      * apply process_server; auto. destruct o; try discriminate; exact I.
      * now apply no_estep.
      * rewrite app_assoc. now apply no_op.
      * rewrite app_assoc. unfold server_run in *. econstructor; eauto.
    + destruct (negb _) eqn:En; [|discriminate]. destruct (exec O b (query_op p n)) as [[b' a]|] eqn:Ex; [|discriminate]. injection H as <-.
      unfold good. cbn [g_tr g_w g_e g_b g_v]. rewrite ep_app, bp_app, sp_app. cbn [engine_part backend_part server_part flat_map app]. split; [|split; [|split]].
      * apply process_query; auto. now apply memb_not.
      * now apply no_estep.
      * rewrite app_assoc. eapply add_op; eauto; destruct p; reflexivity.
      * rewrite app_assoc. unfold server_run in *. econstructor; eauto.
    + destruct (eexec ms 5 e _) as [[e' k]|] eqn:Ee; [|discriminate]. injection H as <-. unfold good. cbn [g_tr g_w g_e g_b g_v]. rewrite ep_app, bp_app, sp_app.
      cbn [engine_part backend_part server_part flat_map app]. split; [|split; [|split]].
      * now apply process_register with (rs := rs).
      * unfold engine_run in *. eapply eruns_snoc; eauto.
      * rewrite app_assoc. now apply no_op.
      * rewrite app_assoc. unfold server_run in *. econstructor; eauto.
  - set (oo := match nget c w with Some (Registering n) => _ | _ => _ end) in H. destruct oo as [o|] eqn:Eo; [|discriminate].
    destruct (vexec srv (Some "secret") v o) as [[v' l]|] eqn:Ev; [|discriminate].
    destruct (engine_calls l) eqn:Ec; [|discriminate]. destruct (query_calls l) eqn:Eq; [|discriminate]. injection H as <-.
    unfold good. cbn [g_tr g_w g_e g_b g_v]. rewrite ep_app, bp_app, sp_app. cbn [engine_part backend_part server_part flat_map app]. split; [|split; [|split]].
    + apply process_server; auto. unfold oo in Eo. destruct (nget c w) as [[n|q|[r|]]|] eqn:En; try discriminate.
      * destruct (reply_of n _) as [es|] eqn:Er; [|discriminate]. injection Eo as <-. cbn [fits]. rewrite En. exists (Events es). split; [now apply reply_of_ok|reflexivity].
      * injection Eo as <-. cbn [fits]. now rewrite En.
    + now apply no_estep.
    + rewrite app_assoc. now apply no_op.
    + rewrite app_assoc. unfold server_run in *. econstructor; eauto.
Qed.

Lemma gplay_ok : forall O cf ms srv last tr0 vtr0 ops g g', gplay O ms srv tr0 g ops = Some g' -> good O cf ms srv last tr0 vtr0 g -> good O cf ms srv last tr0 vtr0 g'.
Proof.
  intros O cf ms srv last tr0 vtr0. induction ops as [|x ops IH]; intros g g' H G; cbn [gplay] in H; [now injection H as <-|].
  destruct (gstep O ms srv tr0 g x) as [g1|] eqn:E; [|discriminate]. eapply IH; eauto. eapply gstep_ok; eauto.
Qed.

(** An event was stored before.  Two clients are connected before the engine
    starts. *)
Definition sv_conf : conf := mk_conf "0.9" (Some "id") (fun _ => true) [["*"]] [(TIMESTAMP, [["*"]], None)] 10.
Lemma sv_conf_ok : conf_ok sv_conf.
Proof. apply conf_ok_of; reflexivity. Qed.
Lemma sv_made : Spec_LmdbTs.made sv_conf.
Proof. now apply made_of. Qed.
Definition sv_ops0 : list op := [ORegister [ev 1 3 1 ["a"] 5 None]; OFlush; OWork].
Definition sv_tr0 := trace_of (plays ex_oracle sv_conf sv_ops0).
Definition sv_s0 := end_of sv_conf (plays ex_oracle sv_conf sv_ops0).
Lemma sv_run0 : execution ex_oracle sv_conf sv_tr0 sv_s0.
Proof.
  apply played'; [vm_compute; reflexivity| |vm_compute; reflexivity].
  apply Forall_cons; [apply sv_conf_ok|apply Forall_nil].
Qed.
Definition sv_vops0 : list vop := [VSetStatus 1 STARTING false; VStatusDone 1; VAccept; VAccept; VInit 1 10 vreq1 true; VInit 2 11 (InitReq "two" None [["*"]] None false) true].
Definition sv_vtr0 := vtrace sv_vops0.
Definition sv_v0 := vend sv_vops0.
Lemma sv_vrun0 : server_run 1 (Some "secret") sv_vtr0 sv_v0.
Proof. apply vplayed. vm_compute. reflexivity. Qed.

Definition sv_last : event_id := Eid 1 3 1.
Lemma sv_last_ok : get_last_event_id (m_sys (s_mem sv_s0)) 1 = sv_last.
Proof. vm_compute. reflexivity. Qed.

Definition sv_start : gstate := GState [] [] (estart sv_last) sv_s0 sv_v0.
Definition sv_plays (ops : list gop) : option gstate := gplay ex_oracle [] 1 sv_tr0 sv_start ops.
Definition sv_trace (ops : list gop) : list pstep := match sv_plays ops with Some g => g_tr g | None => [] end.
Lemma sv_played : forall ops, (if sv_plays ops then true else false) = true ->
    service ex_oracle sv_conf sv_tr0 sv_vtr0 1 (Some "secret") [] 5 (sv_trace ops).
Proof.
  intros ops H. unfold sv_trace. destruct (sv_plays ops) as [g|] eqn:E; [|discriminate].
  destruct (gplay_ok _ sv_conf _ _ sv_last _ sv_vtr0 _ _ _ E) as (HP & HE & HB & HV).
  - split; [apply process_start|]. split; [constructor|]. split.
    + cbn. rewrite app_nil_r. exact sv_run0.
    + cbn. rewrite app_nil_r. exact sv_vrun0.
  - split; [eauto|]. split; [|split; eauto]. exists sv_s0, (g_e g). split; [exact sv_run0|]. rewrite sv_last_ok. exact HE.
Qed.

(** The engine starts and the server gets to know it. *)
Definition sv_begin : list gop :=
  [GE EBegin; GE (EGet (Ts 10 0)); GE EStep; GE EStep; GE EStep; GE (ERegistered true); GV (VSetStatus 2 OPERATIONAL true) 0;
   GV (VStatusStep 2) 0; GV (VStatusStep 2) 0; GV (VStatusDone 2) 0].
(** Client 1 registers events while an event of another server is registered,
    and is answered. *)
Definition sv_rs : list reg_event := [rg ["a"]; rg ["b"]].
Definition sv_register (last : bool) : list gop := [GV (VRegister 1 20 last sv_rs) 1].
Definition sv_serve (t : Z) : list gop :=
  [GE (EPut 1); GB (ORegister [ev 2 1 1 ["a"] 9 None]); GE (EGet (Ts t 0)); GE EStep; GE EStep; GE EStep; GE (ERegistered true)].
Definition sv_e1 (t : Z) : event := Ev (Eid 1 5 1) ["a"] (Ts t 0) None None.
Definition sv_e2 (t : Z) : event := Ev (Eid 1 5 2) ["b"] (Ts t 0) None None.
Definition sv_started : event := Ev (Eid 1 4 1) ["event"; "1"; "engine"] (Ts 10 0) None (Some (PJson (JStr "STARTED"))).
Definition sv_es (t : Z) : list event := [sv_e1 t; sv_e2 t].

(** The parts of what happens. *)
Definition sv_A : list pstep := sv_trace sv_begin.
Definition sv_asked (last : bool) : pstep :=
  SRegister (VRegister 1 20 last sv_rs, [EngineCall 1 sv_rs]) (ERegister (Request 1 (Source EVENTER 1) sv_rs), []).
Definition sv_B (t : Z) : list pstep := skipn 11 (sv_trace (sv_begin ++ sv_register false ++ sv_serve t)).
Definition sv_answer (t : Z) : pstep := SServer (VRegistered 1 (Some (sv_es t)), [Sent 1 (MRegisterRes 20 (Some (sv_es t)))]).
Definition sv_silent (t : Z) : pstep := SServer (VRegistered 1 (Some (sv_es t)), []).
Definition sv_later : list gop := [GB (ORegister [ev 2 1 2 ["a"] 20 None])].
Definition sv_C : list pstep := [SBackend (ORegister [ev 2 1 2 ["a"] 20 None], Quiet)].
Definition sv_find (c : nat) (p : query_params) (x : op * out) : pstep := SQuery (VQuery c 30 p, [QueryCall c p]) x.
Definition sv_found (c : nat) (r : query_result) : pstep := SServer (VQueried c r, [Sent c (MQueryRes 30 r)]).

Definition sv_latest : query_result := QRes [ev 2 1 2 ["a"] 20 None; sv_started; sv_e2 11] false.
Definition sv_all : query_latest := QLatest None.
Lemma sv_run_latest : service ex_oracle sv_conf sv_tr0 sv_vtr0 1 (Some "secret") [] 5
    ((sv_A ++ sv_asked false :: sv_B 11 ++ sv_answer 11 :: sv_C) ++ sv_find 2 (QPLatest sv_all) (OLatest sv_all, Answer (Some sv_latest)) :: [] ++ [sv_found 2 sv_latest]).
Proof.
  replace ((sv_A ++ _) ++ _) with (sv_trace (sv_begin ++ sv_register false ++ sv_serve 11 ++ GA 1 :: sv_later ++ [GV (VQuery 2 30 (QPLatest sv_all)) 0; GA 2])) by (vm_compute; reflexivity).
  apply sv_played. vm_compute. reflexivity.
Qed.

(** The same for one client that does not want an answer. *)
Lemma sv_run_own : service ex_oracle sv_conf sv_tr0 sv_vtr0 1 (Some "secret") [] 5
    ((sv_A ++ sv_asked true :: sv_B 11 ++ sv_silent 11 :: sv_C) ++ sv_find 1 (QPLatest sv_all) (OLatest sv_all, Answer (Some sv_latest)) :: [] ++ [sv_found 1 sv_latest]).
Proof.
  replace ((sv_A ++ _) ++ _) with (sv_trace (sv_begin ++ sv_register true ++ sv_serve 11 ++ GA 1 :: sv_later ++ [GV (VQuery 1 30 (QPLatest sv_all)) 0; GA 1])) by (vm_compute; reflexivity).
  apply sv_played. vm_compute. reflexivity.
Qed.

(** Server query and timeseries query. *)
Definition sv_server : query_server := QServer 1 false (Some 3%Z) (Some (Eid 1 3 1)).
Definition sv_events : query_result := QRes [sv_started; sv_e1 11; sv_e2 11] false.
Definition sv_D (x : out) : list pstep := [SBackend (OWork, Quiet); SBackend (ODeliver 0, x)].
Lemma sv_run_server : service ex_oracle sv_conf sv_tr0 sv_vtr0 1 (Some "secret") [] 5
    ((sv_A ++ sv_asked false :: sv_B 11 ++ sv_answer 11 :: sv_C) ++ sv_find 2 (QPServer sv_server) (OServer 0 sv_server, Quiet) ::
       sv_D (Answer (Some sv_events)) ++ [sv_found 2 sv_events]).
Proof.
  replace ((sv_A ++ _) ++ _) with (sv_trace (sv_begin ++ sv_register false ++ sv_serve 11 ++ GA 1 :: sv_later ++
    [GV (VQuery 2 30 (QPServer sv_server)) 0; GB OWork; GB (ODeliver 0); GA 2])) by (vm_compute; reflexivity).
  apply sv_played. vm_compute. reflexivity.
Qed.

Definition sv_ts : query_timeseries := QTimeseries (Some [["a"]]) None None None None ASCENDING TIMESTAMP None None.
Definition sv_series : query_result := QRes [ev 1 3 1 ["a"] 5 None; ev 2 1 1 ["a"] 9 None; sv_e1 11; ev 2 1 2 ["a"] 20 None] false.
Lemma sv_run_ts : service ex_oracle sv_conf sv_tr0 sv_vtr0 1 (Some "secret") [] 5
    ((sv_A ++ sv_asked false :: sv_B 11 ++ sv_answer 11 :: sv_C) ++ sv_find 2 (QPTimeseries sv_ts) (OTs 0 sv_ts, Quiet) ::
       sv_D (Answer (Some sv_series)) ++ [sv_found 2 sv_series]).
Proof.
  replace ((sv_A ++ _) ++ _) with (sv_trace (sv_begin ++ sv_register false ++ sv_serve 11 ++ GA 1 :: sv_later ++
    [GV (VQuery 2 30 (QPTimeseries sv_ts)) 0; GB OWork; GB (ODeliver 0); GA 2])) by (vm_compute; reflexivity).
  apply sv_played. vm_compute. reflexivity.
Qed.

(** A flush after the answer. *)
Definition sv_flush : list pstep := [SBackend (OFlush, Quiet); SBackend (OWork, Wrote)].
Lemma sv_run_flush : service ex_oracle sv_conf sv_tr0 sv_vtr0 1 (Some "secret") [] 5 ((sv_A ++ sv_asked false :: sv_B 11 ++ [sv_answer 11]) ++ sv_flush).
Proof.
  replace ((sv_A ++ _) ++ _) with (sv_trace (sv_begin ++ sv_register false ++ sv_serve 11 ++ [GA 1; GB OFlush; GB OWork])) by (vm_compute; reflexivity).
  apply sv_played. vm_compute. reflexivity.
Qed.
Definition sv_crash : list (op * out) := [(OReopen sv_conf, Quiet)].
Lemma sv_run_crash : exists s, execution ex_oracle sv_conf (sv_tr0 ++ backend_part ((sv_A ++ sv_asked false :: sv_B 11 ++ [sv_answer 11]) ++ sv_flush) ++ sv_crash) s.
Proof.
  destruct sv_run_flush as (_ & _ & (s & H) & _). rewrite app_assoc. unfold sv_crash.
  assert (E : exists s', exec ex_oracle (end_of sv_conf (plays ex_oracle sv_conf (map fst (sv_tr0 ++ backend_part ((sv_A ++ sv_asked false :: sv_B 11 ++ [sv_answer 11]) ++ sv_flush))))) (OReopen sv_conf) = Some (s', Quiet)).
  { eexists. vm_compute. reflexivity. }
  destruct E as [s' E]. exists s'. apply execution_snoc. eexists. split; [|split; [exact E|split; [constructor; [apply sv_conf_ok|constructor]|constructor]]].
  clear. match goal with |- execution _ _ ?t (end_of _ (plays _ _ ?o)) => replace t with (trace_of (plays ex_oracle sv_conf o)) by (vm_compute; reflexivity) end.
  apply played'; [vm_compute; reflexivity| |vm_compute; reflexivity]. constructor; [apply sv_conf_ok|]. vm_compute. constructor.
Qed.

(** The same with a partition that takes the first event only, a flush after the
    answer, and a query for what is in the database. *)
Definition sn_conf : conf := mk_conf "0.9" (Some "id") (fun _ => true) [["*"]] [(TIMESTAMP, [["a"]], None)] 10.
Definition sn_tr0 := trace_of (plays ex_oracle sn_conf sv_ops0).
Definition sn_s0 := end_of sn_conf (plays ex_oracle sn_conf sv_ops0).
Lemma sn_run0 : execution ex_oracle sn_conf sn_tr0 sn_s0.
Proof.
  apply played'; [vm_compute; reflexivity| |vm_compute; reflexivity].
  apply Forall_cons; [apply conf_ok_of; reflexivity|apply Forall_nil].
Qed.
Definition sn_plays (ops : list gop) : option gstate := gplay ex_oracle [] 1 sn_tr0 (GState [] [] (estart sv_last) sn_s0 sv_v0) ops.
Definition sn_trace (ops : list gop) : list pstep := match sn_plays ops with Some g => g_tr g | None => [] end.
Lemma sn_last_ok : get_last_event_id (m_sys (s_mem sn_s0)) 1 = sv_last.
Proof. vm_compute. reflexivity. Qed.
Lemma sn_played : forall ops, (if sn_plays ops then true else false) = true ->
    service ex_oracle sn_conf sn_tr0 sv_vtr0 1 (Some "secret") [] 5 (sn_trace ops).
Proof.
  intros ops H. unfold sn_trace. destruct (sn_plays ops) as [g|] eqn:E; [|discriminate].
  destruct (gplay_ok _ sn_conf _ _ sv_last _ sv_vtr0 _ _ _ E) as (HP & HE & HB & HV).
  - split; [apply process_start|]. split; [constructor|]. split.
    + cbn. rewrite app_nil_r. exact sn_run0.
    + cbn. rewrite app_nil_r. exact sv_vrun0.
  - split; [eauto|]. split; [|split; eauto]. exists sn_s0, (g_e g). split; [exact sn_run0|]. rewrite sn_last_ok. exact HE.
Qed.
Definition sn_server : query_server := QServer 1 true (Some 3%Z) (Some (Eid 1 3 1)).
Lemma sn_run_server : service ex_oracle sn_conf sn_tr0 sv_vtr0 1 (Some "secret") [] 5
    (((sv_A ++ sv_asked false :: sv_B 11 ++ [sv_answer 11]) ++ sv_flush) ++ sv_find 2 (QPServer sn_server) (OServer 0 sn_server, Quiet) ::
       sv_D (Answer (Some sv_events)) ++ [sv_found 2 sv_events]).
Proof.
  replace (((sv_A ++ _) ++ _) ++ _) with (sn_trace (sv_begin ++ sv_register false ++ sv_serve 11 ++ GA 1 :: [GB OFlush; GB OWork; GV (VQuery 2 30 (QPServer sn_server)) 0; GB OWork; GB (ODeliver 0); GA 2])) by (vm_compute; reflexivity).
  apply sn_played. vm_compute. reflexivity.
Qed.

(** The clock goes back. *)
Definition sv_missed : query_result := QRes [ev 2 1 2 ["a"] 20 None; sv_started] false.
Lemma sv_run_back : service ex_oracle sv_conf sv_tr0 sv_vtr0 1 (Some "secret") [] 5
    ((sv_A ++ sv_asked false :: sv_B 6 ++ sv_answer 6 :: sv_C) ++ sv_find 2 (QPLatest sv_all) (OLatest sv_all, Answer (Some sv_missed)) :: [] ++ [sv_found 2 sv_missed]).
Proof.
  replace ((sv_A ++ _) ++ _) with (sv_trace (sv_begin ++ sv_register false ++ sv_serve 6 ++ GA 1 :: sv_later ++ [GV (VQuery 2 30 (QPLatest sv_all)) 0; GA 2])) by (vm_compute; reflexivity).
  apply sv_played. vm_compute. reflexivity.
Qed.

(** Checks. *)
Definition quietb (c : nat) (tr : list vitem) : bool := forallb (fun i => match handles (fst i) with Some c' => negb (Nat.eqb c' c) | None => true end) tr.
Lemma quietb_ok : forall c tr, quietb c tr = true -> quiet c tr.
Proof.
  intros c tr H. unfold quietb in H. rewrite forallb_forall in H. apply Forall_forall. intros i Hi E. specialize (H i Hi). rewrite E, Nat.eqb_refl in H. discriminate.
Qed.
Fixpoint sortedb (l : list timestamp) : bool := match l with [] => true | t :: l' => forallb (ts_leb t) l' && sortedb l' end.
Lemma sortedb_ok : forall l, sortedb l = true -> StronglySorted (fun a b => ts_leb a b = true) l.
Proof.
  induction l as [|t l IH]; intros H; [constructor|]. cbn [sortedb] in H. apply andb_prop in H as [H1 H2]. constructor; [auto|].
  apply Forall_forall. rewrite forallb_forall in H1. exact H1.
Qed.
Definition clockb (srv : Z) (H : history) (ts : list timestamp) : bool :=
  sortedb ts && forallb (fun en => negb (eid_server (ev_id (en_ev en)) =? srv)%Z || forallb (ts_leb (ev_ts (en_ev en))) ts) H.
Lemma clockb_ok : forall srv H ts, clockb srv H ts = true -> clock_forward srv H ts.
Proof.
  intros srv H ts E. unfold clockb in E. apply andb_prop in E as [E1 E2]. split; [now apply sortedb_ok|]. intros en t Hi Hs Ht. rewrite forallb_forall in E2.
  specialize (E2 en Hi). rewrite Hs, Z.eqb_refl in E2. cbn [negb orb] in E2. rewrite forallb_forall in E2. auto.
Qed.
