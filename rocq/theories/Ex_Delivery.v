(** Concrete executions of the engine or of the flush loop together with the
    eventer server, used by examples. *)
From Coq Require Import String Bool ZArith Arith Lia List.
From Verif Require Import Base Model_Types Model_Subscription Model_Lmdb Model_LmdbSys Spec_Lmdb Ex_Lmdb Model_LmdbFlush Spec_LmdbFlush Proof_LmdbFlush Ex_LmdbFlush
  Model_Engine Spec_Engine Proof_Engine Model_Eventer Spec_Eventer Ex_Eventer Model_Client Spec_Client Ex_Client Spec_Delivery Spec_Delivery2 Spec_Delivery3
  Proof_Delivery2 Proof_Delivery3.
Import ListNotations.
Open Scope string_scope.
Open Scope list_scope.
Open Scope nat_scope.

(** Steps of the engine, of the server, and the call of [notify_events] for the
    batch at hand. *)
Inductive jop := OE (o : eop) | OS (o : vop) | OTell (n : nat).
(** Calls from 100 on are made for the batches. *)
Definition dN (n : nat) : bool := Nat.leb 100 n.

Definition is_told (n : nat) (tr : list vitem) : bool := existsb (fun x => match x with Returned m => Nat.eqb m n | _ => false end) (vouts tr).
Lemma is_told_ok : forall n tr, is_told n tr = true -> returned n tr.
Proof.
  intros n tr H. unfold is_told in H. apply existsb_exists in H as (x & H1 & H2). destruct x; try discriminate. apply Nat.eqb_eq in H2 as ->. exact H1.
Qed.

Definition enext (tr : list jitem) (w : place) (o : eop) (l : list eout) : option place :=
  match handed_in l with
  | [] => match o with
          | ERegistered _ => match w with Told n => if is_told n (server_of tr) then Some Idle else None | _ => None end
          | ELast => Some Over
          | _ => Some w
          end
  | [es] => if is_shut o then Some (Due es)
            else match o, w, l with EStep, Idle, [Hand _] => Some (Due es) | _, _, _ => None end
  | _ => None
  end.
Definition snext (o : vop) : bool := match o with VNotify n _ _ _ => negb (dN n) | _ => true end.

Fixpoint jplay (ms : list node) (es : estate) (vs : vstate) (tr : list jitem) (w : place) (ops : list jop) : option (list jitem * estate * vstate * place) :=
  match ops with
  | [] => Some (tr, es, vs, w)
  | OE o :: ops' =>
      match eexec ms 5 es o with
      | None => None
      | Some (es', l) => match enext tr w o l with
                         | None => None
                         | Some w' => jplay ms es' vs (tr ++ [JE (o, l)]) w' ops'
                         end
      end
  | OS o :: ops' =>
      match vexec 1 (Some "secret") vs o with
      | None => None
      | Some (vs', l) => if snext o then jplay ms es vs' (tr ++ [JS (o, l)]) w ops' else None
      end
  | OTell n :: ops' =>
      match w with
      | Due b => match vexec 1 (Some "secret") vs (VNotify n b false false) with
                 | None => None
                 | Some (vs', l) => if dN n then jplay ms es vs' (tr ++ [JS (VNotify n b false false, l)]) (Told n) ops' else None
                 end
      | _ => None
      end
  end.

Lemma enext_ok : forall tr w o l w', joined dN tr w -> enext tr w o l = Some w' -> joined dN (tr ++ [JE (o, l)]) w'.
Proof.
  intros tr w o l w' J H. unfold enext in H. destruct (handed_in l) as [|b [|]] eqn:E; [| |discriminate].
  - destruct o; try (injection H as <-; apply joined_engine; auto; congruence).
    + destruct w; try discriminate. destruct (is_told n (server_of tr)) eqn:T; [|discriminate]. injection H as <-. eapply joined_done; eauto. now apply is_told_ok.
    + injection H as <-. eapply joined_last; eauto.
  - destruct (is_shut o) eqn:S; [injection H as <-; eapply joined_stop; eauto|]. destruct o; try discriminate. destruct w; try discriminate.
    destruct l as [|[] [|]]; try discriminate. cbn in E. injection E as <-. injection H as <-. apply joined_hand. auto.
Qed.

Lemma jplay_ok : forall ms last ops es vs tr w r, jplay ms es vs tr w ops = Some r ->
    engine_run ms 5 last (engine_of tr) es -> server_run 1 (Some "secret") (server_of tr) vs -> joined dN tr w ->
    let '(tr', es', vs', w') := r in
    engine_run ms 5 last (engine_of tr') es' /\ server_run 1 (Some "secret") (server_of tr') vs' /\ joined dN tr' w'.
Proof.
  intros ms last. induction ops as [|[o|o|n] ops IH]; intros es vs tr w r H He Hs Hj; cbn [jplay] in H.
  - injection H as <-. auto.
  - destruct (eexec ms 5 es o) as [[es' l]|] eqn:Ee; [|discriminate]. destruct (enext tr w o l) as [w'|] eqn:En; [|discriminate].
    apply (IH _ _ _ _ _ H); [|rewrite server_E; auto|eapply enext_ok; eauto].
    rewrite engine_of_app. cbn [engine_of flat_map app]. eapply eruns_snoc; eauto.
  - destruct (vexec 1 (Some "secret") vs o) as [[vs' l]|] eqn:Ee; [|discriminate]. destruct (snext o) eqn:En; [|discriminate].
    apply (IH _ _ _ _ _ H).
    + rewrite engine_of_app. cbn [engine_of flat_map app]. now rewrite app_nil_r.
    + rewrite server_S. eapply vruns_snoc; eauto.
    + apply joined_server; auto. intros n es0 p ack ->. cbn [snext] in En. now apply negb_true_iff in En.
  - destruct w as [|b| |]; try discriminate. destruct (vexec 1 (Some "secret") vs (VNotify n b false false)) as [[vs' l]|] eqn:Ee; [|discriminate].
    destruct (dN n) eqn:En; [|discriminate]. apply (IH _ _ _ _ _ H).
    + rewrite engine_of_app. cbn [engine_of flat_map app]. now rewrite app_nil_r.
    + rewrite server_S. eapply vruns_snoc; eauto.
    + apply joined_tell; auto.
Qed.

Definition jplays (last : event_id) (ops : list jop) := jplay [] (estart last) vstart [] Idle ops.
Definition jtrace (last : event_id) (ops : list jop) : list jitem := match jplays last ops with Some (tr, _, _, _) => tr | None => [] end.
Definition jeend (last : event_id) (ops : list jop) : estate := match jplays last ops with Some (_, s, _, _) => s | None => estart last end.
Definition jvend (last : event_id) (ops : list jop) : vstate := match jplays last ops with Some (_, _, s, _) => s | None => vstart end.
Definition jwhere (last : event_id) (ops : list jop) : place := match jplays last ops with Some (_, _, _, w) => w | None => Idle end.
Lemma jplayed : forall last ops, (if jplays last ops then true else false) = true ->
    engine_run [] 5 last (engine_of (jtrace last ops)) (jeend last ops) /\ server_run 1 (Some "secret") (server_of (jtrace last ops)) (jvend last ops) /\
    joined dN (jtrace last ops) (jwhere last ops).
Proof.
  intros last ops H. unfold jtrace, jeend, jvend, jwhere. destruct (jplays last ops) as [[[[tr es] vs] w]|] eqn:E; [|discriminate].
  apply (jplay_ok [] last _ _ _ _ _ _ E); constructor.
Qed.

(** A client that takes all messages. *)
Definition takes (l : list smsg) : list cop := match l with [] => [] | m :: l' => [CMsg m; CStart] ++ flat_map (fun x => [CMsg x; CDone]) l' end.

(** The engine starts, a client is accepted, two requests are registered while
    events of another server are notified as well, the engine stops. *)
Definition d_last : event_id := Eid 1 4 7.
Definition d_req (n : nat) (ts : list etype) : request := Request n (Source EVENTER 3) (map (fun t => RegEv t None None) ts).
Definition d_begin : list jop := [OE EBegin; OE (EGet (Ts 10 0)); OE EStep; OE EStep; OE EStep; OTell 100; OE (ERegistered true)].
Definition d_client (req : init_req) : list jop := [OS VAccept; OS (VInit 1 0 req true)].
Definition d_first : list jop :=
  [OE (ERegister (d_req 1 [["a"; "x"]; ["c"]; ["a"; "y"]])); OE (EPut 1); OE (EGet (Ts 11 0)); OE EStep; OE EStep; OE EStep].
Definition d_told : list jop :=
  [OTell 101; OS (VNotify 5 [vev1; vev4] false false); OS (VNotifyStep 5); OS (VNotifyStep 101); OS (VNotifyDone 101); OE (ERegistered true); OS (VNotifyDone 5)].
Definition d_second : list jop :=
  [OE (ERegister (d_req 2 [["a"; "z"]])); OE (EPut 2); OE (EGet (Ts 12 0)); OE EStep; OE EStep; OE EStep; OTell 102; OS (VNotifyStep 102); OS (VNotifyDone 102);
   OE (ERegistered true)].
Definition d_end : list jop := [OE EClose; OE (ECancel (Ts 13 0)); OTell 103].
Definition d_all : list jop := d_begin ++ d_client vreq1 ++ d_first ++ d_told ++ d_second ++ d_end.
Definition d_ops : list cop := takes (sent_to 1 (server_of (jtrace d_last d_all))).

(** The engine is closed while the first batch is told: the call is given up. *)
Definition d_vreq : init_req := InitReq "one" None [["*"]] None false.
Definition d_lost : list jop :=
  d_begin ++ d_client d_vreq ++ d_first ++ [OTell 101; OS (VGiveUp 101); OE EClose; OE (ECancel (Ts 13 0)); OTell 103; OS (VNotifyStep 103); OS (VNotifyDone 103); OE ELast].
Definition d_lost_ops : list cop := takes (sent_to 1 (server_of (jtrace d_last d_lost))).

(** The same for the flush loop. *)
Inductive kop := PF (o : fop) | PS (o : vop) | PTell (n : nat).

Fixpoint kplay (fs : fstate) (vs : vstate) (tr : list kitem) (w : option (nat * list event)) (ops : list kop) : option (list kitem * fstate * vstate * option (nat * list event)) :=
  match ops with
  | [] => Some (tr, fs, vs, w)
  | PF o :: ops' =>
      match fexec ex_oracle fs o with
      | None => None
      | Some (fs', xs, l) =>
          match o with
          | FNotify true => match w with
                            | Some (n, _) => if is_told n (kserver_of tr) then kplay fs' vs (tr ++ [KF (o, xs, l)]) None ops' else None
                            | None => None
                            end
          | FNotify false => kplay fs' vs (tr ++ [KF (o, xs, l)]) None ops'
          | _ => kplay fs' vs (tr ++ [KF (o, xs, l)]) w ops'
          end
      end
  | PS o :: ops' =>
      match vexec 1 (Some "secret") vs o with
      | None => None
      | Some (vs', l) => if snext o then kplay fs vs' (tr ++ [KS (o, l)]) w ops' else None
      end
  | PTell n :: ops' =>
      match w, fexec ex_oracle fs (FNotify true) with
      | None, Some (_, [], [Flushed b]) =>
          match vexec 1 (Some "secret") vs (VNotify n b true false) with
          | None => None
          | Some (vs', l) => if dN n then kplay fs vs' (tr ++ [KS (VNotify n b true false, l)]) (Some (n, b)) ops' else None
          end
      | _, _ => None
      end
  end.

Lemma fruns_det : forall O s tr s1, fruns O s tr s1 -> forall s2, fruns O s tr s2 -> s1 = s2.
Proof.
  intros O s tr s1 H. induction H; intros s' H'.
  - inversion H'; auto. destruct tr; discriminate.
  - apply fruns_inv in H' as (s3 & o' & xs' & l' & E & H1 & H2). injection E as <- <- <-. rewrite (IHfruns _ H1) in H0. congruence.
Qed.
Lemma lifetime_det : forall O cf tr s1 s2, lifetime O cf [] tr s1 -> lifetime O cf [] tr s2 -> s1 = s2.
Proof.
  intros O cf tr s1 s2 (a & (a0 & A1 & A2 & _) & _ & A3 & _) (b & (b0 & B1 & B2 & _) & _ & B3 & _).
  inversion A2; subst. inversion B2; subst. assert (a = b) by congruence. subst b. eapply fruns_det; eauto.
Qed.

Definition kevents (ops : list kop) : list (list event) := flat_map (fun o => match o with PF (FRegister es) => [es] | _ => [] end) ops.
Lemma lifetime_step : forall O cf tr0 tr s o xs l s2, lifetime O cf tr0 tr s -> fexec O s o = Some (s2, xs, l) -> (forall es, o = FRegister es -> Forall event_ok es) ->
    lifetime O cf tr0 (tr ++ [(o, xs, l)]) s2.
Proof.
  intros O cf tr0 tr s o xs l s2 (s0 & H1 & H2 & H3 & H4) Hx Ho. exists s0. split; auto. split; auto. split; [econstructor; eauto|].
  rewrite registered_app. apply Forall_app. split; auto. unfold registered. cbn [done_of map flat_map fst]. rewrite app_nil_r. destruct o; auto.
Qed.

Lemma kplay_ok : forall ops fs vs tr w r, kplay fs vs tr w ops = Some r -> forallb (forallb event_okb) (kevents ops) = true ->
    lifetime ex_oracle ex_conf [] (flush_of tr) fs -> server_run 1 (Some "secret") (kserver_of tr) vs -> kjoined ex_oracle ex_conf [] dN tr w ->
    let '(tr', fs', vs', w') := r in
    lifetime ex_oracle ex_conf [] (flush_of tr') fs' /\ server_run 1 (Some "secret") (kserver_of tr') vs' /\ kjoined ex_oracle ex_conf [] dN tr' w'.
Proof.
  induction ops as [|[o|o|n] ops IH]; intros fs vs tr w r H Hk Hf Hs Hj; cbn [kplay] in H.
  - injection H as <-. auto.
  - destruct (fexec ex_oracle fs o) as [[[fs' xs] l]|] eqn:Ee; [|discriminate].
    assert (Hev : forall es, o = FRegister es -> Forall event_ok es).
    { intros es ->. cbn [kevents flat_map app forallb] in Hk. apply andb_true_iff in Hk as [Hk _]. apply Forall_forall. intros e He. rewrite forallb_forall in Hk. apply event_okb_ok. auto. }
    assert (Hk' : forallb (forallb event_okb) (kevents ops) = true).
    { change (PF o :: ops) with ([PF o] ++ ops) in Hk. unfold kevents in Hk. rewrite flat_map_app, forallb_app in Hk. apply andb_true_iff in Hk as [_ Hk]. exact Hk. }
    pose proof (lifetime_step _ _ _ _ _ _ _ _ _ Hf Ee Hev) as Hf'. rewrite <- flush_F in Hf'.
    assert (Hs' : server_run 1 (Some "secret") (kserver_of (tr ++ [KF (o, xs, l)])) vs) by (rewrite kserver_F; auto).
    destruct o; try (apply (IH _ _ _ _ _ H Hk' Hf' Hs'); apply kjoined_flush; auto; congruence).
    destruct ok.
    + destruct w as [[n b]|]; [|discriminate]. destruct (is_told n (kserver_of tr)) eqn:T; [|discriminate]. apply (IH _ _ _ _ _ H Hk' Hf' Hs').
      eapply kjoined_done; eauto. now apply is_told_ok.
    + apply (IH _ _ _ _ _ H Hk' Hf' Hs'). eapply kjoined_raised; eauto.
  - destruct (vexec 1 (Some "secret") vs o) as [[vs' l]|] eqn:Ee; [|discriminate]. destruct (snext o) eqn:En; [|discriminate].
    apply (IH _ _ _ _ _ H Hk).
    + rewrite flush_S. auto.
    + rewrite kserver_S. eapply vruns_snoc; eauto.
    + apply kjoined_server; auto. intros n es0 p ack ->. cbn [snext] in En. now apply negb_true_iff in En.
  - destruct w; [discriminate|]. destruct (fexec ex_oracle fs (FNotify true)) as [[[fs' [|]] [|[b|] [|]]]|] eqn:Ef; try discriminate.
    destruct (vexec 1 (Some "secret") vs (VNotify n b true false)) as [[vs' l]|] eqn:Ee; [|discriminate].
    destruct (dN n) eqn:En; [|discriminate]. apply (IH _ _ _ _ _ H Hk).
    + rewrite flush_S. auto.
    + rewrite kserver_S. eapply vruns_snoc; eauto.
    + apply kjoined_tell; auto. intros s Hl. rewrite (lifetime_det _ _ _ _ _ Hl Hf). eauto.
Qed.

Definition kplays (ops : list kop) := match start ex_conf with None => None | Some s => kplay (fstart s) vstart [] None ops end.
Definition ktrace (ops : list kop) : list kitem := match kplays ops with Some (tr, _, _, _) => tr | None => [] end.
Definition kfend (ops : list kop) : fstate := match kplays ops with Some (_, s, _, _) => s | None => fstart (end_of ex_conf None) end.
Definition kvend (ops : list kop) : vstate := match kplays ops with Some (_, _, s, _) => s | None => vstart end.
Definition kwhere (ops : list kop) : option (nat * list event) := match kplays ops with Some (_, _, _, w) => w | None => None end.
Lemma kplayed : forall ops, (if kplays ops then true else false) = true -> forallb (forallb event_okb) (kevents ops) = true ->
    lifetime ex_oracle ex_conf [] (flush_of (ktrace ops)) (kfend ops) /\ server_run 1 (Some "secret") (kserver_of (ktrace ops)) (kvend ops) /\
    kjoined ex_oracle ex_conf [] dN (ktrace ops) (kwhere ops).
Proof.
  intros ops H He. unfold ktrace, kfend, kvend, kwhere. destruct (kplays ops) as [[[[tr fs] vs] w]|] eqn:E; [|discriminate].
  unfold kplays in E. destruct (start ex_conf) as [s0|] eqn:Es; [|discriminate].
  apply (kplay_ok _ _ _ _ _ _ E He); try constructor. exists s0. split; [|split; [now left|split; [constructor|constructor]]].
  exists s0. split; [auto|]. split; [constructor|]. split; [apply Forall_cons; [apply ex_conf_ok|apply Forall_nil]|apply Forall_nil].
Qed.

(** Two batches are registered, flushed and told; a client is accepted in
    between; the call for the third batch is on its way. *)
Definition k_req : init_req := InitReq "one" None [["a"; "*"]] None true.
Definition k_flush : list kop := [PF FWake; PF FStart; PF (FOther OWork); PF FWrote].
Definition k_all : list kop :=
  [PF (FRegister [ex_e1])] ++ k_flush ++ [PTell 100; PF (FNotify true); PF FAnswer; PS VAccept; PS (VInit 1 0 k_req true); PF (FRegister [ex_e2; ex_e5]); PF (FRegister [ex_e6])] ++
  k_flush ++ [PTell 101; PF (FRegister [ex_e7]); PS (VNotifyStep 101); PS (VNotifyDone 101); PF (FNotify true); PTell 102; PS (VNotifyStep 102)].
Definition k_ops : list cop := takes (sent_to 1 (kserver_of (ktrace k_all))).

(** Checks of conditions on joint executions. *)
Definition shut_at (tr : list jitem) (k : nat) : bool := match nth_error tr k with Some (JE (o, _)) => is_shut o | _ => false end.
Lemma calm_at : forall N tr, Forall (fun k => settled N (firstn k tr)) (filter (shut_at tr) (seq 0 (length tr))) -> calm N tr.
Proof.
  intros N tr H a o l b E Ho. rewrite Forall_forall in H. specialize (H (length a)). rewrite E, firstn_app, firstn_all, Nat.sub_diag in H.
  cbn [firstn] in H. rewrite app_nil_r in H. apply H. apply filter_In. split.
  - apply in_seq. rewrite app_length. cbn [length]. lia.
  - unfold shut_at. rewrite nth_error_app2, Nat.sub_diag by lia. exact Ho.
Qed.
Definition only_byb (X : event -> bool) (p : bool) (tr : list vitem) : bool :=
  forallb (fun i => match fst i with VNotify n es q _ => dN n || negb (Bool.eqb q p) || match from X es with [] => true | _ => false end | _ => true end) tr.
Lemma only_byb_ok : forall X p tr, only_byb X p tr = true -> only_by dN X p tr.
Proof.
  intros X p tr H n es ack l Hi Hn. unfold only_byb in H. rewrite forallb_forall in H. specialize (H _ Hi). cbn [fst] in H. rewrite Hn, Bool.eqb_reflx in H.
  cbn in H. destruct (from X es); [auto|discriminate].
Qed.
Definition all_told (p : bool) (tr : list vitem) : bool := forallb (fun x => is_told (fst x) tr) (announced dN p tr).
Lemma all_told_ok : forall p tr, all_told p tr = true -> forall n es, In (n, es) (announced dN p tr) -> returned n tr.
Proof. intros p tr H n es Hi. unfold all_told in H. rewrite forallb_forall in H. apply is_told_ok. exact (H _ Hi). Qed.
