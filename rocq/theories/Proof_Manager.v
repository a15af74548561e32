(** Proofs about the event manager tool. *)
From Coq Require Import String Ascii Bool ZArith QArith List.
From Verif Require Import Base Model_Types Model_Time Model_DbTool Model_Manager Spec_DbTool Spec_Manager Proof_DbTool.
Import ListNotations.
Open Scope string_scope.
Open Scope list_scope.
Open Scope Z_scope.

Lemma parse_ts_means : forall w opt s t, means_ts w opt s t -> parse_timestamp w opt s = Conv t.
Proof.
  intros w opt s t [(-> & ->)|(N & q & E & ->)]; unfold parse_timestamp; [reflexivity|].
  apply String.eqb_neq in N. now rewrite N, E.
Qed.

Lemma coption_maybe : forall A (R : string -> A -> Prop) f o v, (forall s a, R s a -> f s = Conv a) ->
  maybe R o v -> coption f o = Conv v.
Proof. intros A R f [s|] [a|] H M; cbn in *; try tauto. now rewrite (H _ _ M). Qed.

Lemma types_names : forall l ts, Forall2 names l ts -> map parse_event_type l = ts.
Proof.
  intros l ts H. induction H as [|s t l ts N _ IH]; cbn; [reflexivity|]. f_equal; auto.
  symmetry. now apply final_C61_names.
Qed.

Lemma maybe_types_names : forall l ts, maybe_types l ts -> option_map (map parse_event_type) l = ts.
Proof. intros [l|] [ts|] H; cbn in *; try tauto. now rewrite (types_names _ _ H). Qed.

Lemma maybe_ts : forall w opt o v, maybe (means_ts w opt) o v -> coption (parse_timestamp w opt) o = Conv v.
Proof. intros. eapply coption_maybe; [|eassumption]. apply parse_ts_means. Qed.
Lemma maybe_int : forall w o v, maybe (means_int w) o v -> coption (parse_int w) o = Conv v.
Proof. intros w o v. apply coption_maybe. intros s a H. unfold parse_int. red in H. now rewrite H. Qed.

Lemma plain_parse : forall w a p, asks w a p -> plain a -> parse_args w a = Conv (PQuery p).
Proof.
  intros w a p H P. destruct H.
  - cbn [parse_args]. now rewrite (maybe_types_names _ _ H).
  - destruct P as (-> & -> & ->). cbn [parse_args].
    rewrite (maybe_ts _ _ _ _ H0), (maybe_ts _ _ _ _ H1), (maybe_ts _ _ _ _ H2), (maybe_ts _ _ _ _ H3),
      (maybe_int _ _ _ H6), (maybe_types_names _ _ H).
    cbn in H4, H5, H7. subst. destruct qi; [tauto|]. reflexivity.
  - destruct P.
Qed.

Lemma final_C64_query : forall w name token a p r, asks w a p -> plain a -> w_connect w = true -> w_query w = Some r ->
  manager_main w name token a =
    ([EConnect (Conn (text_or "manager" name) token [] None false); EQuery p; EPrint (result_to_json r); EClose], Status 0).
Proof.
  intros w name token a p r H P C Q. unfold manager_main. rewrite (plain_parse _ _ _ H P). unfold run_query. now rewrite C, Q.
Qed.

Lemma mevent_json_inj : forall a b, bytes_ok a -> bytes_ok b -> mevent_to_json a = mevent_to_json b -> a = b.
Proof.
  intros [[s u i] ty [ts tu] src p] [[s' u' i'] ty' [ts' tu'] src' p'] Ha Hb H.
  unfold mevent_to_json, event_id_to_json, timestamp_to_json in H.
  cbn [ev_id ev_type ev_ts ev_src ev_payload eid_server eid_session eid_instance ts_s ts_us] in H.
  injection H as -> -> -> Et -> -> Es Ep. apply map_JStr_inj in Et. subst ty'.
  f_equal.
  - destruct src as [[q w]|], src' as [[q' w']|]; cbn [ts_s ts_us] in Es; try discriminate; auto. injection Es as -> ->. reflexivity.
  - destruct p as [[t dt|j]|], p' as [[t' dt'|j']|]; cbn [mpayload_to_json] in Ep; try discriminate; auto.
    + injection Ep as -> E. f_equal. f_equal. apply hex_inj; auto.
      * apply (Ha t'). reflexivity.
      * apply (Hb t'). reflexivity.
    + injection Ep as ->. reflexivity.
Qed.

Lemma mevents_json_inj : forall a b, Forall bytes_ok a -> Forall bytes_ok b -> map mevent_to_json a = map mevent_to_json b -> a = b.
Proof.
  induction a as [|x a IH]; intros [|y b] Ha Hb E; try discriminate; auto.
  assert (E1 : mevent_to_json x = mevent_to_json y) by (apply (f_equal (fun l => hd JNull l)) in E; exact E).
  assert (E2 : map mevent_to_json a = map mevent_to_json b) by (apply (f_equal (@tl json)) in E; exact E).
  inversion Ha; inversion Hb; subst. f_equal; [now apply mevent_json_inj|now apply IH].
Qed.

Lemma final_C64_result : forall a b, results_ok a -> results_ok b -> result_to_json a = result_to_json b -> a = b.
Proof.
  intros [ea ma] [eb mb] Ha Hb H. unfold result_to_json in H. cbn [qr_events qr_more] in H.
  assert (E1 : map mevent_to_json ea = map mevent_to_json eb)
    by exact (f_equal (fun j => match j with JObj ((_, JArr l) :: _) => l | _ => [] end) H).
  assert (E2 : ma = mb)
    by exact (f_equal (fun j => match j with JObj (_ :: (_, JBool b) :: _) => b | _ => ma end) H).
  subst. f_equal. now apply mevents_json_inj.
Qed.

Lemma final_C64_lines : forall a b, Forall bytes_ok a -> Forall bytes_ok b ->
  JArr (map mevent_to_json a) = JArr (map mevent_to_json b) -> a = b.
Proof.
  intros a b Ha Hb H. apply mevents_json_inj; auto.
  exact (f_equal (fun j => match j with JArr l => l | _ => [] end) H).
Qed.

Lemma not_dash : forall path, path <> "-" -> String.eqb path "-" = false.
Proof. intros path N. now apply String.eqb_neq. Qed.

Lemma payload_read : forall w btype pt path p, asks_payload w btype pt path p ->
  exists q, coption parse_ptype pt = Conv q /\ read_payload w q (text_or "" btype) (text_or "-" path) = Conv p.
Proof.
  intros w btype pt path p H. destruct H.
  - exists (Some PtNone). now split.
  - exists None. split; [reflexivity|]. destruct H as [-> | ->]; cbn; now rewrite H0.
  - destruct H0 as [(-> & ->)|[(-> & ->)|(-> & ->)]];
      [exists (Some PtJson)|exists (Some PtYaml)|exists (Some PtToml)]; (split; [reflexivity|]);
      destruct H as [-> | ->]; cbn; now rewrite H1.
  - exists (Some PtBinary). split; [reflexivity|]. now destruct H as [-> | ->].
  - exists None. split; [reflexivity|]. cbn [text_or read_payload]. now rewrite (not_dash _ H), H0, H1.
  - exists None. split; [reflexivity|]. cbn [text_or read_payload]. now rewrite (not_dash _ H), H0, H1.
  - destruct H0 as [(-> & ->)|[(-> & ->)|(-> & ->)]];
      [exists (Some PtJson)|exists (Some PtYaml)|exists (Some PtToml)]; (split; [reflexivity|]);
      cbn [text_or read_payload]; now rewrite (not_dash _ H), H1.
  - exists (Some PtBinary). split; [reflexivity|]. cbn [text_or read_payload]. now rewrite (not_dash _ H), H0.
Qed.

Lemma register_main : forall w name token a e, asks_register w a e ->
  manager_main w name token a = run_register w (text_or "manager" name) token e.
Proof.
  intros w name token a e H. destruct H. destruct (payload_read _ _ _ _ _ H1) as (q & E & R).
  unfold manager_main. cbn [parse_args]. rewrite (maybe_ts _ _ _ _ H0). cbn [cbind]. rewrite E. cbn [cbind]. rewrite R.
  apply final_C61_names in H. subst qt. reflexivity.
Qed.

Lemma final_C64_register : forall w name token a e, asks_register w a e -> w_connect w = true ->
  fst (manager_main w name token a) = [EConnect (Conn (text_or "manager" name) token [] None false); ERegister [e]; EClose].
Proof.
  intros w name token a e H C. rewrite (register_main _ _ _ _ _ H). unfold run_register. rewrite C.
  destruct (client_register w false) as [[l|]|]; reflexivity.
Qed.

Lemma final_C64_exit : forall w name token src pt btype path type,
  exit_status (snd (manager_main w name token (DoRegister src pt btype path type))) <> 0.
Proof.
  intros. unfold manager_main. destruct (parse_args w _) as [x| |] eqn:E; try discriminate.
  cbn [parse_args] in E. destruct (coption (parse_timestamp w _) src) as [s| |]; try discriminate.
  destruct (coption parse_ptype pt) as [p| |]; try discriminate. cbn [cbind] in E. injection E as <-.
  destruct (read_payload w p _ _) as [q| |]; try discriminate. unfold run_register, client_register.
  destruct (w_connect w); try discriminate. destruct (w_send w); discriminate.
Qed.

Lemma final_C64_subscribe : forall w name token s server p l ts, maybe (means_int w) s server -> Forall2 names l ts ->
  w_connect w = true ->
  exists subs, (l = [] -> subs = [["*"]]) /\ (l <> [] -> subs = ts) /\
  manager_main w name token (DoSubscribe s p l) =
    (EConnect (Conn (text_or "manager" name) token subs server p) ::
       map (fun es => EPrint (JArr (map mevent_to_json es))) (w_events w) ++ [EClose], Status 0).
Proof.
  intros w name token s server p l ts M F C. exists (or_all ts). split; [|split].
  - intros ->. inversion F. reflexivity.
  - intros N. destruct F; [congruence|reflexivity].
  - unfold manager_main. cbn [parse_args]. rewrite (maybe_int _ _ _ M), (types_names _ _ F). cbn [cbind].
    unfold run_subscribe. now rewrite C.
Qed.

Lemma final_C64_closed : forall w name token a, let l := fst (manager_main w name token a) in
  l = [] \/ (exists r, w_connect w = false /\ l = [EConnect r]) \/
  (exists r m, w_connect w = true /\ l = EConnect r :: m ++ [EClose] /\
     (forall r', ~ In (EConnect r') m) /\ ~ In EClose m).
Proof.
  intros w name token a l. subst l. unfold manager_main.
  destruct (parse_args w a) as [[src pt bt path ty|p|p m i n|s p ts|s p ts]| |]; try (now left).
  - destruct (read_payload w pt bt path) as [q| |]; try (now left). right. unfold run_register.
    destruct (w_connect w); [right|left; eexists; now split].
    exists (Conn (text_or "manager" name) token [] None false), [ERegister [RegEv ty src q]]. split; [reflexivity|].
    split; [destruct (client_register w false) as [[]|]; reflexivity|].
    split; [intros r' [X|[]]; discriminate|intros [X|[]]; discriminate].
  - right. unfold run_query. destruct (w_connect w); [right|left; eexists; now split].
    destruct (w_query w) as [r|].
    + exists (Conn (text_or "manager" name) token [] None false), [EQuery p; EPrint (result_to_json r)].
      split; [reflexivity|]. split; [reflexivity|].
      split; [intros r' [X|[X|[]]]; discriminate|intros [X|[X|[]]]; discriminate].
    + exists (Conn (text_or "manager" name) token [] None false), [EQuery p].
      split; [reflexivity|]. split; [reflexivity|].
      split; [intros r' [X|[]]; discriminate|intros [X|[]]; discriminate].
  - right. unfold run_subscribe. destruct (w_connect w); [right|left; eexists; now split].
    do 2 eexists. split; [reflexivity|]. split; [reflexivity|].
    split; [intros r' I|intros I]; apply in_map_iff in I; destruct I as (x & E & _); discriminate.
Qed.

Lemma final_C64_options : forall w name token a p, asks w a p -> ~ plain a ->
  fst (manager_main w name token a) = [] /\ exit_status (snd (manager_main w name token a)) <> 0.
Proof.
  intros w name token a p H P. destruct H.
  - destruct P. exact I.
  - assert (E : parse_args w (DoTimeseries l a b c d o ob m i) = BadUsage).
    { cbn [parse_args]. rewrite (maybe_ts _ _ _ _ H0), (maybe_ts _ _ _ _ H1), (maybe_ts _ _ _ _ H2), (maybe_ts _ _ _ _ H3),
        (maybe_int _ _ _ H6). cbn [cbind].
      destruct o as [o|]; [destruct H4 as [(-> & _)|(-> & _)]; reflexivity|].
      destruct ob as [ob|]; [destruct H5 as [(-> & _)|(-> & _)]; reflexivity|].
      destruct i as [i|]; [reflexivity|]. destruct P. now split. }
    unfold manager_main. rewrite E. now split.
  - unfold manager_main. cbn [parse_args]. rewrite (maybe_int _ _ _ H). cbn [cbind].
    destruct i as [i|]; cbn [coption parse_event_id cbind]; [now split|]. unfold parse_int. red in H1. rewrite H1. now split.
Qed.
