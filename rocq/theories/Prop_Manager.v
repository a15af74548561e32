(** C64: the event manager tool. *)
From Coq Require Import String Bool ZArith QArith List.
From Verif Require Import Base Model_Types Model_Time Model_Manager Spec_DbTool Spec_Manager Proof_Manager.
Import ListNotations.
Open Scope string_scope.
Open Scope list_scope.
Open Scope Z_scope.

(** C64.  The query that the command line asks for (without an order, an id of
    the last event, or a server) is sent, and its result is printed; *)
Theorem C64_query_partial : forall w name token a p r,
  asks w a p -> plain a -> w_connect w = true -> w_query w = Some r ->
  manager_main w name token a =
    ([EConnect (Conn (text_or "manager" name) token [] None false); EQuery p; EPrint (result_to_json r); EClose], Status 0).
Proof. exact final_C64_query. Qed.
Print Assumptions C64_query_partial.

(** what is printed determines the result, *)
Theorem C64_result : forall a b, results_ok a -> results_ok b -> result_to_json a = result_to_json b -> a = b.
Proof. exact final_C64_result. Qed.
Print Assumptions C64_result.

(** and the events of a notification. *)
Theorem C64_lines : forall a b, Forall bytes_ok a -> Forall bytes_ok b ->
  JArr (map mevent_to_json a) = JArr (map mevent_to_json b) -> a = b.
Proof. exact final_C64_lines. Qed.
Print Assumptions C64_lines.

(** C64.  The event that the command line asks for is registered; *)
Theorem C64_register : forall w name token a e, asks_register w a e -> w_connect w = true ->
  fst (manager_main w name token a) = [EConnect (Conn (text_or "manager" name) token [] None false); ERegister [e]; EClose].
Proof. exact final_C64_register. Qed.
Print Assumptions C64_register.

(** notified events of the wanted types are printed in order until the
    connection is closed; *)
Theorem C64_subscribe : forall w name token s server p l ts,
  maybe (means_int w) s server -> Forall2 names l ts -> w_connect w = true ->
  exists subs, (l = [] -> subs = [["*"]]) /\ (l <> [] -> subs = ts) /\
  manager_main w name token (DoSubscribe s p l) =
    (EConnect (Conn (text_or "manager" name) token subs server p) ::
       map (fun es => EPrint (JArr (map mevent_to_json es))) (w_events w) ++ [EClose], Status 0).
Proof. exact final_C64_subscribe. Qed.
Print Assumptions C64_subscribe.

(** and whatever happens, the client is closed once, at the end. *)
Theorem C64_closed : forall w name token a, let l := fst (manager_main w name token a) in
  l = [] \/ (exists r, w_connect w = false /\ l = [EConnect r]) \/
  (exists r m, w_connect w = true /\ l = EConnect r :: m ++ [EClose] /\
     (forall r', ~ In (EConnect r') m) /\ ~ In EClose m).
Proof. exact final_C64_closed. Qed.
Print Assumptions C64_closed.

(** C64 fails for the other queries: one that asks for an order, starts after
    an event or is about a server is never sent. *)
Theorem C64_options_refuted : forall w name token a p, asks w a p -> ~ plain a ->
  fst (manager_main w name token a) = [] /\ exit_status (snd (manager_main w name token a)) <> 0.
Proof. exact final_C64_options. Qed.
Print Assumptions C64_options_refuted.

(** Exit status: a registration always reports a failure, also if the server has
    accepted the event. *)
Theorem C64_exit_refuted : forall w name token src pt btype path type,
  exit_status (snd (manager_main w name token (DoRegister src pt btype path type))) <> 0.
Proof. exact final_C64_exit. Qed.
Print Assumptions C64_exit_refuted.

(** Command lines that meet the hypotheses. *)
Definition ex_event : event := Ev (Eid 1 2 3) ["a"; "b"] (Ts 5 6) (Some (Ts 1 500000)) (Some (PBinary "t" [10; 255])).
Definition ex_world : world :=
  W (fun s => if String.eqb s "1.5" then Some (FNum (3 # 2)) else None)
    (fun s => if String.eqb s "7" then Some 7 else if String.eqb s "1" then Some 1 else None)
    (fun _ => Ts 100 0) (fun s => if String.eqb s "x.yaml" then Some FYaml else None)
    (fun _ => Some (JInt 1)) [1; 2] (fun s f => if String.eqb s "x.yaml" then Some (JBool true) else None)
    (fun s => if String.eqb s "x.bin" then Some [3] else None) true true
    (Some (Some [ex_event])) (Some (QRes [ex_event] true)) [[ex_event]; []].
Example C64_example :
  asks ex_world (DoTimeseries (Some ["a/*"; "b"]) (Some "now") (Some "1.5") None None None None (Some "7") None)
    (QPTimeseries (QTimeseries (Some [["a"; "*"]; ["b"]]) (Some (Ts 100 0)) (Some (Ts 1 500000)) None None DESCENDING TIMESTAMP (Some 7) None)) /\
  plain (DoTimeseries (Some ["a/*"; "b"]) (Some "now") (Some "1.5") None None None None (Some "7") None) /\
  asks ex_world (DoTimeseries None None None None None (Some "ASCENDING") None None (Some "1,1,7"))
    (QPTimeseries (QTimeseries None None None None None ASCENDING TIMESTAMP None (Some (Eid 1 1 7)))) /\
  ~ plain (DoTimeseries None None None None None (Some "ASCENDING") None None (Some "1,1,7")) /\
  asks ex_world (DoServerQuery true (Some "7") None "1") (QPServer (QServer 1 true (Some 7) None)) /\
  asks_register ex_world (DoRegister (Some "1.5") None (Some "t") (Some "x.bin") "a/b")
    (RegEv ["a"; "b"] (Some (Ts 1 500000)) (Some (PBinary "t" [3]))) /\
  asks_register ex_world (DoRegister None (Some "toml") None None "a") (RegEv ["a"] None (Some (PJson (JInt 1)))) /\
  results_ok (QRes [ex_event] true) /\
  manager_main ex_world None None (DoSubscribe (Some "7") true ["a/?"]) =
    ([EConnect (Conn "manager" None [["a"; "?"]] (Some 7) true);
      EPrint (JArr [JObj [("id", JObj [("server", JInt 1); ("session", JInt 2); ("instance", JInt 3)]);
                          ("type", JArr [JStr "a"; JStr "b"]); ("timestamp", JObj [("s", JInt 5); ("us", JInt 6)]);
                          ("source_timestamp", JObj [("s", JInt 1); ("us", JInt 500000)]);
                          ("payload", JObj [("data_type", JStr "binary"); ("binary_type", JStr "t"); ("data", JStr "0aff")])]]);
      EPrint (JArr []); EClose], Status 0).
Proof.
  assert (NM : forall s, names s (Model_DbTool.split_slash s)) by (intros; now apply Proof_DbTool.final_C61_names).
  refine (conj _ (conj _ (conj _ (conj _ (conj _ (conj _ (conj _ (conj _ _)))))))).
  - apply asks_timeseries; try exact I; try reflexivity.
    + constructor; [exact (NM "a/*")|constructor; [exact (NM "b")|constructor]].
    + now left.
    + right. split; [discriminate|]. now exists (3 # 2)%Q.
  - cbn. auto.
  - apply asks_timeseries; try exact I; try reflexivity.
    + now right.
    + exists "1", "1", "7". now repeat split.
  - cbn. intros (E & _). discriminate.
  - apply asks_server; try exact I; reflexivity.
  - apply ar.
    + exact (NM "a/b").
    + right. split; [discriminate|]. now exists (3 # 2)%Q.
    + apply (ap_file_other ex_world (Some "t") "x.bin"); [discriminate|reflexivity|reflexivity].
  - apply ar.
    + exact (NM "a").
    + exact I.
    + apply (ap_stdin ex_world None "toml" FToml); [now left|right; right; now split|reflexivity].
  - constructor; [|constructor]. cbn [ev_payload ex_event] in *. intros ty0 data0 E b J. injection E as <- <-. repeat (destruct J as [<-|J]; [split; [discriminate|reflexivity]|]). destruct J.
  - reflexivity.
Qed.
