(** Configurations used by examples. *)
From Coq Require Import String Bool ZArith List.
From Verif Require Import Base Model_Types Model_Subscription Model_Conditions Model_Lmdb Model_Conf.
Import ListNotations.
Open Scope string_scope.
Open Scope list_scope.
Open Scope Z_scope.

Definition strings (l : list (list string)) : json := JArr (map (fun t => JArr (map JStr t)) l).

(** A backend with a nested condition, two partitions and a limit. *)
Definition ex_backend : json :=
  JObj [("module", JStr "hat.event.backends.lmdb"); ("db_path", JStr "event.db"); ("identifier", JStr "id"); ("flush_period", JFloat 5 (-1));
        ("cleanup_period", JInt 60);
        ("conditions", JArr [JObj [("subscriptions", strings [["a"; "*"]]);
           ("condition", JObj [("type", JStr "any"); ("conditions", JArr [
              JObj [("type", JStr "json"); ("data_path", JArr [JStr "x"; JInt 0]); ("data_type", JStr "number")];
              JObj [("type", JStr "all"); ("conditions", JArr [JObj [("type", JStr "json"); ("data_value", JBool true)]])]])])]]);
        ("latest", JObj [("subscriptions", strings [["a"]; ["b"; "?"]])]);
        ("timeseries", JArr [JObj [("order_by", JStr "TIMESTAMP"); ("subscriptions", strings [["*"]])];
                             JObj [("order_by", JStr "SOURCE_TIMESTAMP"); ("subscriptions", strings [["a"; "?"; "*"]]);
                                   ("limit", JObj [("max_entries", JFloat 21 (-1)); ("duration", JFloat 3 (-2))])]]);
        ("timeseries_max_results", JFloat 1 3)].

Definition ex_server : json :=
  JObj [("type", JStr "event"); ("version", JStr "1"); ("log", JObj [("version", JInt 1)]); ("name", JStr "event"); ("server_id", JInt 7);
        ("server_token", JStr "token"); ("backend", ex_backend);
        ("modules", JArr [JObj [("module", JStr "m1")]; JObj [("module", JStr "m2"); ("x", JNull)]]);
        ("eventer_server", JObj [("host", JStr "127.0.0.1"); ("port", JInt 23012)]);
        ("monitor_component", JObj [("host", JStr "127.0.0.1"); ("port", JFloat 23010 0); ("group", JStr "g")])].

Definition ex_log (j : json) : bool := match j with JObj _ => true | _ => false end.
Definition ex_modules (m : string) : option (option (json -> bool)) :=
  if String.eqb m "m1" then Some None
  else if String.eqb m "m2" then Some (Some (fun j => match getitem "x" j with Some JNull => true | _ => false end)) else None.
