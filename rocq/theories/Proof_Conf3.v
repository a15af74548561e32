(** Validation accepts exactly the documented forms: conditions, the LMDB
    backend. *)
From Coq Require Import String Bool ZArith QArith Lia List.
From Verif Require Import Base Model_Types Model_Schema Model_Conf Spec_Conf Proof_Conf Proof_Conf2.
Import ListNotations.
Open Scope string_scope.
Open Scope list_scope.
Open Scope nat_scope.

Lemma member_fun : forall j k v w, member j k v -> member j k w -> v = w.
Proof. intros j k v w (o & E & G) (o' & E' & G'). rewrite E in E'. injection E' as <-. rewrite G in G'. now injection G'. Qed.

Lemma member_obj : forall j k v, member j k v -> is_object j.
Proof. intros j k v (o & E & _). now exists o. Qed.

Section Forms3.
  Variable ext : string -> json -> bool.
  Notation D := (decides ext).

  Definition a_cond (t : string) (j : json) : Prop := member j "type" (JStr t) /\ has j "conditions" (list_of cond_form).
  Definition j_cond (j : json) : Prop :=
    member j "type" (JStr "json") /\ may j "data_path" path_form /\ may j "data_type" (fun v => exists s, v = JStr s /\ In s type_names).

  Lemma cond_cases : forall j, cond_form j <-> a_cond "all" j \/ a_cond "any" j \/ j_cond j.
  Proof.
    intros j. unfold a_cond, j_cond. split.
    - intros H. inversion H as [j' l T C F E|j' l T C F E|j' T P Y E]; subst.
      + left. split; [exact T|]. exists (JArr l). split; [exact C|]. exists l. split; [reflexivity|]. now apply Forall_forall.
      + right. left. split; [exact T|]. exists (JArr l). split; [exact C|]. exists l. split; [reflexivity|]. now apply Forall_forall.
      + right. right. auto.
    - intros [(T & v & C & l & E & F)|[(T & v & C & l & E & F)|(T & P & Y)]].
      + rewrite E in C. eapply form_all; eauto. now apply Forall_forall.
      + rewrite E in C. eapply form_any; eauto. now apply Forall_forall.
      + now apply form_json.
  Qed.

  Lemma d_list_cond : forall t n j, 2 <= n ->
      (forall v l x, member j "conditions" v -> v = JArr l -> In x l -> D (n - 2) (ref "hat-event://backends/lmdb.yaml#/$defs/condition") cond_form x) ->
      D n (object ["type"; "conditions"] [("type", const t); ("conditions", array (ref "hat-event://backends/lmdb.yaml#/$defs/condition"))]) (a_cond t) j.
  Proof.
    intros t [|[|n]] j H IH; try lia. replace (S (S n) - 2) with n in IH by lia.
    eapply dec_iff; [apply dec_object with (P := named [("type", fun v => v = JStr t); ("conditions", list_of cond_form)])|].
    - intros k s v I M. cases I; [apply d_const; lia|]. apply dec_array. intros l x E I. exact (IH v l x M E I).
    - cbn beta. unfold a_cond. split.
      + intros (O & R & F). unfa F. split.
        * destruct (R "type") as (v & M); [cbn; auto|]. pose proof (X v M) as E. cbn beta in E. now subst v.
        * apply has_split; auto; apply R; cbn; auto.
      + intros (T & C). split; [exact (member_obj _ _ _ T)|]. split.
        * intros k I. cbn [In] in I. destruct I as [<-|[<-|[]]]; [eauto|]. eapply has_some; eassumption.
        * fa; [|now apply has_may]. intros v M. exact (member_fun _ _ _ _ M T).
  Qed.

  Lemma d_json_cond : forall n j, 2 <= n ->
      (forall v, member j "data_path" v -> D (n - 1) (ref "hat-event://backends/lmdb.yaml#/$defs/path") path_form v) ->
      D n (object ["type"] [("type", const "json"); ("data_path", ref "hat-event://backends/lmdb.yaml#/$defs/path");
                            ("data_type", Sch [KEnum ["null"; "boolean"; "string"; "number"; "array"; "object"]]); ("data_value", Sch [])]) j_cond j.
  Proof.
    intros [|n] j H IH; try lia. replace (S n - 1) with n in IH by lia.
    eapply dec_iff; [apply dec_object with (P := named [("type", fun v => v = JStr "json"); ("data_path", path_form);
        ("data_type", fun v => exists s, v = JStr s /\ In s type_names)])|].
    - intros k s v I M. cases I.
      + apply d_const; lia.
      + exact (IH v M).
      + destruct n as [|n]; [lia|]. apply dec_enum.
      + destruct n as [|n]; [lia|]. now apply dec_nil.
    - cbn beta. unfold j_cond. split.
      + intros (O & R & F). unfa F. split; [|tauto].
        destruct (R "type") as (v & M); [cbn; auto|]. pose proof (X v M) as E. cbn beta in E. now subst v.
      + intros (T & A & B). split; [exact (member_obj _ _ _ T)|]. split.
        * intros k I. cbn [In] in I. destruct I as [<-|[]]. eauto.
        * fa; try assumption; [|intros v _; exact I]. intros v M. exact (member_fun _ _ _ _ M T).
  Qed.

  Lemma d_cond : forall d n j, jdepth j <= d -> 3 * d + 4 <= n -> D n (ref "hat-event://backends/lmdb.yaml#/$defs/condition") cond_form j.
  Proof.
    induction d as [d IH] using lt_wf_ind. intros n j Hd Hn. do 4 (destruct n as [|n]; [lia|]).
    eapply dec_ref; [reflexivity|]. eapply dec_cons with (Q := fun _ => True).
    - apply k_one3 with (P := a_cond "all") (Q := a_cond "any") (R := j_cond).
      + eapply dec_ref; [reflexivity|]. destruct (Nat.eq_dec d 0) as [Z|Z].
        * eapply dec_iff; [apply dec_object with (P := fun _ _ => True)|].
          -- intros k s v I M. apply depth_obj in M. lia.
          -- cbn beta. split.
             ++ intros (O & R & _). destruct (R "type") as (v & M); [cbn; auto|]. apply depth_obj in M. lia.
             ++ intros (T & _). apply depth_obj in T. lia.
        * apply d_list_cond; [lia|]. intros v l x M -> I. pose proof (depth_obj _ _ _ M). pose proof (depth_arr l x I).
          apply (IH (d - 2)); lia.
      + eapply dec_ref; [reflexivity|]. destruct (Nat.eq_dec d 0) as [Z|Z].
        * eapply dec_iff; [apply dec_object with (P := fun _ _ => True)|].
          -- intros k s v I M. apply depth_obj in M. lia.
          -- cbn beta. split.
             ++ intros (O & R & _). destruct (R "type") as (v & M); [cbn; auto|]. apply depth_obj in M. lia.
             ++ intros (T & _). apply depth_obj in T. lia.
        * apply d_list_cond; [lia|]. intros v l x M -> I. pose proof (depth_obj _ _ _ M). pose proof (depth_arr l x I).
          apply (IH (d - 2)); lia.
      + eapply dec_ref; [reflexivity|]. destruct (Nat.eq_dec d 0) as [Z|Z].
        * eapply dec_iff; [apply dec_object with (P := fun _ _ => True)|].
          -- intros k s v I M. apply depth_obj in M. lia.
          -- cbn beta. split.
             ++ intros (O & R & _). destruct (R "type") as (v & M); [cbn; auto|]. apply depth_obj in M. lia.
             ++ intros (T & _). apply depth_obj in T. lia.
        * apply d_json_cond; [lia|]. intros v M. pose proof (depth_obj _ _ _ M). apply (d_path ext (d - 1)); lia.
      + intros [(A & _) (B & _)]. pose proof (member_fun _ _ _ _ A B). discriminate.
      + intros [(A & _) (B & _)]. pose proof (member_fun _ _ _ _ A B). discriminate.
      + intros [(A & _) (B & _)]. pose proof (member_fun _ _ _ _ A B). discriminate.
    - now apply dec_nil.
    - cbn beta. rewrite cond_cases. tauto.
  Qed.

  Lemma d_order : forall n j, 1 <= n -> D n (Sch [KEnum ["TIMESTAMP"; "SOURCE_TIMESTAMP"]]) order_form j.
  Proof.
    intros [|n] j H; [lia|]. eapply dec_iff; [apply dec_enum|]. cbn beta. unfold order_form. split.
    - intros (s & -> & [<-|[<-|[]]]); auto.
    - intros [->| ->]; eexists; (split; [reflexivity|cbn; auto]).
  Qed.

  Lemma d_lmdb : forall n j, 3 * jdepth j + 8 <= n -> D n lmdb_yaml lmdb_form j.
  Proof.
    intros [|n] j H; [lia|]. unfold lmdb_yaml.
    eapply dec_iff; [apply dec_object with (P := named [("db_path", is_string); ("identifier", string_or_null); ("flush_period", is_number);
      ("cleanup_period", is_number);
      ("conditions", list_of (fun i => is_object i /\ has i "subscriptions" types_form /\ has i "condition" cond_form));
      ("latest", fun l => is_object l /\ has l "subscriptions" types_form);
      ("timeseries", list_of (fun p => is_object p /\ has p "order_by" order_form /\ has p "subscriptions" types_form /\ may p "limit" limit_form));
      ("timeseries_max_results", is_integer); ("timeseries_event_type_cache_size", is_integer)])|].
    - intros k s v I M. pose proof (depth_obj _ _ _ M) as DM. cases I.
      + apply d_string; lia.
      + apply d_token'; lia.
      + apply d_number; lia.
      + apply d_number; lia.
      + destruct n as [|n]; [lia|]. apply dec_array. intros l x -> I. pose proof (depth_arr l x I) as DX. destruct n as [|n]; [lia|].
        eapply dec_iff; [apply dec_object with (P := named [("subscriptions", types_form); ("condition", cond_form)])|].
        * intros k s w J N. pose proof (depth_obj _ _ _ N) as DN. cases J; [apply d_types; lia|]. apply (d_cond (jdepth w)); lia.
        * cbn beta. split.
          -- intros (O & R & F). unfa F. split; [exact O|]. split; apply has_split; auto; apply R; cbn; auto.
          -- intros (O & A & B). split; [exact O|]. split; [intros k J; need J|]. fa; now apply has_may.
      + destruct n as [|n]; [lia|]. eapply dec_iff; [apply dec_object with (P := named [("subscriptions", types_form)])|].
        * intros k s w J N. cases J. apply d_types; lia.
        * cbn beta. split.
          -- intros (O & R & F). unfa F. split; [exact O|]. apply has_split; auto; apply R; cbn; auto.
          -- intros (O & A). split; [exact O|]. split; [intros k J; need J|]. fa; now apply has_may.
      + destruct n as [|n]; [lia|]. apply dec_array. intros l x _ _. destruct n as [|n]; [lia|].
        eapply dec_iff; [apply dec_object with (P := named [("order_by", order_form); ("subscriptions", types_form); ("limit", limit_form)])|].
        * intros k s w J N. cases J; [apply d_order|apply d_types|apply d_limit]; lia.
        * cbn beta. split.
          -- intros (O & R & F). unfa F. split; [exact O|]. split; [|split]; [| |assumption]; apply has_split; auto; apply R; cbn; auto.
          -- intros (O & A & B & C). split; [exact O|]. split; [intros k J; need J|]. fa; try assumption; now apply has_may.
      + apply d_integer; lia.
      + apply d_integer; lia.
    - cbn beta. unfold lmdb_form. split.
      + intros (O & R & F). unfa F. split; [exact O|]. split; [|tauto].
        repeat (split; [apply has_split; [apply R; cbn; tauto|assumption]|]). apply has_split; [apply R; cbn; tauto|assumption].
      + intros (O & (A & B & C & E & G & K & L) & M & N). split; [exact O|]. split; [intros k J; need J|].
        fa; try assumption; now apply has_may.
  Qed.
End Forms3.

(** ** Results of validation *)

Lemma validation_of : forall log_ok s j P, decides (fun _ => log_ok) (3 * jdepth j + 8) s P j ->
    (exists b, validation log_ok s j = Some b) /\ (validates log_ok s j = true <-> P j).
Proof.
  intros log_ok s j P (b & E & B). unfold validates, validation. rewrite E. split; [eauto|exact B].
Qed.

Lemma final_C69_server_form : forall log_ok j,
    (exists b, validation log_ok server_yaml j = Some b) /\ (validates log_ok server_yaml j = true <-> server_form log_ok j).
Proof. intros. apply validation_of. apply (d_server (fun _ => log_ok)). lia. Qed.

Lemma final_C69_lmdb_form : forall log_ok j,
    (exists b, validation log_ok lmdb_yaml j = Some b) /\ (validates log_ok lmdb_yaml j = true <-> lmdb_form j).
Proof. intros. apply validation_of. apply d_lmdb. lia. Qed.
