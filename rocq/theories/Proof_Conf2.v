(** Validation accepts exactly the documented forms: the schemas. *)
From Coq Require Import String Bool ZArith QArith Lia List.
From Verif Require Import Base Model_Types Model_Schema Model_Conf Spec_Conf Proof_Conf.
Import ListNotations.
Open Scope string_scope.
Open Scope list_scope.
Open Scope nat_scope.

(** Properties by name. *)
Fixpoint named (l : list (string * (json -> Prop))) (k : string) : json -> Prop :=
  match l with [] => fun _ => True | (k', P) :: l' => if String.eqb k k' then P else named l' k end.

Lemma has_split : forall j k P, (exists v, member j k v) -> may j k P -> has j k P.
Proof. intros j k P (v & M) H. exists v. split; [exact M|exact (H v M)]. Qed.

Lemma has_may : forall j k P, has j k P -> may j k P.
Proof.
  intros j k P (v & (o & E & G) & H) v' (o' & E' & G'). rewrite E in E'. injection E' as <-. rewrite G in G'. injection G' as <-. exact H.
Qed.

Lemma has_some : forall j k P, has j k P -> exists v, member j k v.
Proof. intros j k P (v & M & _). eauto. Qed.

Ltac fa := repeat (apply Forall_cons; [cbn [fst named String.eqb Ascii.eqb Bool.eqb]|]); try apply Forall_nil.
Ltac unfa H := repeat (apply Forall_cons_iff in H; let X := fresh "X" in destruct H as [X H]; cbn [fst named String.eqb Ascii.eqb Bool.eqb] in X).
Ltac cases I := cbn [In] in I; repeat (destruct I as [I|I]; [injection I as <- <-; cbn [named String.eqb Ascii.eqb Bool.eqb]|]); try contradiction.
Ltac need I := cbn [In] in I; repeat (destruct I as [<-|I]; [eapply has_some; eassumption|]); try contradiction.

Section Forms2.
  Variable ext : string -> json -> bool.
  Notation D := (decides ext).

  Lemma d_string : forall n j, 1 <= n -> D n (typed "string") is_string j.
  Proof. intros [|n] j H; [lia|]. apply dec_typed, t_string. Qed.
  Lemma d_integer : forall n j, 1 <= n -> D n (typed "integer") is_integer j.
  Proof. intros [|n] j H; [lia|]. apply dec_typed, t_integer. Qed.
  Lemma d_number : forall n j, 1 <= n -> D n (typed "number") is_number j.
  Proof. intros [|n] j H; [lia|]. apply dec_typed, t_number. Qed.
  Lemma d_token : forall n j, 1 <= n -> D n (Sch [KType ["string"; "null"]]) string_or_null j.
  Proof. intros [|n] j H; [lia|]. apply dec_typed2 with (P := is_string) (Q := fun j => j = JNull); [apply t_string|apply t_null]. Qed.
  Lemma d_token' : forall n j, 1 <= n -> D n (Sch [KType ["null"; "string"]]) string_or_null j.
  Proof.
    intros [|n] j H; [lia|]. eapply dec_iff; [apply dec_typed2 with (P := fun j => j = JNull) (Q := is_string); [apply t_null|apply t_string]|]. unfold string_or_null. tauto.
  Qed.
  Lemma d_const : forall n s j, 1 <= n -> D n (const s) (fun v => v = JStr s) j.
  Proof.
    intros [|n] s j H; [lia|]. eapply dec_iff; [apply dec_enum|]. cbn beta. split.
    - intros (x & -> & [<-|[]]). reflexivity.
    - intros ->. exists s. split; [reflexivity|now left].
  Qed.

  Lemma d_address : forall n j, 2 <= n -> D n (object ["host"; "port"] [("host", typed "string"); ("port", typed "integer")]) address j.
  Proof.
    intros [|n] j H; [lia|].
    eapply dec_iff; [apply dec_object with (P := named [("host", is_string); ("port", is_integer)])|].
    - intros k s v I M. cases I; [apply d_string|apply d_integer]; lia.
    - cbn beta. unfold address. split.
      + intros (O & R & F). unfa F. split; [exact O|]. split; apply has_split; auto; apply R; cbn; auto.
      + intros (O & A & B). split; [exact O|]. split; [intros k I; need I|]. fa; now apply has_may.
  Qed.

  Lemma d_monitor : forall n j, 2 <= n ->
      D n (object ["host"; "port"; "group"] [("host", typed "string"); ("port", typed "integer"); ("group", typed "string")])
        (fun v => address v /\ has v "group" is_string) j.
  Proof.
    intros [|n] j H; [lia|].
    eapply dec_iff; [apply dec_object with (P := named [("host", is_string); ("port", is_integer); ("group", is_string)])|].
    - intros k s v I M. cases I; [apply d_string|apply d_integer|apply d_string]; lia.
    - cbn beta. unfold address. split.
      + intros (O & R & F). unfa F. split; [split; [exact O|split]|]; apply has_split; auto; apply R; cbn; auto.
      + intros ((O & A & B) & C). split; [exact O|]. split; [intros k I; need I|]. fa; now apply has_may.
  Qed.

  Lemma d_module : forall n j, 2 <= n -> D n (object ["module"] [("module", typed "string")]) module_conf j.
  Proof.
    intros [|n] j H; [lia|]. eapply dec_iff; [apply dec_object with (P := named [("module", is_string)])|].
    - intros k s v I M. cases I. apply d_string; lia.
    - cbn beta. unfold module_conf. split.
      + intros (O & R & F). unfa F. split; [exact O|]. apply has_split; auto; apply R; cbn; auto.
      + intros (O & A). split; [exact O|]. split; [intros k I; need I|]. fa; now apply has_may.
  Qed.

  Lemma d_log : forall n j, 1 <= n -> D n (ref "hat-json://logging.yaml") (fun v => ext "hat-json://logging.yaml" v = true) j.
  Proof.
    intros [|n] j H; [lia|]. exists (ext "hat-json://logging.yaml" j). split; [|tauto].
    cbn. now rewrite andb_true_r.
  Qed.

  Lemma d_server : forall n j, 5 <= n -> D n server_yaml (server_form (ext "hat-json://logging.yaml")) j.
  Proof.
    intros [|n] j H; [lia|]. unfold server_yaml.
    eapply dec_iff; [apply dec_object with (P := named [("type", fun v => v = JStr "event"); ("version", is_string);
        ("log", fun v => ext "hat-json://logging.yaml" v = true); ("name", is_string); ("server_id", is_integer);
        ("server_token", string_or_null); ("backend", module_conf); ("modules", list_of module_conf); ("eventer_server", address);
        ("adminer_server", address); ("monitor_component", fun v => address v /\ has v "group" is_string)])|].
    - intros k s v I M. cases I.
      + apply d_const; lia.
      + apply d_string; lia.
      + apply d_log; lia.
      + apply d_string; lia.
      + apply d_integer; lia.
      + apply d_token; lia.
      + destruct n as [|n]; [lia|]. eapply dec_ref; [reflexivity|]. apply d_module; lia.
      + destruct n as [|n]; [lia|]. apply dec_array. intros l x _ _. destruct n as [|n]; [lia|]. eapply dec_ref; [reflexivity|].
        apply d_module; lia.
      + apply d_address; lia.
      + apply d_address; lia.
      + apply d_monitor; lia.
    - cbn beta. unfold server_form. split.
      + intros (O & R & F). unfa F. split; [exact O|]. split.
        * split; [|split; [|split; [|split]]]; apply has_split; auto; apply R; cbn; tauto.
        * tauto.
      + intros (O & (A & B & C & E & G) & (K & L & M & N & P & Q)). split; [exact O|]. split; [intros k I; need I|].
        fa; try assumption; now apply has_may.
  Qed.

  Lemma d_data : forall n j, 3 <= n -> D n monitor_data_yaml
      (fun j => is_object j /\ has j "server_id" is_integer /\ has j "eventer_server" address /\ has j "server_token" string_or_null) j.
  Proof.
    intros [|n] j H; [lia|]. unfold monitor_data_yaml.
    eapply dec_iff; [apply dec_object with (P := named [("server_id", is_integer); ("eventer_server", address); ("server_token", string_or_null)])|].
    - intros k s v I M. cases I; [apply d_integer|apply d_address|apply d_token]; lia.
    - cbn beta. split.
      + intros (O & R & F). unfa F. split; [exact O|]. split; [|split]; apply has_split; auto; apply R; cbn; auto.
      + intros (O & A & B & C). split; [exact O|]. split; [intros k I; need I|]. fa; now apply has_may.
  Qed.

  (** ** The LMDB backend *)

  Lemma d_types : forall n j, 4 <= n -> D n (ref "hat-event://backends/lmdb.yaml#/$defs/event_types") types_form j.
  Proof.
    intros [|n] j H; [lia|]. eapply dec_ref; [reflexivity|]. destruct n as [|n]; [lia|]. apply dec_array. intros l x _ _.
    destruct n as [|n]; [lia|]. apply dec_array. intros l' y _ _. apply d_string; lia.
  Qed.

  Lemma d_limit : forall n j, 3 <= n -> D n (ref "hat-event://backends/lmdb.yaml#/$defs/limit") limit_form j.
  Proof.
    intros [|n] j H; [lia|]. eapply dec_ref; [reflexivity|]. destruct n as [|n]; [lia|].
    eapply dec_cons with (Q := fun j => may j "min_entries" is_number /\ may j "max_entries" is_number /\ may j "duration" is_number /\ may j "size" is_number).
    - apply k_type.
    - eapply dec_cons with (Q := fun _ => True).
      + apply k_props with (P := named [("min_entries", is_number); ("max_entries", is_number); ("duration", is_number); ("size", is_number)]).
        intros k s v I M. cases I; apply d_number; lia.
      + now apply dec_nil.
      + cbn beta. split.
        * intros (A & B & C & E). split; [|exact I]. fa; assumption.
        * intros (F & _). unfa F. tauto.
    - cbn beta. unfold limit_form. split.
      + intros (O & R). split; [|exact R]. exists "object". split; [now left|now apply t_object].
      + intros ((t & [<-|[]] & U) & R). apply t_object in U. tauto.
  Qed.

  Lemma d_path : forall d n j, jdepth j <= d -> 3 * d + 3 <= n -> D n (ref "hat-event://backends/lmdb.yaml#/$defs/path") path_form j.
  Proof.
    induction d as [|d IH]; intros n j Hd Hn; destruct n as [|n]; try lia; (eapply dec_ref; [reflexivity|]); (destruct n as [|n]; [lia|]);
      (eapply dec_cons with (Q := fun _ => True);
       [apply k_one3 with (P := is_string) (Q := is_integer) (R := list_of path_form);
         [apply d_string; lia|apply d_integer; lia| | | | ]
       |now apply dec_nil
       |]).
    all: try (intros [(s & ->) (z & [(z' & E & _)|(m & e & E & _)])]; discriminate).
    all: try (intros [(s & ->) (l & E & _)]; discriminate).
    all: try (intros [(z & [(z' & -> & _)|(m & e & -> & _)]) (l & E & _)]; discriminate).
    1, 3: destruct n as [|n]; [lia|]; apply dec_array; intros l x -> I; pose proof (depth_arr l x I).
    - lia.
    - apply IH; lia.
    - cbn beta. split.
      + intros P. split; [|exact I]. inversion P as [s E|j' Z|l F E]; subst; [left; now exists s|right; now left|].
        right. right. exists l. split; [reflexivity|]. now apply Forall_forall.
      + intros ([(s & ->)|[Z|(l & -> & F)]] & _); [apply path_name|now apply path_index|]. apply path_list. now apply Forall_forall.
    - cbn beta. split.
      + intros P. split; [|exact I]. inversion P as [s E|j' Z|l F E]; subst; [left; now exists s|right; now left|].
        right. right. exists l. split; [reflexivity|]. now apply Forall_forall.
      + intros ([(s & ->)|[Z|(l & -> & F)]] & _); [apply path_name|now apply path_index|]. apply path_list. now apply Forall_forall.
  Qed.
End Forms2.
