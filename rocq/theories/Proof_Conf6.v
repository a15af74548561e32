(** Start of the server, ids of events, and configurations that are accepted
    though they can't be used. *)
From Coq Require Import String Bool ZArith QArith Lia List.
From Verif Require Import Base Model_Types Model_Subscription Model_Codec Model_Sbs Model_Conditions Model_Monitor Model_Lmdb Model_Schema Model_Conf Spec_Conf
  Proof_Codec Proof_Conf Proof_Conf2 Proof_Conf3 Proof_Conf4 Proof_Conf5.
Import ListNotations.
Open Scope string_scope.
Open Scope list_scope.

Lemma modules_read : forall modules l ms,
    traverse (fun m => do n <- (do x <- getitem "module" m; as_str x); Some (n, m)) l = Some ms ->
    traverse (fun c => do n <- (do x <- getitem "module" c; as_str x); Some (info_ok (modules n) c)) l =
    Some (map (fun m => info_ok (modules (fst m)) (snd m)) ms).
Proof.
  intros modules. induction l as [|m l IH]; intros ms H; cbn [traverse] in *.
  - now injection H as <-.
  - destruct (do x <- getitem "module" m; as_str x) as [n|]; cbn [obind] in *; [|discriminate].
    destruct (traverse _ l) as [ys|] eqn:T in H; cbn [obind] in *; [|discriminate]. injection H as <-.
    rewrite (IH ys T). reflexivity.
Qed.

Lemma final_C69_main : forall log_ok dict_ok backends modules j,
    sync_main log_ok dict_ok backends modules j = true <->
    validates log_ok server_yaml j = true /\ exists c, read_server j = Some c /\
      info_ok (backends (sv_module c)) (sv_backend c) = true /\
      Forall (fun m => info_ok (modules (fst m)) (snd m) = true) (sv_modules c) /\
      (forall x, sv_log c = Some x -> truthy x = true -> dict_ok x = true).
Proof.
  intros log_ok dict_ok backends modules j. unfold sync_main. rewrite andb_true_iff.
  assert (K : validates log_ok server_yaml j = true -> exists c, read_server j = Some c) by
    (intros V; destruct (final_C69_server log_ok j V) as (c & R & _); eauto).
  assert (L : forall c, read_server j = Some c ->
    (do b <- getitem "backend" j;
     do m <- (do x <- getitem "module" b; as_str x);
     do l <- (do x <- getitem "modules" j; items_of x);
     do r <- traverse (fun c => do n <- (do x <- getitem "module" c; as_str x); Some (info_ok (modules n) c)) l;
     do log <- getopt "log" j;
     Some (info_ok (backends m) b && forallb (fun x => x) r &&
           match log with Some x => if truthy x then dict_ok x else true | None => true end)) =
    Some (info_ok (backends (sv_module c)) (sv_backend c) && forallb (fun x => x) (map (fun m => info_ok (modules (fst m)) (snd m)) (sv_modules c)) &&
          match sv_log c with Some x => if truthy x then dict_ok x else true | None => true end)).
  { intros c R. unfold read_server in R.
    destruct (obind_some _ _ _ R) as (b & E1 & R1). destruct (obind_some _ _ _ R1) as (m & E2 & R2).
    destruct (obind_some _ _ _ R2) as (es & E3 & R3). destruct (obind_some _ _ _ R3) as (h & E4 & R4).
    destruct (obind_some _ _ _ R4) as (p & E5 & R5). destruct (obind_some _ _ _ R5) as (id & E6 & R6).
    destruct (obind_some _ _ _ R6) as (tk & E7 & R7). destruct (obind_some _ _ _ R7) as (lg & E8 & R8).
    destruct (obind_some _ _ _ R8) as (ad & E9 & R9). destruct (obind_some _ _ _ R9) as (nm & E10 & R10).
    destruct (obind_some _ _ _ R10) as (mo & E11 & R11). destruct (obind_some _ _ _ R11) as (ms & E12 & R12).
    destruct (obind_some _ _ _ R12) as (l & E13 & R13). destruct (obind_some _ _ _ R13) as (md & E14 & R14).
    injection R14 as <-. cbn [sv_module sv_backend sv_modules sv_log].
    rewrite E1. cbn [obind]. rewrite E2. cbn [obind]. rewrite E12. cbn [obind]. rewrite E13. cbn [obind].
    rewrite (modules_read modules l md E14). cbn [obind]. rewrite E8. reflexivity. }
  split.
  - intros (V & H). split; [exact V|]. destruct (K V) as (c & R). exists c. split; [exact R|]. rewrite (L c R) in H.
    apply andb_true_iff in H. destruct H as (H & C). apply andb_true_iff in H. destruct H as (A & B). split; [exact A|]. split.
    + apply Forall_forall. intros m I. rewrite forallb_forall in B. apply B. apply in_map_iff. eauto.
    + intros x E T. rewrite E, T in C. exact C.
  - intros (V & c & R & A & B & C). split; [exact V|]. rewrite (L c R), A. cbn [andb]. apply andb_true_iff. split.
    + apply forallb_forall. intros x I. apply in_map_iff in I. destruct I as (m & <- & I). exact (proj1 (Forall_forall _ _) B m I).
    + destruct (sv_log c) as [x|]; [|reflexivity]. destruct (truthy x) eqn:T; [|reflexivity]. now apply C.
Qed.

(** ** Server id *)

Lemma pack_some : forall v, (0 <= v < 2 ^ 64)%Z -> pack 8 v = Some (be 8 v).
Proof. intros v H. apply pack_ok. exact H. Qed.
Lemma pack_range : forall v a, pack 8 v = Some a -> (0 <= v < 2 ^ 64)%Z.
Proof. intros v a H. apply pack_Some in H. exact (proj1 H). Qed.

Lemma final_C69_server_id : forall log_ok j c session instance, validates log_ok server_yaml j = true -> read_server j = Some c ->
    (0 <= session < 2 ^ 64)%Z -> (0 <= instance < 2 ^ 64)%Z ->
    (exists b, encode_id (sv_id c) session instance = Some b) <-> (exists z, sv_id c = JInt z /\ 0 <= z < 2 ^ 64)%Z.
Proof.
  intros log_ok j c session instance V R HS HI.
  destruct (final_C69_server log_ok j V) as (c' & R' & S). assert (c' = c) by congruence. subst c'. clear R'.
  destruct S as (_ & (_ & Ii) & _). unfold encode_id. destruct Ii as (z & [(y & E & _)|(m & e & E & _)]); rewrite E.
  - cbn [as_int obind]. unfold encode_event_id. cbn [eid_server eid_session eid_instance].
    rewrite (pack_some session HS), (pack_some instance HI). split.
    + intros (b & B). destruct (pack 8 y) as [a|] eqn:P; [|discriminate]. exists y. split; [reflexivity|]. now apply pack_range with (1 := P).
    + intros (x & X & H). injection X as <-. rewrite (pack_some y H). cbn [obind]. eauto.
  - split; [intros (b & B); discriminate|intros (x & X & _); discriminate].
Qed.

(** ** Configurations that can't be used *)

Definition lmdb_only (log_ok : json -> bool) (m : string) : option (option (json -> bool)) :=
  if String.eqb m "hat.event.backends.lmdb" then lmdb_info log_ok else None.

Definition backend_with (subs : json) (rest : list (string * json)) : json :=
  JObj ([("module", JStr "hat.event.backends.lmdb"); ("db_path", JStr "event.db"); ("identifier", JNull);
         ("flush_period", JInt 10); ("cleanup_period", JInt 60); ("conditions", JArr []);
         ("latest", JObj [("subscriptions", subs)]); ("timeseries", JArr [])] ++ rest).
Definition server_with (id : json) (backend : json) : json :=
  JObj [("name", JStr "event"); ("server_id", id); ("backend", backend); ("modules", JArr []);
        ("eventer_server", JObj [("host", JStr "127.0.0.1"); ("port", JInt 23012)])].

Lemma final_C69_refuted : forall log_ok dict_ok modules, exists j1 j2,
    forall j, j = j1 \/ j = j2 ->
    sync_main log_ok dict_ok (lmdb_only log_ok) modules j = true /\ exists c, read_server j = Some c /\ read_lmdb (sv_backend c) = None.
Proof.
  intros log_ok dict_ok modules.
  exists (server_with (JInt 1) (backend_with (JArr [JArr [JStr "*"; JStr "a"]]) [])),
         (server_with (JInt 1) (backend_with (JArr [JArr [JStr "*"]]) [("timeseries_event_type_cache_size", JFloat 1 12)])).
  intros j [-> | ->]; (split; [reflexivity|eexists; split; reflexivity]).
Qed.

Lemma final_C69_server_id_refuted : forall log_ok dict_ok modules, exists j1 j2,
    forall j, j = j1 \/ j = j2 ->
    sync_main log_ok dict_ok (lmdb_only log_ok) modules j = true /\
    exists c b, read_server j = Some c /\ read_lmdb (sv_backend c) = Some b /\ forall session instance, encode_id (sv_id c) session instance = None.
Proof.
  intros log_ok dict_ok modules.
  exists (server_with (JInt (-1)) (backend_with (JArr [JArr [JStr "*"]]) [])),
         (server_with (JFloat 1 0) (backend_with (JArr [JArr [JStr "*"]]) [])).
  intros j [-> | ->]; (split; [reflexivity|]); (eexists; eexists; split; [reflexivity|split; [reflexivity|intros; reflexivity]]).
Qed.
