(** What is read from configurations that are accepted. *)
From Coq Require Import String Bool ZArith QArith Qround Lia List.
From Verif Require Import Base Model_Types Model_Subscription Spec_Subscription Spec_Creation Proof_Subscription Proof_Subscription2 Proof_Creation
  Model_Codec Model_Sbs Model_Conditions Model_Monitor Model_Lmdb Model_Schema Model_Conf Spec_Conf Proof_Conf Proof_Conf2 Proof_Conf3.
Import ListNotations.
Open Scope string_scope.
Open Scope list_scope.
Open Scope nat_scope.

Lemma get_member : forall j k v, getitem k j = Some v <-> member j k v.
Proof.
  intros j k v. unfold member. destruct j; cbn; (split; [try discriminate|intros (o & E & G); try discriminate]).
  - intros E. exists l. auto.
  - now injection E as <-.
Qed.

Lemma opt_member : forall j k, is_object j -> (exists v, member j k v /\ getopt k j = Some (Some v)) \/ (absent j k /\ getopt k j = Some None).
Proof.
  intros j k (o & ->). cbn [getopt]. destruct (dget String.eqb k o) as [v|] eqn:E.
  - left. exists v. split; [exists o; auto|reflexivity].
  - right. split; [|reflexivity]. intros v (o' & E' & G). injection E' as <-. rewrite E in G. discriminate.
Qed.

Lemma read_str : forall j k, has j k is_string -> exists s, member j k (JStr s) /\ (do x <- getitem k j; as_str x) = Some s.
Proof. intros j k (v & M & s & ->). exists s. split; [exact M|]. apply get_member in M. rewrite M. reflexivity. Qed.

Lemma traverse_rel : forall {A B} (f : A -> option B) (R : A -> B -> Prop) l,
    (forall x, In x l -> exists y, f x = Some y /\ R x y) -> exists ys, traverse f l = Some ys /\ Forall2 R l ys.
Proof.
  intros A B f R. induction l as [|x l IH]; intros H.
  - exists []. split; [reflexivity|constructor].
  - destruct (H x (or_introl eq_refl)) as (y & E & Y). destruct IH as (ys & F & G); [intros z I; apply H; now right|].
    exists (y :: ys). split; [|now constructor]. cbn [traverse]. rewrite E. cbn [obind]. rewrite F. reflexivity.
Qed.

Lemma traverse_each : forall {A B} (f : A -> option B) l ys, traverse f l = Some ys -> forall x, In x l -> exists y, f x = Some y.
Proof.
  intros A B f. induction l as [|x l IH]; intros ys E y I; [destruct I|]. cbn [traverse] in E.
  destruct (f x) as [z|] eqn:F; [|discriminate]. cbn [obind] in E. destruct (traverse f l) as [zs|] eqn:G; [|discriminate].
  destruct I as [<-|I]; [eauto|]. exact (IH zs eq_refl y I).
Qed.

(** ** The server *)

Lemma read_module : forall m, module_conf m -> exists y, (do n <- (do x <- getitem "module" m; as_str x); Some (n, m)) = Some y /\
    (m = snd y /\ member m "module" (JStr (fst y))).
Proof.
  intros m (O & H). destruct (read_str m "module" H) as (s & M & E). rewrite E. exists (s, m). cbn [obind fst snd]. auto.
Qed.

Lemma read_address : forall a, address a -> exists h p,
    (do h <- (do x <- getitem "host" a; as_str x); do p <- getitem "port" a; Some (h, p)) = Some (h, p) /\ at_address a h p /\ is_integer p.
Proof.
  intros a (O & H & (p & M & Z)). destruct (read_str a "host" H) as (h & N & E). exists h, p. rewrite E. cbn [obind].
  pose proof (proj2 (get_member _ _ _) M) as G. rewrite G. cbn [obind]. repeat split; assumption.
Qed.

Lemma final_C69_server : forall log_ok j, validates log_ok server_yaml j = true -> exists c, read_server j = Some c /\ server_read j c.
Proof.
  intros log_ok j V. apply final_C69_server_form in V.
  destruct V as (O & (N & (sid & SM & SZ) & (b & BM & BF) & (ms & MM & (l & -> & ML)) & (es & EM & EA)) & (_ & _ & _ & TK & AD & MO)).
  destruct (read_str j "name" N) as (name & NM & NE).
  destruct BF as (BO & BF). destruct (read_str b "module" BF) as (bm & BMM & BE).
  destruct (read_address es EA) as (h & p & RA & AT & PZ).
  destruct (traverse_rel (fun m => do n <- (do x <- getitem "module" m; as_str x); Some (n, m))
              (fun m y => m = snd y /\ member m "module" (JStr (fst y))) l) as (mods & TE & TF).
  { intros x I. apply read_module. now apply (proj1 (Forall_forall _ _) ML). }
  assert (T : exists t, (do x <- getopt "server_token" j; match x with Some t => as_token t | None => Some None end) = Some t /\
                        (forall s, t = Some s <-> member j "server_token" (JStr s))).
  { destruct (opt_member j "server_token" O) as [(v & M & E)|(A & E)]; rewrite E; cbn [obind].
    - destruct (TK v M) as [(s & ->)| ->]; cbn [as_token].
      + exists (Some s). split; [reflexivity|]. intros s'. split; [intros [= <-]; exact M|]. intros M'.
        pose proof (member_fun _ _ _ _ M M') as X. now injection X as <-.
      + exists None. split; [reflexivity|]. intros s'. split; [discriminate|]. intros M'. pose proof (member_fun _ _ _ _ M M') as X. discriminate.
    - exists None. split; [reflexivity|]. intros s'. split; [discriminate|]. intros M'. destruct (A _ M'). }
  destruct T as (t & TEQ & TT).
  assert (AX : exists a, (do x <- getopt "adminer_server" j;
                 opt_read (fun a => do h <- (do x <- getitem "host" a; as_str x); do p <- getitem "port" a; Some (h, p)) x) = Some a /\
                 match a with Some (h, p) => is_integer p /\ exists y, member j "adminer_server" y /\ at_address y h p | None => absent j "adminer_server" end).
  { destruct (opt_member j "adminer_server" O) as [(v & M & E)|(A & E)]; rewrite E; cbn [obind opt_read].
    - destruct (read_address v (AD v M)) as (h' & p' & RA' & AT' & PZ'). rewrite RA'. cbn [obind]. eexists. split; [reflexivity|].
      cbn. split; [exact PZ'|]. exists v. auto.
    - exists None. split; [reflexivity|exact A]. }
  destruct AX as (a & AEQ & AA).
  assert (MX : exists a, (do x <- getopt "monitor_component" j;
                 opt_read (fun m => do h <- (do x <- getitem "host" m; as_str x); do p <- getitem "port" m;
                                    do g <- (do x <- getitem "group" m; as_str x); Some (h, p, g)) x) = Some a /\
                 match a with Some (h, p, g) => is_integer p /\ exists y, member j "monitor_component" y /\ at_address y h p /\ member y "group" (JStr g)
                 | None => absent j "monitor_component" end).
  { destruct (opt_member j "monitor_component" O) as [(v & M & E)|(A & E)]; rewrite E; cbn [obind opt_read].
    - destruct (MO v M) as ((VO & H & (p' & PM & PZ')) & G). destruct (read_str v "host" H) as (h' & HM & HE).
      destruct (read_str v "group" G) as (g & GM & GE). rewrite HE, GE. pose proof (proj2 (get_member _ _ _) PM) as PE. rewrite PE. cbn [obind].
      eexists. split; [reflexivity|]. cbn. split; [exact PZ'|]. exists v. split; [exact M|]. split; [split; assumption|exact GM].
    - exists None. split; [reflexivity|exact A]. }
  destruct MX as (mo & MEQ & MO').
  assert (LX : exists a, getopt "log" j = Some a /\ match a with Some v => member j "log" v | None => absent j "log" end).
  { destruct (opt_member j "log" O) as [(v & M & E)|(A & E)]; eauto. }
  destruct LX as (lg & LEQ & LL).
  exists (ServerConf name sid t bm b mods h p a mo lg). split.
  - unfold read_server. pose proof (proj2 (get_member _ _ _) BM) as X1. pose proof (proj2 (get_member _ _ _) EM) as X2.
    pose proof (proj2 (get_member _ _ _) SM) as X3. pose proof (proj2 (get_member _ _ _) MM) as X4.
    rewrite X1. cbn [obind]. rewrite BE. cbn [obind]. rewrite X2. cbn [obind].
    destruct (do x <- getitem "host" es; as_str x) as [h'|] eqn:HE; [|cbn [obind] in RA; discriminate]. cbn [obind] in RA |- *.
    destruct (getitem "port" es) as [p'|] eqn:PE; [|cbn [obind] in RA; discriminate]. cbn [obind] in RA |- *. injection RA as -> ->.
    rewrite X3. cbn [obind]. rewrite TEQ. cbn [obind]. rewrite LEQ. cbn [obind]. rewrite AEQ. cbn [obind]. rewrite NE. cbn [obind].
    rewrite MEQ. cbn [obind]. rewrite X4. cbn [obind items_of]. rewrite TE. reflexivity.
  - unfold server_read. cbn [sv_name sv_id sv_token sv_module sv_backend sv_modules sv_host sv_port sv_adminer sv_monitor sv_log].
    repeat (split; [first [exact NM | split; assumption | exact TT | exists l; auto | split; [exists es; auto|exact PZ] | exact AA | exact MO']|]).
    exact LL.
Qed.

(** ** Numbers *)

Lemma float_value_eq : forall m e, (float_value m e == inject_Z m * Qpower 2 e)%Q.
Proof.
  intros m e. unfold float_value. destruct (Z.leb_spec 0 e) as [H|H].
  - rewrite qpow_pos by exact H. now rewrite <- inject_Z_mult.
  - rewrite qpow_neg by exact H. pose proof (pow2_pos (- e) ltac:(lia)) as P. destruct (2 ^ (- e))%Z as [|q|q] eqn:E; try lia.
    cbn [Z.to_pos]. rewrite Qmake_Qdiv. reflexivity.
Qed.

Lemma read_num : forall j, is_number j -> exists q, as_num j = Some q /\ number j q.
Proof.
  intros j (q & [(z & -> & E)|(m & e & -> & E)]); cbn [as_num]; eexists; (split; [reflexivity|]).
  - left. exists z. split; reflexivity.
  - right. exists m, e. split; [reflexivity|apply float_value_eq].
Qed.

Lemma number_fun : forall j p q, number j p -> number j q -> (p == q)%Q.
Proof.
  intros j p q [(z & -> & E)|(m & e & -> & E)] [(z' & E' & F)|(m' & e' & E' & F)]; try discriminate.
  - injection E' as <-. now rewrite E, F.
  - injection E' as <- <-. now rewrite E, F.
Qed.

Lemma floor_ok : forall q, floor_of q (Qfloor q).
Proof. intros q. split; [apply Qfloor_le|]. exact (Qlt_floor q). Qed.

Lemma read_count : forall j, is_number j -> exists n q, as_count j = Some n /\ number j q /\ floor_of q n.
Proof.
  intros j H. destruct (read_num j H) as (q & E & N). unfold as_count. rewrite E. exists (Qfloor q), q. split; [reflexivity|].
  split; [exact N|apply floor_ok].
Qed.

Lemma read_whole : forall j, is_integer j -> exists n, as_count j = Some n /\ whole j n.
Proof.
  intros j (z & W). destruct (read_num j) as (q & E & N); [now exists (inject_Z z)|]. exists z. split; [|exact W].
  unfold as_count. rewrite E. cbn [option_map]. rewrite (Qfloor_comp _ _ (number_fun _ _ _ N W)). now rewrite Qfloor_Z.
Qed.

(** ** Event types and subscriptions *)

Lemma read_types_ok : forall j, types_form j -> exists qs, lists j qs /\ read_types j = Some qs.
Proof.
  intros j (l & -> & F).
  assert (X : exists qs, l = map (fun t => JArr (map JStr t)) qs /\ traverse (fun i => do s <- items_of i; traverse as_str s) l = Some qs).
  { induction F as [|x l (m & -> & G) F IH]; [exists []; split; reflexivity|]. destruct IH as (qs & E & T).
    assert (Y : exists t, m = map JStr t /\ traverse as_str m = Some t).
    { clear -G. induction G as [|y m (s & ->) G IH]; [exists []; split; reflexivity|]. destruct IH as (t & E & T). exists (s :: t).
      cbn [map traverse as_str obind]. rewrite T, E. split; reflexivity. }
    destruct Y as (t & Em & Et). exists (t :: qs). cbn [map traverse items_of obind]. rewrite Et. cbn [obind]. rewrite T. cbn [obind].
    rewrite Em, E. split; reflexivity. }
  destruct X as (qs & E & T). exists qs. split; [unfold lists; now rewrite E|]. exact T.
Qed.

Lemma map_str_inj : forall a b, map JStr a = map JStr b -> a = b.
Proof.
  induction a as [|x a IH]; intros [|y b] E; try discriminate; auto. cbn in E. injection E as -> E. f_equal. auto.
Qed.

Lemma lists_fun : forall j a b, lists j a -> lists j b -> a = b.
Proof.
  unfold lists. intros j a b -> E. injection E as E. revert b E.
  induction a as [|x a IH]; intros [|y b] E; try discriminate; auto. cbn in E. injection E as E F. apply map_str_inj in E. f_equal; auto.
Qed.

Lemma create_ok : forall qs, accepted qs <-> exists n, py_create qs = Some n.
Proof. intros qs. unfold accepted. symmetry. apply final_C01_creation. Qed.

Lemma read_sub : forall i, has i "subscriptions" types_form -> exists x qs, member i "subscriptions" x /\ lists x qs /\
    (do x <- getitem "subscriptions" i; read_types x) = Some qs.
Proof.
  intros i (x & M & F). destruct (read_types_ok x F) as (qs & L & E). exists x, qs. split; [exact M|]. split; [exact L|].
  pose proof (proj2 (get_member _ _ _) M) as G. rewrite G. exact E.
Qed.

(** ** Conditions *)

Lemma read_cond_ok : forall d j, jdepth j <= d -> cond_form j -> exists c, read_cond (S d) j = Some c /\ cond_of j c.
Proof.
  induction d as [d IH] using lt_wf_ind. intros j Hd H.
  assert (L : forall l k, member j k (JArr l) -> (forall c, In c l -> cond_form c) -> exists cs, traverse (read_cond d) l = Some cs /\ conds_of l cs).
  { intros l k M F. pose proof (depth_obj _ _ _ M) as DM.
    assert (G : forall m, incl m l -> exists cs, traverse (read_cond d) m = Some cs /\ conds_of m cs).
    { induction m as [|x m IHm]; intros I; [exists []; split; [reflexivity|constructor]|].
      destruct IHm as (cs & E & C); [intros y J; apply I; now right|].
      assert (X : In x l) by (apply I; now left). pose proof (depth_arr l x X) as DX.
      destruct (IH (d - 1)) with (j := x) as (c & Ec & Cc); [lia|lia|now apply F|]. replace (S (d - 1)) with d in Ec by lia.
      exists (c :: cs). cbn [traverse]. rewrite Ec. cbn [obind]. rewrite E. split; [reflexivity|now constructor]. }
    apply G. apply incl_refl. }
  inversion H as [j' l T C F E|j' l T C F E|j' T P Y E]; subst; cbn [read_cond];
    pose proof (proj2 (get_member _ _ _) T) as GT; rewrite GT; cbn [obind as_str String.eqb Ascii.eqb Bool.eqb].
  - destruct (L l "conditions" C F) as (cs & TE & CC). pose proof (proj2 (get_member _ _ _) C) as GC. rewrite GC. cbn [obind items_of].
    rewrite TE. cbn [obind]. eexists. split; [reflexivity|]. eapply of_all; eauto.
  - destruct (L l "conditions" C F) as (cs & TE & CC). pose proof (proj2 (get_member _ _ _) C) as GC. rewrite GC. cbn [obind items_of].
    rewrite TE. cbn [obind]. eexists. split; [reflexivity|]. eapply of_any; eauto.
  - pose proof (member_obj _ _ _ T) as O.
    assert (X1 : exists p, getopt "data_path" j = Some p /\ match p with Some x => member j "data_path" x | None => absent j "data_path" end).
    { destruct (opt_member j "data_path" O) as [(v & M & E)|(A & E)]; eauto. }
    assert (X2 : exists p, (do x <- getopt "data_type" j; opt_read as_str x) = Some p /\
                 match p with Some x => member j "data_type" (JStr x) | None => absent j "data_type" end).
    { destruct (opt_member j "data_type" O) as [(v & M & E)|(A & E)]; rewrite E; cbn [obind opt_read]; [|eauto].
      destruct (Y v M) as (s & -> & _). cbn [as_str obind]. eauto. }
    assert (X3 : exists p, getopt "data_value" j = Some p /\ match p with Some x => member j "data_value" x | None => absent j "data_value" end).
    { destruct (opt_member j "data_value" O) as [(v & M & E)|(A & E)]; eauto. }
    destruct X1 as (p & E1 & F1). destruct X2 as (t & E2 & F2). destruct X3 as (v & E3 & F3).
    rewrite E1. cbn [obind]. rewrite E2. cbn [obind]. rewrite E3. cbn [obind]. eexists. split; [reflexivity|]. now apply of_json.
Qed.
