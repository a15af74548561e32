(** What is read from an accepted configuration of the LMDB backend. *)
From Coq Require Import String Bool ZArith QArith Qround Lia List.
From Verif Require Import Base Model_Types Model_Subscription Spec_Subscription Spec_Creation Proof_Subscription Proof_Subscription2 Proof_Creation
  Model_Codec Model_Sbs Model_Conditions Model_Monitor Model_Lmdb Model_Schema Model_Conf Spec_Conf Proof_Conf Proof_Conf2 Proof_Conf3 Proof_Conf4.
Import ListNotations.
Open Scope string_scope.
Open Scope list_scope.
Open Scope nat_scope.

Lemma obind_some : forall {A B} (o : option A) (f : A -> option B) y, obind o f = Some y -> exists x, o = Some x /\ f x = Some y.
Proof. intros A B [x|] f y E; [eauto|discriminate]. Qed.

Lemma matches_of : forall qs n, py_create qs = Some n -> forall t, node_matches n t = true <-> selects qs t.
Proof. intros qs n E. exact (proj2 (final_C01 qs) n E). Qed.

Lemma read_entry : forall j k, is_object j -> may j k is_number ->
    (exists o, (do x <- getopt k j; opt_read as_count x) = Some o /\ entry j k floor_of o) /\
    (exists o, (do x <- getopt k j; opt_read as_num x) = Some o /\ entry j k (fun q d => (d == q)%Q) o).
Proof.
  intros j k O H. destruct (opt_member j k O) as [(v & M & E)|(A & E)]; rewrite E; cbn [obind opt_read].
  - split.
    + destruct (read_count v (H v M)) as (n & q & C & N & F). rewrite C. cbn [obind]. eexists. split; [reflexivity|]. exists v, q. auto.
    + destruct (read_num v (H v M)) as (q & C & N). rewrite C. cbn [obind]. eexists. split; [reflexivity|]. exists v, q.
      split; [exact M|]. split; [exact N|reflexivity].
  - split; (exists None; split; [reflexivity|exact A]).
Qed.

Lemma read_limit_ok : forall j, limit_form j -> exists l, read_limit j = Some l /\ limit_read j l.
Proof.
  intros j (O & A & B & C & D). unfold read_limit, limit_read.
  destruct (proj1 (read_entry j "min_entries" O A)) as (a & EA & FA). destruct (proj1 (read_entry j "max_entries" O B)) as (b & EB & FB).
  destruct (proj2 (read_entry j "duration" O C)) as (c & EC & FC). destruct (proj1 (read_entry j "size" O D)) as (d & ED & FD).
  rewrite EA. cbn [obind]. rewrite EB. cbn [obind]. rewrite EC. cbn [obind]. rewrite ED. cbn [obind]. eexists. split; [reflexivity|].
  cbn [lm_min lm_max lm_duration lm_size]. auto.
Qed.

Lemma read_order_ok : forall j, order_form j -> exists o, read_order j = Some o /\
    j = JStr (match o with TIMESTAMP => "TIMESTAMP" | SOURCE_TIMESTAMP => "SOURCE_TIMESTAMP" end).
Proof. intros j [->| ->]; eexists; (split; [reflexivity|]); reflexivity. Qed.

Definition part_form (p : json) : Prop :=
  is_object p /\ has p "order_by" order_form /\ has p "subscriptions" types_form /\ may p "limit" limit_form.

Lemma read_part_ok : forall p, part_form p -> (forall s qs, member p "subscriptions" s -> lists s qs -> accepted qs) ->
    exists y, read_part p = Some y /\ part_read p y.
Proof.
  intros p (O & (x & M & F) & S & L) A. destruct (read_sub p S) as (s & qs & MS & LS & E).
  destruct (read_order_ok x F) as (o & EO & XO). destruct (proj1 (create_ok qs) (A s qs MS LS)) as (n & EN).
  unfold read_part. pose proof (proj2 (get_member _ _ _) M) as G. rewrite G. cbn [obind]. rewrite EO. cbn [obind].
  pose proof (proj2 (get_member _ _ _) MS) as GS. rewrite GS in E |- *. cbn [obind] in E |- *. rewrite E. cbn [obind]. rewrite EN. cbn [obind].
  assert (X : exists l, (do x <- getopt "limit" p; opt_read read_limit x) = Some l /\
                        match l with Some l => exists x, member p "limit" x /\ limit_read x l | None => absent p "limit" end).
  { destruct (opt_member p "limit" O) as [(v & ML & EL)|(AL & EL)]; rewrite EL; cbn [obind opt_read].
    - destruct (read_limit_ok v (L v ML)) as (l & El & Rl). rewrite El. cbn [obind]. eexists. split; [reflexivity|]. exists v. auto.
    - exists None. split; [reflexivity|exact AL]. }
  destruct X as (l & EL & XL). rewrite EL. cbn [obind]. eexists. split; [reflexivity|]. unfold part_read. cbn [pt_order pt_sub pt_limit].
  split; [now rewrite <- XO|]. split; [|exact XL]. exists s, qs. split; [exact MS|]. split; [exact LS|]. now apply matches_of.
Qed.

Definition cond_item (i : json) : Prop := is_object i /\ has i "subscriptions" types_form /\ has i "condition" cond_form.
Definition read_item (i : json) : option (list etype * condition) :=
  do s <- (do x <- getitem "subscriptions" i; read_types x);
  do _n <- py_create s;
  do c <- (do x <- getitem "condition" i; read_cond (S (jdepth x)) x);
  Some (s, c).

Lemma read_item_ok : forall i, cond_item i -> (forall s qs, member i "subscriptions" s -> lists s qs -> accepted qs) ->
    exists y, read_item i = Some y /\
      ((exists s d, member i "subscriptions" s /\ lists s (fst y) /\ member i "condition" d /\ cond_of d (snd y)) /\ exists n, py_create (fst y) = Some n).
Proof.
  intros i (O & S & (d & M & F)) A. destruct (read_sub i S) as (s & qs & MS & LS & E).
  destruct (proj1 (create_ok qs) (A s qs MS LS)) as (n & EN). destruct (read_cond_ok (jdepth d) d (le_n _) F) as (c & EC & CC).
  unfold read_item. rewrite E. cbn [obind]. rewrite EN. cbn [obind]. pose proof (proj2 (get_member _ _ _) M) as G. rewrite G. cbn [obind].
  rewrite EC. cbn [obind]. exists (qs, c). split; [reflexivity|]. cbn [fst snd]. split; [|eauto]. exists s, d. auto.
Qed.

Lemma f2_weaken : forall {A B} (R S : A -> B -> Prop) l m, (forall x y, R x y -> S x y) -> Forall2 R l m -> Forall2 S l m.
Proof. intros A B R S l m H F. induction F; constructor; auto. Qed.

Lemma cond_ops_ok : forall conf i, Forall (fun x => exists n, py_create (fst x) = Some n) conf -> exists ops, cond_ops i conf = Some ops.
Proof.
  induction conf as [|[qs c] conf IH]; intros i F; [exists []; reflexivity|]. inversion F as [|x l (n & E) G]; subst. cbn [fst] in E.
  destruct (IH (S i) G) as (ops & EO). cbn [cond_ops]. rewrite E, EO. eauto.
Qed.

Lemma f2_forall : forall {A B} (P : B -> Prop) (R : A -> B -> Prop) l m, Forall2 (fun x y => R x y /\ P y) l m -> Forall P m.
Proof. intros A B P R l m F. induction F as [|x y l m (_ & H) F IH]; constructor; auto. Qed.

Lemma final_C69_lmdb : forall log_ok j, validates log_ok lmdb_yaml j = true ->
    ((exists c, read_lmdb j = Some c) <-> usable j) /\
    (forall c, read_lmdb j = Some c -> lmdb_read j c /\ forall jget version, exists cf, conf_of jget version c = Some cf).
Proof.
  intros log_ok j V. apply final_C69_lmdb_form in V.
  destruct V as (O & (P & ID & FP & CP & (cj & CM & (cl & -> & CF)) & (la & LM & LO & LF) & (tj & TM & (tl & -> & TF))) & MX & CS).
  assert (U : usable j -> exists c, read_lmdb j = Some c /\ lmdb_read j c /\ forall jget version, exists cf, conf_of jget version c = Some cf).
  { intros (UL & UC).
    assert (AC : forall k l i s qs, (k = "conditions" \/ k = "timeseries") -> member j k (JArr l) -> In i l ->
                   member i "subscriptions" s -> lists s qs -> accepted qs).
    { intros k l i s qs K M I MS LS. apply UL. exists i, s. split; [|auto]. right. exists k, l. auto. }
    destruct (read_str j "db_path" P) as (path & PM & PE).
    destruct (traverse_rel read_item (fun i y =>
       (exists s d, member i "subscriptions" s /\ lists s (fst y) /\ member i "condition" d /\ cond_of d (snd y)) /\ exists n, py_create (fst y) = Some n) cl)
       as (conds & CE & CR).
    { intros x I. apply read_item_ok; [exact (proj1 (Forall_forall _ _) CF x I)|]. intros s qs MS LS. exact (AC "conditions" cl x s qs (or_introl eq_refl) CM I MS LS). }
    destruct (read_sub la LF) as (ls & lq & LMS & LLS & LE).
    destruct (proj1 (create_ok lq)) as (ln & LN). { apply UL. exists la, ls. split; [now left|auto]. }
    destruct (traverse_rel read_part part_read tl) as (parts & PTE & PTR).
    { intros x I. apply read_part_ok; [exact (proj1 (Forall_forall _ _) TF x I)|]. intros s qs MS LS.
      exact (AC "timeseries" tl x s qs (or_intror eq_refl) TM I MS LS). }
    assert (X1 : exists o, (do x <- getopt "timeseries_max_results" j; opt_read as_count x) = Some o /\
       ((exists v, member j "timeseries_max_results" v /\ whole v (match o with Some n => n | None => default_timeseries_max_results end)) \/
        absent j "timeseries_max_results" /\ match o with Some n => n | None => default_timeseries_max_results end = 4096%Z)).
    { destruct (opt_member j "timeseries_max_results" O) as [(v & M & E)|(A & E)]; rewrite E; cbn [obind opt_read].
      - destruct (read_whole v (MX v M)) as (n & EN & W). rewrite EN. cbn [obind]. eexists. split; [reflexivity|]. left. exists v. auto.
      - exists None. split; [reflexivity|]. right. auto. }
    destruct X1 as (mx & MXE & MXR).
    assert (X2 : exists o, (do x <- getopt "timeseries_event_type_cache_size" j; opt_read as_int x) = Some o /\
       (member j "timeseries_event_type_cache_size" (JInt (match o with Some n => n | None => default_timeseries_event_type_cache_size end)) \/
        absent j "timeseries_event_type_cache_size" /\ match o with Some n => n | None => default_timeseries_event_type_cache_size end = 262144%Z)).
    { destruct (opt_member j "timeseries_event_type_cache_size" O) as [(v & M & E)|(A & E)]; rewrite E; cbn [obind opt_read].
      - destruct (UC v M) as (z & ->). cbn [as_int obind]. eexists. split; [reflexivity|]. left. exact M.
      - exists None. split; [reflexivity|]. right. auto. }
    destruct X2 as (cs & CSE & CSR).
    assert (X3 : exists o, (do x <- getitem "identifier" j; as_token x) = Some o /\ member j "identifier" (match o with Some s => JStr s | None => JNull end)).
    { destruct ID as (v & M & F). pose proof (proj2 (get_member _ _ _) M) as G. rewrite G. cbn [obind].
      destruct F as [(s & ->)| ->]; cbn [as_token]; eexists; (split; [reflexivity|]); exact M. }
    destruct X3 as (ident & IE & IM).
    assert (X4 : forall k, has j k is_number -> exists q, (do x <- getitem k j; as_num x) = Some q /\ exists v, member j k v /\ number v q).
    { intros k (v & M & F). destruct (read_num v F) as (q & E & N). pose proof (proj2 (get_member _ _ _) M) as G. rewrite G. cbn [obind].
      exists q. split; [exact E|]. eauto. }
    destruct (X4 _ FP) as (fq & FE & FR). destruct (X4 _ CP) as (cq & CQE & CQR).
    eexists. split.
    - unfold read_lmdb. pose proof (proj2 (get_member _ _ _) CM) as G1. pose proof (proj2 (get_member _ _ _) LM) as G2.
      pose proof (proj2 (get_member _ _ _) TM) as G3. pose proof (proj2 (get_member _ _ _) LMS) as G4.
      rewrite G1. cbn [obind]. unfold read_conds. cbn [items_of obind]. fold read_item.
      rewrite CE. cbn [obind]. rewrite PE. cbn [obind]. rewrite G2. cbn [obind]. rewrite G4 in LE |- *. cbn [obind] in LE |- *. rewrite LE. cbn [obind].
      rewrite LN. cbn [obind]. rewrite G3. cbn [obind items_of]. rewrite PTE. cbn [obind]. rewrite MXE. cbn [obind]. rewrite CSE. cbn [obind].
      rewrite IE. cbn [obind]. rewrite FE. cbn [obind]. rewrite CQE. cbn [obind]. reflexivity.
    - split.
      + unfold lmdb_read. cbn [lc_path lc_ident lc_conds lc_latest lc_parts lc_max lc_cache lc_flush lc_cleanup].
        split; [exact PM|]. split; [exact IM|].
        split; [exists cl; split; [exact CM|]; eapply f2_weaken; [|exact CR]; intros x y (R & _); exact R|].
        split; [exists la; split; [exact LM|]; exists ls, lq; split; [exact LMS|]; split; [exact LLS|]; now apply matches_of|].
        split; [exists tl; auto|]. auto.
      + intros jget version. unfold conf_of, conditions_c. cbn [lc_conds].
        destruct (cond_ops_ok conds 0) as (ops & EO); [eapply f2_forall; exact CR|]. rewrite EO. cbn [obind]. eauto. }
  assert (W : forall c, read_lmdb j = Some c -> usable j).
  { intros c E. unfold read_lmdb in E.
    pose proof (proj2 (get_member _ _ _) CM) as G1. pose proof (proj2 (get_member _ _ _) LM) as G2. pose proof (proj2 (get_member _ _ _) TM) as G3.
    rewrite G1, G2, G3 in E. cbn [obind items_of] in E. unfold read_conds in E. cbn [items_of obind] in E. fold read_item in E.
    apply obind_some in E. destruct E as (conds & CE & E). apply obind_some in E. destruct E as (path & PE & E).
    apply obind_some in E. destruct E as (ln & LN & E). apply obind_some in E. destruct E as (parts & PTE & E).
    apply obind_some in E. destruct E as (mx & MXE & E). apply obind_some in E. destruct E as (cs & CSE & E). clear E.
    assert (K : forall i s qs n, member i "subscriptions" s -> lists s qs -> (do x <- getitem "subscriptions" i; do s <- read_types x; py_create s) = Some n ->
                  has i "subscriptions" types_form -> accepted qs).
    { intros i s qs n M L E H. destruct (read_sub i H) as (s' & qs' & M' & L' & E'). pose proof (member_fun _ _ _ _ M M') as X. subst s'.
      pose proof (lists_fun _ _ _ L L') as Y. subst qs'. pose proof (proj2 (get_member _ _ _) M) as G. rewrite G in E, E'. cbn [obind] in E, E'.
      rewrite E' in E. cbn [obind] in E. apply create_ok. eauto. }
    split.
    - intros qs (i & s & W & M & L). destruct W as [W|(k & l & [->| ->] & W & I)].
      + pose proof (member_fun _ _ _ _ W LM) as X. subst i. exact (K la s qs ln M L LN LF).
      + pose proof (member_fun _ _ _ _ W CM) as X. injection X as ->. destruct (traverse_each _ _ _ CE i I) as (y & EY).
        pose proof (proj1 (Forall_forall _ _) CF i I) as (_ & HS & _). unfold read_item in EY.
        apply obind_some in EY. destruct EY as (qs' & EQ & EY). apply obind_some in EY. destruct EY as (n & EN & _).
        apply (K i s qs n M L); [|exact HS]. apply obind_some in EQ. destruct EQ as (x & EX & EQ). rewrite EX. cbn [obind]. rewrite EQ. exact EN.
      + pose proof (member_fun _ _ _ _ W TM) as X. injection X as ->. destruct (traverse_each _ _ _ PTE i I) as (y & EY).
        pose proof (proj1 (Forall_forall _ _) TF i I) as (_ & _ & HS & _). unfold read_part in EY.
        apply obind_some in EY. destruct EY as (o & EO & EY). apply obind_some in EY. destruct EY as (n & EN & _).
        exact (K i s qs n M L EN HS).
    - intros v M. pose proof (CS v M) as Z. destruct (opt_member j "timeseries_event_type_cache_size" O) as [(v' & M' & E)|(A & E)]; [|destruct (A v M)].
      pose proof (member_fun _ _ _ _ M M') as X. subst v'. rewrite E in CSE. cbn [obind opt_read] in CSE. destruct Z as (z & [(z' & -> & _)|(m & e & -> & _)]); [eauto|].
      cbn in CSE. discriminate. }
  split.
  - split; [intros (c & E); exact (W c E)|]. intros H. destruct (U H) as (c & E & _). eauto.
  - intros c E. destruct (U (W c E)) as (c' & E' & R). rewrite E in E'. injection E' as <-. exact R.
Qed.
