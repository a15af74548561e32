(** Eventer server: connections. *)
From Coq Require Import String Bool ZArith Arith Lia List.
From Verif Require Import Base Model_Types Model_Subscription Spec_Subscription Proof_Subscription2 Model_Eventer Spec_Eventer.
Import ListNotations.
Open Scope string_scope.
Open Scope list_scope.
Open Scope nat_scope.

(** ** Dictionaries with numbers *)

Lemma nget_nset : forall A n m (x : A) l, nget n (nset m x l) = if Nat.eqb n m then Some x else nget n l.
Proof.
  intros A n m x l. unfold nget, nset. destruct (Nat.eqb_spec n m) as [->|H].
  - apply (dget_dset_same Nat.eqb_eq).
  - now apply (dget_dset_other Nat.eqb_eq).
Qed.

Lemma nget_ndel : forall A n m (l : list (nat * A)), NoDup (keys l) -> nget n (ndel m l) = if Nat.eqb n m then None else nget n l.
Proof.
  intros A n m l H. unfold nget, ndel. destruct (Nat.eqb_spec n m) as [->|Hn].
  - now apply (dget_ddel_same Nat.eqb_eq).
  - now apply (dget_ddel_other Nat.eqb_eq).
Qed.

Lemma nget_snoc : forall A n m (x : A) l, nget n (l ++ [(m, x)]) = match nget n l with Some y => Some y | None => if Nat.eqb n m then Some x else None end.
Proof.
  intros A n m x l. unfold nget. induction l as [|[k y] l IH]; cbn [app dget]; [reflexivity|].
  destruct (Nat.eqb n k); auto.
Qed.

Lemma nget_In : forall A n (x : A) l, nget n l = Some x -> In (n, x) l.
Proof. intros A n x l. apply (dget_In Nat.eqb_eq). Qed.

Lemma In_nget : forall A n (x : A) l, NoDup (keys l) -> In (n, x) l -> nget n l = Some x.
Proof. intros A n x l. apply (In_dget Nat.eqb_eq). Qed.

Lemma nget_keys : forall A n (l : list (nat * A)), In n (keys l) <-> exists x, nget n l = Some x.
Proof.
  intros A n l. destruct (nget n l) as [x|] eqn:E.
  - split; eauto. intros _. apply nget_In in E. now apply (in_map fst) in E.
  - apply (dget_None Nat.eqb_eq) in E. split; [contradiction|]. intros [x [=]].
Qed.

Lemma NoDup_nset : forall A n (x : A) l, NoDup (keys l) -> NoDup (keys (nset n x l)).
Proof. intros A n x l. apply (NoDup_dset Nat.eqb_eq). Qed.

Lemma NoDup_ndel : forall A n (l : list (nat * A)), NoDup (keys l) -> NoDup (keys (ndel n l)).
Proof. intros A n l. apply NoDup_ddel. Qed.

Lemma nmem_In : forall n l, nmem n l = true <-> In n l.
Proof.
  intros n l. unfold nmem. rewrite existsb_exists. split.
  - intros (x & H & E). apply Nat.eqb_eq in E. now subst.
  - intros H. exists n. split; auto. apply Nat.eqb_refl.
Qed.

(** ** Steps *)

Ltac vstep H :=
  unfold vexec, accept, refuse, fail in H;
  repeat match type of H with
         | context [match ?x with _ => _ end] => let E := fresh "E" in destruct x eqn:E; try discriminate
         end;
  try (injection H as <- <-).

Ltac parts :=
  cbn [use next_conv with_conns with_infos with_sets with_notes with_acks with_status set_phase leave
       v_status v_engine v_open v_next v_conns v_infos v_sets v_notes v_acks v_tasks v_conv v_used fst snd] in *.

Lemma phase_set : forall s c h c', phase_of (set_phase s c h) c' = if Nat.eqb c' c then h else phase_of s c'.
Proof.
  intros s c h c'. unfold phase_of, set_phase. parts. rewrite nget_nset. now destruct (Nat.eqb c' c).
Qed.

Lemma up_set : forall s c h c', is_up (set_phase s c h) c' = is_up s c'.
Proof.
  intros s c h c'. unfold is_up, set_phase. parts. rewrite nget_nset. destruct (Nat.eqb_spec c' c) as [->|]; reflexivity.
Qed.

Lemma phase_leave : forall s c c', phase_of (leave s c) c' =
    if Nat.eqb c' c then match info_of (phase_of s c) with Some i => HBye i | None => HEnd end else phase_of s c'.
Proof.
  intros s c c'. unfold phase_of at 1, leave. parts. rewrite nget_nset. now destruct (Nat.eqb c' c).
Qed.

Lemma up_leave : forall s c c', is_up (leave s c) c' = if Nat.eqb c' c then false else is_up s c'.
Proof.
  intros s c c'. unfold is_up at 1, leave. parts. rewrite nget_nset. now destruct (Nat.eqb c' c).
Qed.

(** Anything but connections changes. *)
Lemma phase_eq : forall s s', v_conns s' = v_conns s -> forall c, phase_of s' c = phase_of s c.
Proof. intros s s' H c. unfold phase_of. now rewrite H. Qed.
Lemma up_eq : forall s s', v_conns s' = v_conns s -> forall c, is_up s' c = is_up s c.
Proof. intros s s' H c. unfold is_up. now rewrite H. Qed.

Definition live (h : phase) : option info :=
  match h with HIdle i | HRegister i _ _ | HQuery i _ => Some i | _ => None end.

(** The information was made of the request of an admissible client. *)
Definition made (token : option string) (req : init_req) (i : info) : Prop :=
  py_create (ir_subs req) = Some (in_sub i) /\ in_server i = ir_server req /\ in_persisted i = ir_persisted req /\
  in_name i = ir_name req /\ token_ok token req.

(** Connections that are going to be sent something by calls. *)
Definition refs (s : vstate) : list nat :=
  flat_map snd (v_sets s) ++ flat_map (fun x => map fst (snd x)) (v_notes s) ++ map tk_conn (v_tasks s).

(** What a step does with connections. *)
Inductive cstep (token : option string) (s s' : vstate) (o : vop) (l : list vout) : Prop :=
| cs_same : v_conns s' = v_conns s -> v_infos s' = v_infos s -> v_next s' = v_next s -> ids_in l = [] ->
    (forall c, closes c o = false) -> (forall c, init_op c o = None) ->
    (forall c m, In (Sent c m) l -> is_up s c = true /\ is_initres m = false /\ (live (phase_of s c) <> None \/ In c (refs s))) -> cstep token s s' o l
| cs_new : o = VAccept -> l = [Accepted (v_next s)] -> v_next s' = S (v_next s) -> v_conns s' = v_conns s ++ [(v_next s, Conn true HNew)] ->
    v_infos s' = v_infos s -> cstep token s s' o l
| cs_lost : forall c k, o = VLost c -> nget c (v_conns s) = Some k -> l = [] -> s' = with_conns s (nset c (Conn false (k_phase k)) (v_conns s)) ->
    cstep token s s' o l
| cs_leave : forall c, s' = leave s c -> l = [] -> phase_of s c <> HEnd -> (forall i, phase_of s c <> HBye i) ->
    closes c o = true \/ is_up s c = false -> (forall c', closes c' o = true -> c' = c) ->
    (forall c', init_op c' o <> None -> c' = c /\ phase_of s c = HNew) -> cstep token s s' o l
| cs_phase : forall c h, s' = set_phase s c h -> live h = live (phase_of s c) -> (live h = None -> (exists i, phase_of s c = HBye i) /\ h = HEnd) ->
    ids_in l = [] -> (forall c, closes c o = false) -> (forall c, init_op c o = None) ->
    (forall c' m, In (Sent c' m) l -> c' = c /\ is_up s c = true /\ is_initres m = false /\ live (phase_of s c) <> None) -> cstep token s s' o l
| cs_hello : forall c conv req e i rs, o = VInit c conv req e -> phase_of s c = HNew -> s' = set_phase s c (HHello conv i) ->
    l = [EngineCall c rs] -> made token req i -> cstep token s s' o l
| cs_accept : forall c conv i, s' = with_infos (set_phase s c (HIdle i)) (nset c i (v_infos s)) -> is_up s c = true ->
    l = [Sent c (MInitRes conv (Some (v_status s)))] -> (forall c, closes c o = false) ->
    (phase_of s c = HHello conv i /\ o = VHello c true \/ phase_of s c = HNew /\ exists req e, o = VInit c conv req e /\ made token req i) ->
    cstep token s s' o l
| cs_refuse : forall c conv, is_up s c = true /\ s' = set_phase s c HRefused /\ l = [Sent c (MInitRes conv None)] \/
    is_up s c = false /\ s' = leave (set_phase s c HRefused) c /\ l = [] ->
    (forall c, closes c o = false) ->
    ((exists i, phase_of s c = HHello conv i) /\ o = VHello c false \/
     phase_of s c = HNew /\ exists req e, o = VInit c conv req e /\ ~ (token_ok token req /\ py_create (ir_subs req) <> None)) ->
    cstep token s s' o l.

Lemma nget_refs_sets : forall s n c cs, nget n (v_sets s) = Some (c :: cs) -> In c (refs s).
Proof.
  intros s n c cs H. apply nget_In in H. unfold refs. rewrite in_app_iff. left. apply in_flat_map. exists (n, c :: cs). split; auto. now left.
Qed.

Lemma nget_refs_notes : forall s n c es ts, nget n (v_notes s) = Some ((c, es) :: ts) -> In c (refs s).
Proof.
  intros s n c es ts H. apply nget_In in H. unfold refs. rewrite !in_app_iff. right. left. apply in_flat_map.
  exists (n, (c, es) :: ts). split; auto. now left.
Qed.

Lemma find_refs : forall s n c x, find_task n c (v_tasks s) = Some x -> In c (refs s).
Proof.
  intros s n c x H. unfold find_task in H. destruct (find (of_task n c) (v_tasks s)) as [t|] eqn:E; [|discriminate].
  apply find_some in E as [E1 E2]. unfold of_task in E2. apply andb_true_iff in E2 as [_ E2]. apply Nat.eqb_eq in E2.
  unfold refs. rewrite !in_app_iff. right. right. apply in_map_iff. exists t. auto.
Qed.

Ltac sent_out :=
  cbn [In]; intros ? ? HH; repeat match type of HH with _ \/ _ => destruct HH as [HH|HH] end; try contradiction; try discriminate;
  try (injection HH as <- <-).

Ltac easy_same := apply cs_same; [reflexivity|reflexivity|reflexivity|reflexivity|intros; reflexivity|intros; reflexivity|
   sent_out; try (split; [assumption|]; split; [reflexivity|]; first
     [left; match goal with E : phase_of _ _ = _ |- _ => rewrite E; discriminate end
     |right; eapply nget_refs_sets; eassumption|right; eapply nget_refs_notes; eassumption|right; eapply find_refs; eassumption])].

Ltac leave_c c :=
  apply (cs_leave _ _ _ _ _ c); [reflexivity|reflexivity|congruence|intros; congruence|
    first [left; cbn [closes]; apply Nat.eqb_refl|right; assumption]|
    cbn [closes]; intros ? HH; try discriminate; apply Nat.eqb_eq in HH; congruence|
    cbn [init_op]; intros c' HH; first [exfalso; apply HH; reflexivity|destruct (Nat.eqb_spec c c'); [split; congruence|congruence]]].

Ltac phase_c c h :=
  apply (cs_phase _ _ _ _ _ c h); [reflexivity|
    match goal with E : phase_of _ _ = _ |- _ => rewrite E; reflexivity end|
    first [discriminate|intros _; split; [eauto|reflexivity]]|
    reflexivity|intros; reflexivity|intros; reflexivity|
    sent_out; try (split; [reflexivity|]; split; [assumption|]; split; [reflexivity|];
         match goal with E : phase_of _ _ = _ |- _ => rewrite E; discriminate end)].

Definition bad_token (t token : option string) : bool :=
  match t, token with None, _ => false | Some t, Some t' => negb (String.eqb t t') | Some _, None => true end.

Lemma bad_token_spec : forall token req, bad_token (ir_token req) token = false <-> token_ok token req.
Proof.
  intros token req. unfold bad_token, token_ok. destruct (ir_token req) as [t|]; [|split; auto].
  destruct token as [t'|].
  - rewrite negb_false_iff. rewrite String.eqb_eq. split; [intros ->; auto|]. intros [?|E]; [discriminate|congruence].
  - split; [discriminate|]. intros [?|?]; discriminate.
Qed.

Lemma vexec_cstep : forall server token s o s' l, vexec server token s o = Some (s', l) -> cstep token s s' o l.
Proof.
  intros server token s o s' l H. destruct o.
  - vstep H. now apply cs_new.
  - cbn [vexec] in H. destruct (phase_of s c) eqn:E; try discriminate. destruct (py_create (ir_subs req)) as [sub|] eqn:Es.
    2:{ unfold refuse in H. apply (cs_refuse _ _ _ _ _ c conv); [|intros; reflexivity|right; split; auto].
        - destruct (is_up s c); injection H as <- <-; auto.
        - exists req, eopen. split; auto. intros [_ X]. congruence. }
    fold (bad_token (ir_token req) token) in H. destruct (bad_token (ir_token req) token) eqn:Et.
    { unfold refuse in H. apply (cs_refuse _ _ _ _ _ c conv); [|intros; reflexivity|right; split; auto].
      - destruct (is_up s c); injection H as <- <-; auto.
      - exists req, eopen. split; auto. intros [X _]. apply bad_token_spec in X. congruence. }
    apply bad_token_spec in Et.
    set (i := Info (ir_name req) (ir_token req) sub (ir_server req) (ir_persisted req)) in *.
    assert (Hm : made token req i) by (repeat split; auto).
    destruct (v_engine s && eopen).
    + injection H as <- <-. eapply cs_hello; eauto.
    + unfold accept in H. destruct (is_up s c) eqn:Eu; injection H as <- <-.
      * eapply (cs_accept _ _ _ _ _ c conv); [reflexivity|assumption|reflexivity|intros; reflexivity|right; split; eauto].
      * leave_c c.
  - cbn [vexec] in H. destruct (phase_of s c) eqn:E; try discriminate. destruct ok; unfold accept, refuse in H; destruct (is_up s c) eqn:Eu;
      injection H as <- <-.
    + eapply (cs_accept _ _ _ _ _ c conv); [reflexivity|assumption|reflexivity|intros; reflexivity|left; split; [eassumption|reflexivity]].
    + leave_c c.
    + apply (cs_refuse _ _ _ _ _ c conv); [auto|intros; reflexivity|left; split; eauto].
    + apply (cs_refuse _ _ _ _ _ c conv); [auto|intros; reflexivity|left; split; eauto].
  - vstep H; leave_c c.
  - vstep H; easy_same.
  - vstep H.
    + phase_c c (HRegister i conv last).
    + easy_same.
    + easy_same.
    + leave_c c.
  - vstep H.
    + phase_c c (HIdle i).
    + phase_c c (HIdle i).
    + leave_c c.
  - vstep H. phase_c c (HQuery i conv).
  - vstep H.
    + phase_c c (HIdle i).
    + leave_c c.
  - vstep H; leave_c c.
  - vstep H. eapply cs_lost; eauto.
  - vstep H; leave_c c.
  - vstep H; phase_c c HEnd.
  - vstep H; easy_same.
  - vstep H. unfold send. destruct (is_up s n0) eqn:Eu; easy_same.
  - vstep H; easy_same.
  - vstep H; easy_same.
  - vstep H. unfold send. destruct (is_up s n0) eqn:Eu; easy_same.
  - vstep H; easy_same.
  - vstep H; easy_same.
  - vstep H; easy_same.
  - vstep H; easy_same.
  - vstep H; easy_same.
  - vstep H; easy_same.
Qed.

(** ** Connections waiting to be sent something *)

Lemma targets_infos : forall c es infos xs p, In (c, es) (targets infos xs p) -> In c (keys infos).
Proof.
  intros c es infos xs p H. unfold targets in H. apply in_flat_map in H as ([k i] & H1 & H2). cbn [fst snd] in H2.
  destruct (Bool.eqb _ _); [|contradiction]. destruct (wanted i xs); [contradiction|]. destruct H2 as [[= <- _]|[]].
  now apply (in_map fst) in H1.
Qed.

Lemma vexec_refs : forall server token s o s' l c, vexec server token s o = Some (s', l) ->
    In c (refs s') -> In c (refs s) \/ In c (keys (v_infos s)).
Proof.
  intros server token s o s' l c H Hc.
  assert (Hsub : forall (x : vstate), v_sets x = v_sets s -> v_notes x = v_notes s -> (forall t, In t (v_tasks x) -> In (tk_conn t) (map tk_conn (v_tasks s))) ->
    In c (refs x) -> In c (refs s) \/ In c (keys (v_infos s))).
  { intros x H1 H2 H3 Hx. left. unfold refs in *. rewrite H1, H2 in Hx. rewrite !in_app_iff in *. destruct Hx as [|[|Hx]]; auto.
    apply in_map_iff in Hx as (t & <- & Ht). auto. }
  assert (Hid : forall t, In t (v_tasks s) -> In (tk_conn t) (map tk_conn (v_tasks s))) by (intros t; apply in_map).
  assert (Hf : forall f t, In t (filter f (v_tasks s)) -> In (tk_conn t) (map tk_conn (v_tasks s))).
  { intros f t Ht. apply filter_In in Ht as [Ht _]. auto. }
  assert (Hm : forall n k x t, In t (set_task n k x (v_tasks s)) -> In (tk_conn t) (map tk_conn (v_tasks s))).
  { intros n k x t Ht. unfold set_task in Ht. apply in_map_iff in Ht as (t0 & <- & Ht). destruct (of_task n k t0) eqn:E; auto.
    unfold of_task in E. apply andb_true_iff in E as [_ E]. apply Nat.eqb_eq in E. subst k. cbn [tk_conn]. auto. }
  destruct o.
  all: vstep H.
  all: try solve [revert Hc; apply Hsub; [reflexivity|reflexivity|auto; fail]].
  all: try solve [revert Hc; apply Hsub; [reflexivity|reflexivity|intros ? Ht; eapply Hf; exact Ht]].
  all: try solve [revert Hc; apply Hsub; [reflexivity|reflexivity|intros ? Ht; eapply Hm; exact Ht]].
  - unfold refs in Hc. parts. rewrite flat_map_app in Hc. cbn [flat_map snd] in Hc. rewrite app_nil_r in Hc. unfold refs.
    rewrite !in_app_iff in *. tauto.
  - left. unfold refs in *. parts. rewrite !in_app_iff in *. destruct Hc as [Hc|Hc]; auto. left.
    apply in_flat_map in Hc as ([m x] & H1 & H2). unfold nset in H1. apply (In_dset Nat.eqb_eq) in H1 as [[-> ->]|[_ H1]].
    + apply nget_In in E. apply in_flat_map. exists (n, n0 :: l1). split; auto. now right.
    + apply in_flat_map. exists (m, x). auto.
  - left. unfold refs in *. parts. rewrite !in_app_iff in *. destruct Hc as [Hc|Hc]; auto. left.
    apply in_flat_map in Hc as (x & H1 & H2). apply In_ddel in H1. apply in_flat_map. eauto.
  - unfold refs in Hc. parts. rewrite map_app, !in_app_iff in Hc. unfold refs. rewrite !in_app_iff.
    destruct Hc as [Hc|[Hc|[Hc|Hc]]]; auto. right.
    change (Task n (fst p) (TNew (snd p)) :: map (fun x => Task n (fst x) (TNew (snd x))) l0) with (map (fun x => Task n (fst x) (TNew (snd x))) (p :: l0)) in Hc.
    rewrite map_map in Hc. apply in_map_iff in Hc as ([c0 es0] & <- & Hc). cbn [tk_conn fst]. rewrite <- E0 in Hc. eapply targets_infos; eauto.
  - unfold refs in Hc. parts. rewrite flat_map_app, !in_app_iff in Hc. unfold refs. rewrite !in_app_iff.
    destruct Hc as [Hc|[[Hc|Hc]|Hc]]; auto. right. cbn [flat_map snd] in Hc. rewrite app_nil_r in Hc.
    change (fst p :: map fst l0) with (map fst (p :: l0)) in Hc. apply in_map_iff in Hc as ([c0 es0] & <- & Hc). cbn [fst]. rewrite <- E0 in Hc.
    eapply targets_infos; eauto.
  - left. unfold refs in *. parts. rewrite !in_app_iff in *. destruct Hc as [Hc|[Hc|Hc]]; auto. right. left.
    apply in_flat_map in Hc as ([m x] & H1 & H2). unfold nset in H1. apply (In_dset Nat.eqb_eq) in H1 as [[-> ->]|[_ H1]].
    + apply nget_In in E. apply in_flat_map. eexists. split; [exact E|]. now right.
    + apply in_flat_map. exists (m, x). auto.
  - left. unfold refs in *. parts. rewrite !in_app_iff in *. destruct Hc as [Hc|[Hc|Hc]]; auto. right. left.
    apply in_flat_map in Hc as (x & H1 & H2). apply In_ddel in H1. apply in_flat_map. eauto.
  - left. unfold refs in *. parts. rewrite !in_app_iff in *. destruct Hc as [Hc|[Hc|Hc]]; auto; [left|right; left];
    apply in_flat_map in Hc as (x & H1 & H2); apply In_ddel in H1; apply in_flat_map; eauto.
Qed.
