(** Invariant of the runner of connections to remote servers. *)
From Coq Require Import String Bool ZArith Lia List.
From Verif Require Import Base Model_Types Model_Conditions Model_Monitor Model_Remote Spec_Conditions Spec_Monitor Spec_Remote Proof_Monitor.
Import ListNotations.
Open Scope string_scope.
Open Scope list_scope.

Lemma sdata_eqb_spec : forall a b, sdata_eqb a b = true <-> a = b.
Proof.
  intros [a h p] [a' h' p']. unfold sdata_eqb; cbn. rewrite !andb_true_iff, !Z.eqb_eq, String.eqb_eq. split; [intros [[-> ->] ->]; auto|intros [= -> -> ->]; auto].
Qed.
Lemma sdata_eqb_refl : forall d, sdata_eqb d d = true.
Proof. intros d. now apply sdata_eqb_spec. Qed.
Lemma sdata_eqb_neq : forall a b, a <> b -> sdata_eqb a b = false.
Proof. intros a b H. destruct (sdata_eqb a b) eqn:E; auto. apply sdata_eqb_spec in E. contradiction. Qed.
Lemma sdata_dec : forall a b : sdata, a = b \/ a <> b.
Proof. intros a b. destruct (sdata_eqb a b) eqn:E; [left; now apply sdata_eqb_spec|right; intros ->; rewrite sdata_eqb_refl in E; discriminate]. Qed.

Lemma smem_In : forall d l, smem d l = true <-> In d l.
Proof.
  intros d l. unfold smem. rewrite existsb_exists. split.
  - intros (x & H & E). apply sdata_eqb_spec in E. now subst.
  - intros H. exists d. split; auto. apply sdata_eqb_refl.
Qed.
Lemma sremove_In : forall d x l, In x (sremove d l) <-> In x l /\ x <> d.
Proof.
  intros d x l. unfold sremove. rewrite filter_In, negb_true_iff. split; intros [H E]; split; auto.
  - intros ->. rewrite sdata_eqb_refl in E. discriminate.
  - apply sdata_eqb_neq. congruence.
Qed.
Lemma sadd_In : forall d x l, In x (sadd d l) <-> In x l \/ x = d.
Proof.
  intros d x l. unfold sadd. destruct (smem d l) eqn:E.
  - apply smem_In in E. split; [tauto|]. intros [H| ->]; auto.
  - rewrite in_app_iff. cbn. intuition.
Qed.

(** ** Published servers *)

Lemma server_of_spec : forall g t st i d, monitor_ok st -> In i (ms_components st) -> (server_of g t (ms_info st) i = Some d <-> published g t st i d).
Proof.
  intros g t st i d [Wc Wo] Hi. specialize (Wc _ Hi). unfold server_of, published.
  destruct (opt_eqb minfo_eqb (Some i) (ms_info st)) eqn:Eo; cbn [orb].
  { split; [discriminate|]. intros (H & _). exfalso. destruct (ms_info st) as [o|] eqn:E; [|discriminate]. cbn in Eo.
    apply minfo_eqb_spec in Eo; auto. exact (H o eq_refl Eo). }
  destruct (opt_eqb String.eqb (mi_group i) (Some g)) eqn:Eg; cbn [negb].
  2:{ split; [discriminate|]. intros (_ & H & _). apply (opt_eqb_spec _ _ String.eqb_eq) in H. congruence. }
  apply (opt_eqb_spec _ _ String.eqb_eq) in Eg.
  assert (Ho : forall o, ms_info st = Some o -> ~ same_entry i o).
  { intros o E H. apply minfo_eqb_spec in H; auto. rewrite E in Eo. cbn in Eo. congruence. }
  split.
  - destruct (as_int (jfield "server_id" (mi_data i))) as [n|] eqn:E1; [|discriminate].
    destruct (as_str (jfield "host" (jfield "eventer_server" (mi_data i)))) as [h|] eqn:E2; [|discriminate].
    destruct (as_int (jfield "port" (jfield "eventer_server" (mi_data i)))) as [p|] eqn:E3; [|discriminate].
    destruct (as_token (jfield "server_token" (mi_data i))) as [t'|] eqn:E4; [|discriminate].
    intros H. assert (Hd : d = Sdata n h p /\ (t = None \/ t = t')).
    { destruct t as [t|]; [|injection H as <-; auto]. destruct (opt_eqb String.eqb t' (Some t)) eqn:E5; [|discriminate].
      apply (opt_eqb_spec _ _ String.eqb_eq) in E5. injection H as <-. auto. }
    destruct Hd as [-> Ht]. cbn. repeat split; auto.
    + now apply as_int_field.
    + now apply address_spec.
    + exists t'. split; auto. now apply as_token_field.
  - intros (_ & _ & H1 & H2 & t' & H3 & H4). apply as_int_field in H1; auto. apply address_spec in H2; auto. destruct H2 as [H2 H2'].
    apply as_token_field in H3; auto. rewrite H1, H2, H2', H3. destruct d as [n h p]; cbn. destruct H4 as [-> | ->]; auto.
    destruct t' as [t'|]; auto. assert (E : opt_eqb String.eqb (Some t') (Some t') = true) by now apply (opt_eqb_spec _ _ String.eqb_eq). now rewrite E.
Qed.

Lemma servers_of_spec : forall g t st d, monitor_ok st -> (In d (servers_of g t st) <-> exists i, In i (ms_components st) /\ published g t st i d).
Proof.
  intros g t st d W. unfold servers_of. rewrite in_flat_map. split.
  - intros (i & Hi & H). exists i. split; auto. apply server_of_spec; auto. destruct (server_of g t (ms_info st) i); cbn in H; [|easy]. destruct H as [-> |[]]. reflexivity.
  - intros (i & Hi & H). exists i. split; auto. apply server_of_spec in H; auto. rewrite H. cbn; auto.
Qed.

(** ** Bookkeeping of traces *)

Lemma link_snoc : forall d tr o l, link d (tr ++ [(o, l)]) = link_step d (link d tr) o.
Proof. intros. unfold link. now rewrite fold_left_app. Qed.
Lemma busy_snoc : forall d tr x, busy d (tr ++ [x]) = busy_step d (busy d tr) x.
Proof. intros. unfold busy. now rewrite fold_left_app. Qed.
Lemma last_monitor_snoc : forall tr o l, last_monitor (tr ++ [(o, l)]) = match o with XMonitor st => Some st | _ => last_monitor tr end.
Proof. intros. unfold last_monitor. rewrite fold_left_app. cbn. now destruct o. Qed.
Definition tells (l : list xout) : list bool := flat_map (fun o => match o with Tell b => [b] | Try _ => [] end) l.
Lemma told_snoc : forall tr o l, told (tr ++ [(o, l)]) = told tr ++ tells l.
Proof. intros. unfold told. rewrite flat_map_app. cbn. now rewrite app_nil_r. Qed.

Lemma changes_snoc : forall l b x, changes b l -> x <> last l b -> changes b (l ++ [x]).
Proof.
  induction l as [|y l IH]; intros b x H N; cbn in *; auto. destruct H as [H1 H2]. split; auto. apply IH; auto.
  destruct l; cbn in *; auto. intros E. apply N. rewrite E. clear. revert b0. induction l; intros; cbn in *; auto.
Qed.

(** ** The invariant *)

Definition nonempty (l : list sdata) : bool := match l with [] => false | _ => true end.

Record xinv (g : string) (t : option string) (tr : list xitem) (s : xstate) : Prop := XI {
  xi_nodup : NoDup (keys (x_tasks s));
  xi_active : forall d, In d (x_active s) <-> exists st, link d tr = Some st /\ st <> STANDBY;
  xi_remote : x_remote s = nonempty (x_active s);
  xi_link : forall d, link d tr <> None -> phase s d = Some XOpen \/ phase s d = Some XLost;
  xi_conn : x_open s = true -> forall d, In d (x_connecting s) <-> In d (keys (x_tasks s));
  xi_valid : x_open s = true -> incl (x_valid s) (x_connecting s);
  xi_known : x_valid s = match last_monitor tr with Some st => servers_of g t st | None => [] end;
  xi_told : changes false (told tr) /\ last (told tr) false = x_remote s;
  xi_busy : forall d, busy d tr = true -> phase s d = Some XConnect \/ phase s d = Some XOpen;
  xi_open : x_open s = true <-> running tr
}.

(** Effects of [set_client_status]. *)
Lemma scs_frame : forall s d st s1 l, set_client_status s d st = (s1, l) ->
  x_valid s1 = x_valid s /\ x_connecting s1 = x_connecting s /\ x_tasks s1 = x_tasks s /\ x_open s1 = x_open s /\
  (forall x, In x (x_active s1) <-> (x <> d /\ In x (x_active s)) \/ (x = d /\ exists v, st = Some v /\ v <> STANDBY)) /\
  x_remote s1 = nonempty (x_active s1) /\
  (x_remote s1 = x_remote s /\ l = [] \/ x_remote s1 = negb (x_remote s) /\ l = [Tell (x_remote s1)]).
Proof.
  intros s d st s1 l H. unfold set_client_status in H.
  set (active := match st with None | Some STANDBY => sremove d (x_active s) | Some _ => sadd d (x_active s) end) in *.
  assert (HA : forall x, In x active <-> (x <> d /\ In x (x_active s)) \/ (x = d /\ exists v, st = Some v /\ v <> STANDBY)).
  { intros x. unfold active. destruct (sdata_dec x d) as [->|N].
    - destruct st as [v|].
      + assert (HS : v = STANDBY \/ v <> STANDBY) by (destruct v; auto; right; discriminate).
        destruct HS as [->|HS].
        * rewrite sremove_In. split; [intros [_ X]; congruence|intros [[X _]|[_ (v & [= <-] & X)]]; congruence].
        * assert (EA : match v with STANDBY => sremove d (x_active s) | _ => sadd d (x_active s) end = sadd d (x_active s)) by (destruct v; congruence).
          rewrite EA, sadd_In. split; intros _; eauto.
      + rewrite sremove_In. split; [intros [_ X]; congruence|intros [[X _]|[_ (v & [=] & X)]]; congruence].
    - destruct st as [v|]; [destruct v|]; rewrite ?sremove_In, ?sadd_In; intuition. }
  clearbody active. change (match active with [] => false | _ => true end) with (nonempty active) in H.
  destruct (Bool.eqb (nonempty active) (x_remote s)) eqn:E.
  - apply Bool.eqb_prop in E. injection H as <- <-. cbn. repeat split; auto; apply HA.
  - injection H as <- <-. cbn. repeat split; auto; try apply HA. right. split; auto. destruct (nonempty active), (x_remote s); cbn in E; auto; discriminate.
Qed.

Lemma tells_change : forall tr b r1 r, changes false (told tr) -> last (told tr) false = r ->
  (r1 = r /\ b = [] \/ r1 = negb r /\ b = [r1]) ->
  changes false (told tr ++ b) /\ last (told tr ++ b) false = r1.
Proof.
  intros tr b r1 r C L [[-> ->] | [E ->]].
  - rewrite app_nil_r. auto.
  - split; [|apply last_last]. apply changes_snoc; auto. rewrite L, E. destruct r; discriminate.
Qed.

Lemma running_snoc : forall tr o l, running (tr ++ [(o, l)]) <-> running tr /\ o <> XClose.
Proof.
  intros tr o l. unfold running. split.
  - intros H. split.
    + intros l' Hin. apply (H l'). rewrite in_app_iff. auto.
    + intros ->. apply (H l). rewrite in_app_iff. cbn. auto.
  - intros [H N] l' Hin. rewrite in_app_iff in Hin. cbn in Hin. destruct Hin as [Hin|[[= E _]|[]]]; [exact (H _ Hin)|congruence].
Qed.

Lemma spawn_all_inv : forall ds s,
  NoDup (keys (x_tasks s)) ->
  (x_open s = true -> forall d, In d (x_connecting s) <-> In d (keys (x_tasks s))) ->
  let s' := spawn_all s ds in
  x_valid s' = x_valid s /\ x_active s' = x_active s /\ x_remote s' = x_remote s /\ x_open s' = x_open s /\
  NoDup (keys (x_tasks s')) /\
  (x_open s = true -> forall d, In d (x_connecting s') <-> In d (keys (x_tasks s'))) /\
  (x_open s = true -> forall d, In d ds \/ In d (x_connecting s) -> In d (x_connecting s')) /\
  (forall d p, phase s d = Some p -> phase s' d = Some p).
Proof.
  induction ds as [|d ds IH]; intros s N C s'; subst s'; cbn [spawn_all].
  - repeat split; auto; try apply C; auto. intros _ d [[]|H]; auto.
  - destruct (smem d (x_connecting s)) eqn:E.
    + specialize (IH s N C). cbv zeta in IH. destruct IH as (H1 & H2 & H3 & H4 & H5 & H6 & H7 & H8). repeat split; auto; try (apply H6; auto).
      intros O x Hx. apply H7; auto. apply smem_In in E. destruct Hx as [[-> |Hx]|Hx]; auto.
    + destruct (x_open s) eqn:O.
      2:{ repeat split; auto; discriminate. }
      specialize (C eq_refl).
      assert (Nd : ~ In d (keys (x_tasks s))). { intros H. apply C in H. apply smem_In in H. congruence. }
      set (s1 := Xstate _ _ _ _ _ _). specialize (IH s1). cbv zeta in IH. destruct IH as (H1 & H2 & H3 & H4 & H5 & H6 & H7 & H8).
      * unfold s1, keys; cbn. rewrite map_app. cbn. now apply NoDup_snoc.
      * intros _ x. unfold s1, keys; cbn. rewrite map_app, !in_app_iff. cbn. specialize (C x). unfold keys in C. tauto.
      * rewrite H1, H2, H3, H4. unfold s1 at 1 2 3 4. cbn. repeat split; auto; try (apply H6; reflexivity).
        -- intros _ x Hx. apply H7; auto. unfold s1; cbn. rewrite in_app_iff. cbn. tauto.
        -- intros x p Hp. apply H8. unfold phase, s1 in *; cbn. destruct (sdata_dec x d) as [->|Nx].
           ++ exfalso. apply Nd. apply (dget_In sdata_eqb_spec) in Hp. unfold keys. change d with (fst (d, p)). now apply in_map.
           ++ clear -Hp. induction (x_tasks s) as [|[k v] ts IH]; cbn in *; [discriminate|]. destruct (sdata_eqb x k); auto.
Qed.

Lemma phase_goto_same : forall s d p, phase (goto s d p) d = Some p.
Proof. intros. unfold phase, goto, with_tasks; cbn. apply (dget_dset_same sdata_eqb_spec). Qed.
Lemma phase_goto_other : forall s d p x, x <> d -> phase (goto s d p) x = phase s x.
Proof. intros. unfold phase, goto, with_tasks; cbn. now apply (dget_dset_other sdata_eqb_spec). Qed.
Lemma keys_goto : forall s d p q, phase s d = Some q -> keys (x_tasks (goto s d p)) = keys (x_tasks s).
Proof.
  intros s d p q H. unfold goto, with_tasks; cbn [x_tasks]. rewrite keys_dset. unfold dmem. unfold phase in H. rewrite H. reflexivity.
Qed.
Lemma phase_In : forall s d p, phase s d = Some p -> In d (keys (x_tasks s)).
Proof. intros s d p H. apply (dget_In sdata_eqb_spec) in H. unfold keys. change d with (fst (d, p)). now apply in_map. Qed.

Lemma status_part : forall g t tr s d st s1 l o l2, xinv g t tr s -> set_client_status s d st = (s1, l) -> tells l2 = [] ->
  (forall x, link_step x (link x tr) o = if sdata_eqb x d then st else link x tr) ->
  (forall x, In x (x_active s1) <-> exists v, link x (tr ++ [(o, l ++ l2)]) = Some v /\ v <> STANDBY) /\
  x_remote s1 = nonempty (x_active s1) /\
  changes false (told (tr ++ [(o, l ++ l2)])) /\ last (told (tr ++ [(o, l ++ l2)])) false = x_remote s1.
Proof.
  intros g t tr s d st s1 l o l2 I H T L. destruct (scs_frame _ _ _ _ _ H) as (_ & _ & _ & _ & HA & HR & HT). split; [|split]; auto.
  - intros x. rewrite link_snoc, L, HA. destruct (sdata_eqb x d) eqn:E.
    + apply sdata_eqb_spec in E. intuition.
    + assert (N : x <> d) by (intros ->; rewrite sdata_eqb_refl in E; discriminate). rewrite (xi_active _ _ _ _ I). intuition.
  - rewrite told_snoc. unfold tells in *. rewrite flat_map_app. rewrite T, app_nil_r. destruct (xi_told _ _ _ _ I) as [C La].
    eapply tells_change; eauto. destruct HT as [[E ->] | [E ->]]; cbn; auto.
Qed.

Lemma no_link : forall g t tr s d p, xinv g t tr s -> phase s d = Some p -> p <> XOpen -> p <> XLost -> link d tr = None.
Proof.
  intros g t tr s d p I H N1 N2. destruct (link d tr) eqn:E; auto. exfalso. assert (X : link d tr <> None) by congruence.
  apply (xi_link _ _ _ _ I) in X. destruct X; congruence.
Qed.

Lemma busy_other : forall d d' acc o l, d <> d' ->
  (match o with XMonitor _ | XClose => True | XStep x | XMade x _ | XFail x | XStatus x _ | XDrop x | XCancel x => x = d' end) ->
  (forall y, In (Try y) l -> y = d') -> busy_step d acc (o, l) = acc.
Proof.
  intros d d' acc o l N Ho Hl. unfold busy_step; cbn [fst snd].
  assert (E : existsb (fun o => match o with Try d'0 => sdata_eqb d d'0 | Tell _ => false end) l = false).
  { destruct (existsb _ l) eqn:E; auto. apply existsb_exists in E. destruct E as (y & Hy & E). destruct y as [y|]; [|discriminate].
    apply Hl in Hy. apply sdata_eqb_spec in E. congruence. }
  rewrite E, orb_false_r. destruct o; auto; subst; now rewrite (sdata_eqb_neq _ _ N).
Qed.

Lemma scs_try : forall s d st s1 l, set_client_status s d st = (s1, l) -> forall y, ~ In (Try y) l.
Proof.
  intros s d st s1 l H y Hin. destruct (scs_frame _ _ _ _ _ H) as (_ & _ & _ & _ & _ & _ & [[_ ->]|[_ ->]]); cbn in Hin; [easy|]. destruct Hin as [[=]|[]].
Qed.

(** The end of a loop. *)
Lemma finish_inv : forall g t tr s d p s' l o, xinv g t tr s -> phase s d = Some p -> finish s d = (s', l) ->
  (o = XStep d \/ o = XCancel d /\ link d tr = None) -> (x_open s = true -> ~ In d (x_valid s)) -> (busy d tr = false \/ o = XCancel d) ->
  xinv g t (tr ++ [(o, l)]) s'.
Proof.
  intros g t tr s d p s' l o I P H Ho Hv Hb. unfold finish in H. destruct (set_client_status s d None) as [s1 l1] eqn:E. injection H as <- <-.
  assert (L : forall x, link_step x (link x tr) o = if sdata_eqb x d then None else link x tr).
  { intros x. destruct Ho as [->|[-> Hl]]; cbn; auto. destruct (sdata_eqb x d) eqn:Ex; auto. apply sdata_eqb_spec in Ex. now subst. }
  destruct (status_part _ _ _ _ _ _ _ _ o [] I E eq_refl L) as (SA & SR & SC & SL). rewrite app_nil_r in SA, SC, SL.
  destruct (scs_frame _ _ _ _ _ E) as (F1 & F2 & F3 & F4 & _).
  assert (Oc : o <> XClose) by (destruct Ho as [->|[-> _]]; discriminate).
  assert (PO : forall x, x <> d -> dget sdata_eqb x (ddel sdata_eqb d (x_tasks s)) = phase s x).
  { intros x N. unfold phase. now apply (dget_ddel_other sdata_eqb_spec). }
  constructor; cbn [x_valid x_connecting x_active x_remote x_tasks x_open]; rewrite ?F1, ?F2, ?F3, ?F4; auto.
  - apply NoDup_ddel. apply (xi_nodup _ _ _ _ I).
  - intros x. unfold phase. cbn. rewrite ?F3. rewrite link_snoc, L. destruct (sdata_eqb x d) eqn:Ex; [congruence|].
    intros Hx. rewrite PO; [now apply (xi_link _ _ _ _ I)|]. intros ->. rewrite sdata_eqb_refl in Ex. discriminate.
  - intros O x. rewrite sremove_In, (xi_conn _ _ _ _ I O x). split.
    + intros [Hk N]. unfold keys in *. apply in_map_iff in Hk. destruct Hk as ([k v] & <- & Hk). cbn in *.
      change k with (fst (k, v)). apply in_map. apply (In_ddel_iff sdata_eqb_spec); auto. apply (xi_nodup _ _ _ _ I).
    + intros Hk. split; [eapply keys_ddel_incl; eauto|]. intros ->.
      assert (X : dget sdata_eqb d (ddel sdata_eqb d (x_tasks s)) = None) by (apply (dget_ddel_same sdata_eqb_spec), (xi_nodup _ _ _ _ I)).
      apply (dget_None sdata_eqb_spec) in X. contradiction.
  - intros O x Hx. apply sremove_In. split; [now apply (xi_valid _ _ _ _ I O)|]. intros ->. now apply (Hv O).
  - rewrite last_monitor_snoc. rewrite (xi_known _ _ _ _ I). destruct Ho as [->|[-> _]]; reflexivity.
  - intros x Hx. unfold phase; cbn. rewrite ?F3. rewrite busy_snoc in Hx. destruct (sdata_dec x d) as [->|N].
    + exfalso. unfold busy_step in Hx; cbn [fst snd] in Hx.
      assert (E0 : existsb (fun o => match o with Try d' => sdata_eqb d d' | Tell _ => false end) l1 = false).
      { destruct (existsb _ l1) eqn:Ee; auto. apply existsb_exists in Ee. destruct Ee as (y & Hy & Ee). destruct y as [y|]; [|discriminate]. exfalso. exact (scs_try _ _ _ _ _ E _ Hy). }
      rewrite E0, orb_false_r in Hx. destruct Ho as [->|[-> _]].
      * destruct Hb; congruence.
      * rewrite sdata_eqb_refl in Hx. discriminate.
    + rewrite PO by auto. apply (xi_busy _ _ _ _ I). erewrite busy_other in Hx; eauto.
      * destruct Ho as [->|[-> _]]; reflexivity.
      * intros y Hy. exfalso. exact (scs_try _ _ _ _ _ E _ Hy).
  - rewrite running_snoc, <- (xi_open _ _ _ _ I). tauto.
Qed.

(** Moving a loop to another place, setting a status before. *)
Lemma move_inv : forall g t tr s d q st s1 l l2 p o, xinv g t tr s -> phase s d = Some q -> set_client_status s d st = (s1, l) -> tells l2 = [] ->
  (forall x, link_step x (link x tr) o = if sdata_eqb x d then st else link x tr) ->
  (match o with XMonitor _ | XClose => False | XStep x | XMade x _ | XFail x | XStatus x _ | XDrop x | XCancel x => x = d end) ->
  (forall y, In (Try y) l2 -> y = d) ->
  (st <> None -> p = XOpen \/ p = XLost) ->
  (busy_step d (busy d tr) (o, l ++ l2) = true -> p = XConnect \/ p = XOpen) ->
  xinv g t (tr ++ [(o, l ++ l2)]) (goto s1 d p).
Proof.
  intros g t tr s d q st s1 l l2 p o I P E T L Ho Hl Hst Hb.
  destruct (status_part _ _ _ _ _ _ _ _ o l2 I E T L) as (SA & SR & SC & SL).
  destruct (scs_frame _ _ _ _ _ E) as (F1 & F2 & F3 & F4 & _).
  assert (P1 : phase s1 d = Some q) by (unfold phase in *; rewrite F3; auto).
  assert (K : keys (x_tasks (goto s1 d p)) = keys (x_tasks s)) by (rewrite (keys_goto _ _ _ _ P1), F3; auto).
  assert (PO : forall x, x <> d -> phase (goto s1 d p) x = phase s x).
  { intros x N. rewrite phase_goto_other; auto. unfold phase. now rewrite F3. }
  constructor; rewrite ?K; try (cbn [goto with_tasks x_valid x_connecting x_active x_remote x_open]; rewrite ?F1, ?F2, ?F4); auto.
  - apply (xi_nodup _ _ _ _ I).
  - intros x. rewrite link_snoc, L. destruct (sdata_eqb x d) eqn:Ex.
    + apply sdata_eqb_spec in Ex. subst x. rewrite phase_goto_same. intros N. apply Hst in N. destruct N as [->| ->]; auto.
    + intros Hx. rewrite PO; [now apply (xi_link _ _ _ _ I)|]. intros ->. rewrite sdata_eqb_refl in Ex. discriminate.
  - apply (xi_conn _ _ _ _ I).
  - apply (xi_valid _ _ _ _ I).
  - rewrite last_monitor_snoc. rewrite (xi_known _ _ _ _ I). destruct o; tauto.
  - intros x Hx. rewrite busy_snoc in Hx. destruct (sdata_dec x d) as [->|N].
    + rewrite phase_goto_same. apply Hb in Hx. destruct Hx as [->| ->]; auto.
    + rewrite PO by auto. apply (xi_busy _ _ _ _ I). erewrite busy_other in Hx; eauto.
      * destruct o; auto.
      * intros y Hy. rewrite in_app_iff in Hy. destruct Hy as [Hy|Hy]; auto. exfalso. exact (scs_try _ _ _ _ _ E _ Hy).
  - rewrite running_snoc, <- (xi_open _ _ _ _ I). destruct o; try (intuition; discriminate); tauto.
Qed.

(** The same without setting a status. *)
Lemma pass_inv : forall g t tr s d q p o, xinv g t tr s -> phase s d = Some q ->
  (o = XFail d \/ o = XDrop d \/ o = XCancel d) -> (link d tr <> None -> p = XOpen \/ p = XLost) ->
  xinv g t (tr ++ [(o, [])]) (goto s d p).
Proof.
  intros g t tr s d q p o I P Ho Hst.
  assert (L : forall x, link_step x (link x tr) o = link x tr) by (intros x; destruct Ho as [->|[->| ->]]; reflexivity).
  assert (K : keys (x_tasks (goto s d p)) = keys (x_tasks s)) by (eapply keys_goto; eauto).
  assert (PO : forall x, x <> d -> phase (goto s d p) x = phase s x) by (intros x N; rewrite phase_goto_other; auto).
  constructor; rewrite ?K; try (cbn [goto with_tasks x_valid x_connecting x_active x_remote x_open]); try apply I.
  - intros x. rewrite link_snoc, L. apply (xi_active _ _ _ _ I).
  - intros x. rewrite link_snoc, L. intros Hx. destruct (sdata_dec x d) as [->|N].
    + rewrite phase_goto_same. apply Hst in Hx. destruct Hx as [->| ->]; auto.
    + rewrite PO by auto. now apply (xi_link _ _ _ _ I).
  - rewrite last_monitor_snoc. rewrite (xi_known _ _ _ _ I). destruct Ho as [->|[->| ->]]; auto.
  - rewrite told_snoc. cbn. rewrite app_nil_r. apply (xi_told _ _ _ _ I).
  - intros x Hx. rewrite busy_snoc in Hx. destruct (sdata_dec x d) as [->|N].
    + exfalso. unfold busy_step in Hx; cbn [fst snd existsb] in Hx. rewrite orb_false_r in Hx. destruct Ho as [->|[->| ->]]; rewrite sdata_eqb_refl in Hx; discriminate.
    + rewrite PO by auto. apply (xi_busy _ _ _ _ I). erewrite busy_other in Hx; eauto.
      * destruct Ho as [->|[->| ->]]; reflexivity.
      * intros y [].
  - rewrite running_snoc, <- (xi_open _ _ _ _ I). destruct Ho as [->|[->| ->]]; intuition; discriminate.
Qed.

Lemma no_busy : forall g t tr s d p, xinv g t tr s -> phase s d = Some p -> p <> XConnect -> p <> XOpen -> busy d tr = false.
Proof. intros g t tr s d p I P N1 N2. destruct (busy d tr) eqn:E; auto. exfalso. apply (xi_busy _ _ _ _ I) in E. destruct E; congruence. Qed.

Lemma head_inv : forall g t tr s d p s' l, xinv g t tr s -> phase s d = Some p -> p <> XConnect -> p <> XOpen -> head s d = (s', l) -> xinv g t (tr ++ [(XStep d, l)]) s'.
Proof.
  intros g t tr s d p s' l I P N1 N2 H. unfold head in H. destruct (smem d (x_valid s)) eqn:E.
  - destruct (set_client_status s d None) as [s1 l1] eqn:E1. injection H as <- <-. eapply move_inv; eauto.
    + intros y [Hy|[]]. congruence.
    + congruence.
  - eapply finish_inv; eauto.
    + intros _ Hv. apply smem_In in Hv. congruence.
    + left. eapply no_busy; eauto.
Qed.

Lemma xinv_runs : forall g t tr s, xruns g t tr s -> xinv g t tr s.
Proof.
  intros g t tr s H. induction H as [|tr s o s' l R I E].
  - constructor; cbn; [constructor| |reflexivity|congruence|tauto|intros _ x []|reflexivity|auto|discriminate|].
    + intros d. split; [easy|]. intros (st & X & _). discriminate.
    + split; [intros _ l Hl; exact Hl|auto].
  - destruct o as [st|d|d st|d|d st|d| |d]; cbn [xexec] in E.
    + injection E as <- <-. set (s0 := Xstate _ _ _ _ _ _).
      destruct (spawn_all_inv (servers_of g t st) s0 (xi_nodup _ _ _ _ I) (xi_conn _ _ _ _ I)) as (H1 & H2 & H3 & H4 & H5 & H6 & H7 & H8).
      constructor; rewrite ?H1, ?H2, ?H3, ?H4; unfold s0; cbn [x_valid x_connecting x_active x_remote x_tasks x_open]; auto.
      * intros x. rewrite link_snoc. apply (xi_active _ _ _ _ I).
      * apply (xi_remote _ _ _ _ I).
      * intros x Hx. rewrite link_snoc in Hx. apply (xi_link _ _ _ _ I) in Hx. destruct Hx as [Hx|Hx]; apply (H8 x) in Hx; auto.
      * intros O x Hx. apply H7; auto.
      * now rewrite last_monitor_snoc.
      * rewrite told_snoc. cbn. rewrite app_nil_r. apply (xi_told _ _ _ _ I).
      * intros x Hx. rewrite busy_snoc in Hx. unfold busy_step in Hx; cbn in Hx. rewrite orb_false_r in Hx. apply (xi_busy _ _ _ _ I) in Hx.
        destruct Hx as [Hx|Hx]; apply (H8 x) in Hx; auto.
      * rewrite running_snoc, <- (xi_open _ _ _ _ I). intuition; discriminate.
    + destruct (phase s d) as [p|] eqn:P; [|discriminate]. destruct p, (x_open s) eqn:O; try discriminate; injection E as E; try (eapply head_inv; eauto; discriminate).
      eapply finish_inv; eauto; [rewrite O; discriminate|left; eapply no_busy; eauto; discriminate].
    + destruct (phase s d) as [p|] eqn:P; [|discriminate]. destruct p, (x_open s) eqn:O; try discriminate.
      destruct (set_client_status s d (Some st)) as [s1 l1] eqn:E1. injection E as <- <-.
      rewrite <- (app_nil_r l1). eapply move_inv; eauto.
      * intros y [].
    + destruct (phase s d) as [p|] eqn:P; [|discriminate]. destruct p, (x_open s) eqn:O; try discriminate. injection E as <- <-.
      eapply pass_inv; eauto. intros X. exfalso. apply X. eapply no_link; eauto; discriminate.
    + destruct (phase s d) as [p|] eqn:P; [|discriminate]. destruct p; try discriminate.
      destruct (set_client_status s d (Some st)) as [s1 l1] eqn:E1. injection E as <- <-.
      assert (G : goto s1 d XOpen = s1).
      { destruct (scs_frame _ _ _ _ _ E1) as (_ & _ & F3 & _). unfold goto, with_tasks. unfold phase in P. rewrite <- F3 in P.
        destruct s1 as [v c a r ts op]; cbn in *. f_equal. clear -P. induction ts as [|[k w] ts IH]; cbn in *; [discriminate|].
        destruct (sdata_eqb d k); [now injection P as ->|]. now rewrite IH. }
      rewrite <- (app_nil_r l1), <- G. eapply move_inv; eauto.
      * intros y [].
    + destruct (phase s d) as [p|] eqn:P; [|discriminate]. destruct p; try discriminate. injection E as <- <-. eapply pass_inv; eauto.
    + injection E as <- <-. constructor; cbn [x_valid x_connecting x_active x_remote x_tasks x_open]; try discriminate.
      * apply (xi_nodup _ _ _ _ I).
      * intros x. rewrite link_snoc. apply (xi_active _ _ _ _ I).
      * apply (xi_remote _ _ _ _ I).
      * intros x Hx. rewrite link_snoc in Hx. apply (xi_link _ _ _ _ I) in Hx. exact Hx.
      * rewrite last_monitor_snoc. apply (xi_known _ _ _ _ I).
      * rewrite told_snoc. cbn. rewrite app_nil_r. apply (xi_told _ _ _ _ I).
      * intros x Hx. rewrite busy_snoc in Hx. unfold busy_step in Hx; cbn in Hx. rewrite orb_false_r in Hx. now apply (xi_busy _ _ _ _ I) in Hx.
      * rewrite running_snoc. split; [discriminate|tauto].
    + destruct (phase s d) as [p|] eqn:P; [|discriminate]. destruct p, (x_open s) eqn:O; try discriminate; apply (f_equal (fun z => match z with Some y => y | None => (s, []) end)) in E; cbn beta iota in E.
      * injection E as <- <-. 
        assert (PO : forall x, x <> d -> dget sdata_eqb x (ddel sdata_eqb d (x_tasks s)) = phase s x).
        { intros x N. unfold phase. now apply (dget_ddel_other sdata_eqb_spec). }
        constructor; unfold with_tasks; cbn [x_valid x_connecting x_active x_remote x_tasks x_open]; try (rewrite O; discriminate).
        -- apply NoDup_ddel. apply (xi_nodup _ _ _ _ I).
        -- intros x. rewrite link_snoc. apply (xi_active _ _ _ _ I).
        -- apply (xi_remote _ _ _ _ I).
        -- intros x Hx. rewrite link_snoc in Hx. cbn in Hx. unfold phase; cbn. rewrite PO; [now apply (xi_link _ _ _ _ I)|].
           intros ->. apply Hx. eapply no_link; eauto; discriminate.
        -- rewrite last_monitor_snoc. apply (xi_known _ _ _ _ I).
        -- rewrite told_snoc. cbn. rewrite app_nil_r. apply (xi_told _ _ _ _ I).
        -- intros x Hx. rewrite busy_snoc in Hx. destruct (sdata_dec x d) as [->|N].
           ++ unfold busy_step in Hx; cbn in Hx. rewrite sdata_eqb_refl in Hx. discriminate.
           ++ unfold phase; cbn. rewrite PO by auto. apply (xi_busy _ _ _ _ I). erewrite busy_other in Hx; eauto; cbn; auto. intros y [].
        -- rewrite running_snoc, <- (xi_open _ _ _ _ I). intuition; congruence.
      * eapply finish_inv; eauto; [right; split; auto; eapply no_link; eauto; discriminate|rewrite O; discriminate].
      * eapply finish_inv; eauto; [right; split; auto; eapply no_link; eauto; discriminate|rewrite O; discriminate].
      * injection E as <- <-. eapply pass_inv; eauto.
Qed.
